(** C52: signals of a client connected to input ports of a device. *)
From Coq Require Import List Bool Arith.
From Verif Require Import Ext_Model Ext_Spec Ext_Proofs.
Import ListNotations.

(** The full claim: after every history of operations that the device accepts, client and
    device agree with what the user sees. It is false, see below. *)
Definition accepted (o : op) : Prop := match o with OConnect _ _ ok => ok = true | _ => True end.
Definition full_claim : Prop := forall rd d h, Forall accepted h ->
  agrees rd (after h (View d (fun _ => None))) (run rd d h).

(** It holds for all histories in which domain signals have no domain, the domain of a
    signal changes only while it is not connected, and a signal is replaced at a port only
    by one for which that is safe. What is missing are the other histories. *)
Theorem c52_agreement_partial : forall rd d h,
  flat d -> all_allowed h (View d (fun _ => None)) ->
  agrees rd (after h (View d (fun _ => None))) (run rd d h).
Proof. intros rd d h F A. destruct (run_ok rd d h F A). now apply inv_agrees. Qed.

(** ... and every operation of such a history succeeds *)
Theorem c52_operations_succeed_partial : forall rd d h o,
  flat d -> all_allowed h (View d (fun _ => None)) -> allowed o (after h (View d (fun _ => None))) ->
  snd (step rd o (run rd d h)) = Done.
Proof.
  intros rd d h o F A AO. destruct (run_ok rd d h F A) as [IV SV].
  assert (FV : flat (v_dom (after h (View d (fun _ => None))))).
  { intros s t. destruct SV as [SA _]. rewrite <- !SA. apply (iv_flat _ _ IV). }
  pose proof (step_ok rd o _ _ IV SV FV AO) as Q. destruct (step rd o (run rd d h)) as [x' r]. apply Q.
Qed.

(** ... and when all ports are disconnected again, nothing is left at the device and the
    client holds no signal *)
Theorem c52_nothing_left_partial : forall rd d h,
  flat d -> all_allowed h (View d (fun _ => None)) ->
  (forall p, v_conn (after h (View d (fun _ => None))) p = None) ->
  (forall n, mirrors (run rd d h) n = None) /\ sport (run rd d h) = [] /\
  (forall s e, prod (run rd d h) s = Some e -> e_held e = false).
Proof.
  intros rd d h F A N. pose proof (c52_agreement_partial rd d h F A) as AG.
  set (v := after h (View d (fun _ => None))) in *.
  assert (NN : forall s, ~ needed v s) by (intros s [[p K]|[p [s2 [K _]]]]; now rewrite N in K).
  split; [|split].
  - intro n. destruct (mirrors (run rd d h) n) as [m|] eqn:E; [|easy]. exfalso. apply (NN (m_sig m)).
    apply (ag_there _ _ _ AG). exists m, n. easy.
  - destruct (run_ok rd d h F A) as [IV [_ SB]]. destruct (sport (run rd d h)) as [|[p n] l] eqn:E; [easy|]. exfalso.
    assert (K : In (p, n) (sport (run rd d h))) by (rewrite E; now left).
    apply (sg_sp _ _ _ _ _ _ _ (iv_s _ _ IV)) in K. destruct K as [s [K _]]. rewrite SB in K. fold v in K. now rewrite N in K.
  - intros s e E. destruct (e_held e) eqn:K; [|easy]. exfalso. apply (NN s). apply (ag_held _ _ _ AG). now exists e.
Qed.

(** signals 1 and 2 have domain 10, signal 3 has domain 11 *)
Definition doms (s : sig) : option sig :=
  match s with 1 => Some 10 | 2 => Some 10 | 3 => Some 11 | _ => None end.
Lemma doms_flat : flat doms.
Proof.
  intros s t H. destruct s as [|[|[|[|s]]]]; cbn in H; try discriminate; injection H as <-; reflexivity.
Qed.
Example c52_nonvacuous :
  let h := [OConnect 1 1 true; OConnect 2 2 true; OConnect 2 10 true; OConnect 1 3 true; OServerDisconnect 2; OSetDomain 2 None; ODisconnect 1] in
  flat doms /\ all_allowed h (View doms (fun _ => None)) /\
  map (fun s => deliver true s (run true doms (firstn 3 h))) [1; 2; 10] = [[(1, 1)]; []; [(2, 10)]] /\
  map (fun s => deliver true s (run true doms (firstn 4 h))) [1; 3; 10] = [[]; [(1, 3)]; [(2, 10)]].
Proof.
  cbn zeta. split; [exact doms_flat|]. split; [|split; reflexivity].
  cbn [all_allowed allowed effect v_dom v_conn].
  split; [split; [easy|]; intros old K; discriminate|].
  split; [split; [easy|]; intros old K; discriminate|].
  split.
  { split; [easy|]. intros old K _. cbn in K. injection K as <-. right. intros o A B. cbn in A, B.
    destruct A as [<-|[]]. right. exists 1, 1. split; reflexivity. }
  split.
  { split; [easy|]. intros old K _. cbn in K. injection K as <-. right. intros o A B. cbn in A, B. exfalso.
    destruct A as [<-|[<-|[]]]; destruct B as [B|[B|[]]]; discriminate. }
  split; [easy|]. split; [|easy].
  split.
  - intros s t H. unfold put in *. destruct (Nat.eq_dec s 2) as [->|N]; [discriminate|].
    destruct s as [|[|[|[|s]]]]; cbn in H; try discriminate; try (now elim N); injection H as <-; reflexivity.
  - intros p. unfold put. destruct (Nat.eq_dec p 2); [discriminate|]. destruct (Nat.eq_dec p 1); [discriminate|].
    destruct (Nat.eq_dec p 2); [discriminate|]. destruct (Nat.eq_dec p 2); [discriminate|]. destruct (Nat.eq_dec p 1); discriminate.
Qed.

(** F150: replacing a signal by one with the same domain: with readers (protocol version
    below 18) the connect fails at the client although the device's port is connected, and
    no packet comes; without, the signal at the device has lost its domain signal. *)
Theorem c52_replace_shared_domain_refuted :
  flat doms /\ Forall accepted [OConnect 1 1 true; OConnect 1 2 true] /\
  (let before := run true doms [OConnect 1 1 true] in let x := fst (step true (OConnect 1 2 true) before) in
     snd (step true (OConnect 1 2 true) before) = Threw /\ cport x 1 = None /\ device_port x 1 2 /\ deliver true 2 x = []) /\
  (let before := run false doms [OConnect 1 1 true] in let x := fst (step false (OConnect 1 2 true) before) in
     snd (step false (OConnect 1 2 true) before) = Done /\ device_port x 1 2 /\ mirrored x 2 (Mirror 2 None) /\
     ~ (exists m, mirrored x 10 m)).
Proof.
  split; [exact doms_flat|]. split; [repeat constructor|]. split; intros before x.
  - split; [vm_compute; reflexivity|]. split; [vm_compute; reflexivity|]. split; [|vm_compute; reflexivity].
    exists 3, (Mirror 2 None). split; [vm_compute; now left|]. split; vm_compute; reflexivity.
  - split; [vm_compute; reflexivity|].
    split; [exists 3, (Mirror 2 None); split; [vm_compute; now left|]; split; vm_compute; reflexivity|].
    split; [exists 3; split; vm_compute; reflexivity|]. intros [m [n [A B]]].
    assert (K : mirrors x n = if Nat.eqb n 3 then Some (Mirror 2 None) else None).
    { destruct n as [|[|[|[|n]]]]; vm_compute; reflexivity. }
    rewrite K in A. clear -A B. destruct (Nat.eqb n 3); [|discriminate]. injection A as <-. discriminate.
Qed.
Theorem c52_full_claim_refuted : ~ full_claim.
Proof.
  intro H. specialize (H true doms [OConnect 1 1 true; OConnect 1 2 true]).
  assert (A : Forall accepted [OConnect 1 1 true; OConnect 1 2 true]) by (repeat constructor).
  pose proof (ag_client _ _ _ (H A) 1) as K. vm_compute in K. discriminate.
Qed.
(** F151: the domain of a connected signal changes: after disconnecting, the signal and its
    old domain are still held and read by the client and still there at the device. *)
Theorem c52_change_domain_refuted :
  let x := run true doms [OConnect 1 1 true; OSetDomain 1 (Some 11); ODisconnect 1] in
  cport x 1 = None /\ sport x = [] /\ (exists m, mirrored x 1 m) /\ (exists m, mirrored x 10 m) /\
  (exists e, prod x 1 = Some e /\ e_held e = true /\ e_read e = true) /\
  (exists e, prod x 10 = Some e /\ e_held e = true /\ e_read e = true).
Proof.
  intro x. split; [vm_compute; reflexivity|]. split; [vm_compute; reflexivity|].
  split; [exists (Mirror 1 (Some 1)), 2; split; vm_compute; reflexivity|].
  split; [exists (Mirror 10 None), 1; split; vm_compute; reflexivity|].
  split; [exists (Entry true 2 true [])|exists (Entry true 1 true [TSig 1])]; (split; [vm_compute; reflexivity|easy]).
Qed.
(** F152: a connect that the device's port refuses leaves the signal and its domain at the
    device and held by the client. *)
Theorem c52_refused_connect_refuted :
  let x := fst (step true (OConnect 1 1 false) (init doms)) in
  snd (step true (OConnect 1 1 false) (init doms)) = Threw /\ (exists m, mirrored x 1 m) /\ (exists m, mirrored x 10 m) /\
  (exists e, prod x 1 = Some e /\ e_held e = true) /\ (exists e, prod x 10 = Some e /\ e_held e = true).
Proof.
  intro x. split; [vm_compute; reflexivity|].
  split; [exists (Mirror 1 (Some 1)), 2; split; vm_compute; reflexivity|].
  split; [exists (Mirror 10 None), 1; split; vm_compute; reflexivity|].
  split; [exists (Entry true 2 false [])|exists (Entry true 1 false [])]; (split; [vm_compute; reflexivity|easy]).
Qed.
(** F153: a domain signal that has a domain signal itself: connecting works, disconnecting
    at the client fails inside and leaves both at the device. *)
Definition chain (s : sig) : option sig := match s with 1 => Some 2 | 2 => Some 3 | _ => None end.
Theorem c52_domain_of_domain_refuted :
  ~ flat chain /\
  snd (step true (OConnect 1 1 true) (init chain)) = Done /\
  let x := run true chain [OConnect 1 1 true; ODisconnect 1] in
  cport x 1 = None /\ sport x = [] /\ (exists m, mirrored x 1 m) /\ (exists m, mirrored x 2 m).
Proof.
  split; [intro H; specialize (H 1 2 eq_refl); discriminate|]. split; [vm_compute; reflexivity|].
  intro x. split; [vm_compute; reflexivity|]. split; [vm_compute; reflexivity|].
  split; [exists (Mirror 1 (Some 1)), 2|exists (Mirror 2 None), 1]; split; vm_compute; reflexivity.
Qed.

Print Assumptions c52_agreement_partial.
Print Assumptions c52_operations_succeed_partial.
Print Assumptions c52_nothing_left_partial.
Print Assumptions c52_replace_shared_domain_refuted.
Print Assumptions c52_full_claim_refuted.
Print Assumptions c52_change_domain_refuted.
Print Assumptions c52_refused_connect_refuted.
Print Assumptions c52_domain_of_domain_refuted.
