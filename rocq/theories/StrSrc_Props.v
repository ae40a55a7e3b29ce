(** C71: the streaming sources of a device, their connection statuses and their owner stay in
    step. *)
From Coq Require Import String List Bool Arith Lia.
From Verif Require Import StrSrc_Model StrSrc_Spec StrSrc_Proofs.
Import ListNotations.
Open Scope string_scope.

(** They are in step after any history without surprises. Missing: streamings without a string,
    with the string of the configuration connection, or with another string than was asked for. *)
Theorem c71_in_step_partial : forall cs conf ops, Forall (clean cs conf) ops ->
  inStep cs conf (run cs ops).
Proof. intros cs conf ops F. apply (run_inv cs conf ops F). Qed.

(** After such a history a streaming of a new string is added behind the others, and only it, its
    status and its owner change ... *)
Theorem c71_add_partial : forall cs conf ops k, Forall (clean cs conf) ops ->
  cs k <> "" -> cs k <> conf -> ~ In (cs k) (map cs (sources (run cs ops))) ->
  let s := run cs ops in
  let s' := run cs (ops ++ [AddSource k]) in
  snd (addSource cs k s) = Success /\
  sources s' = (sources s ++ [k])%list /\
  statuses s' = (statuses s ++ [cs k])%list /\
  (forall j, owned s' j = true <-> j = k \/ owned s j = true).
Proof.
  intros cs conf ops k F E C N s s'.
  assert (S' : s' = fst (addSource cs k s)) by (unfold s', s, run; rewrite fold_left_app; reflexivity).
  assert (A : addSource cs k s = attach cs k s).
  { unfold addSource. apply find_none in N. fold s in N. rewrite N. reflexivity. }
  rewrite S', A, (attach_ok cs conf k s (run_inv cs conf ops F) E C N). cbn [fst snd sources statuses owned].
  split; [reflexivity|]. split; [reflexivity|]. split; [reflexivity|].
  intros j. destruct (Nat.eqb j k) eqn:J.
  - apply Nat.eqb_eq in J. split; [intros _; left; exact J | reflexivity].
  - apply Nat.eqb_neq in J. split; [intros O; right; exact O | intros [O|O]; [contradiction | exact O]].
Qed.

(** ... and, in any state, one of a string that is taken is refused and changes nothing. *)
Theorem c71_duplicate : forall cs s k, In (cs k) (map cs (sources s)) ->
  addSource cs k s = (s, DuplicateItem) /\ addStreaming cs (cs k) k s = (s, DuplicateItem).
Proof.
  intros cs s k I. unfold addSource, addStreaming.
  destruct (findSource cs (cs k) s) eqn:F; [split; reflexivity|].
  apply find_none in F. contradiction.
Qed.

(** Removing by the string of a source takes away that source, its status and its owner, and
    leaves the others in their order ... *)
Theorem c71_remove_partial : forall cs conf ops c k, Forall (clean cs conf) ops ->
  In k (sources (run cs ops)) -> cs k = c ->
  let s := run cs ops in
  let s' := run cs (ops ++ [RemoveSource c]) in
  snd (removeSource cs c s) = Success /\
  (exists a b, sources s = (a ++ k :: b)%list /\ sources s' = (a ++ b)%list) /\
  (forall x, In x (statuses s') <-> In x (statuses s) /\ x <> c) /\
  (forall j, owned s' j = true <-> owned s j = true /\ j <> k).
Proof.
  intros cs conf ops c k F I E s s'.
  assert (S' : s' = fst (removeSource cs c s)) by (unfold s', s, run; rewrite fold_left_app; reflexivity).
  pose proof (run_inv cs conf ops F) as V. fold s in V, I.
  destruct (findSource cs c s) as [j|] eqn:FS.
  2:{ exfalso. apply find_none in FS. apply FS. rewrite <- E. apply in_map, I. }
  destruct (find_some' cs c s j FS) as [J1 J2].
  assert (N : NoDup (map cs (sources s))) by apply V.
  assert (JK : j = k) by (apply (same_string cs (sources s) j k N J1 I); congruence). subst j.
  rewrite S', (remove_ok cs conf c k s V FS). cbn [fst snd sources statuses owned].
  split; [reflexivity|]. split; [|split].
  - clear - N I E. induction (sources s) as [|x l IH]; [destruct I|].
    cbn [map] in N. apply NoDup_cons_iff in N. destruct N as [X N]. cbn [eraseFirst].
    destruct (String.eqb c (cs x)) eqn:Q.
    + apply String.eqb_eq in Q. destruct I as [I|I].
      * subst x. exists [], l. split; reflexivity.
      * exfalso. apply X. rewrite <- Q, <- E. apply in_map, I.
    + apply String.eqb_neq in Q. destruct I as [I|I]; [subst x; exfalso; apply Q; symmetry; exact E|].
      destruct (IH I N) as [a [b [A B]]]. exists (x :: a), b. split; [rewrite A; reflexivity | rewrite B; reflexivity].
  - intros x. apply filter_status.
  - intros i. destruct (Nat.eqb i k) eqn:K.
    + apply Nat.eqb_eq in K. split; [discriminate | intros [_ X]; contradiction].
    + apply Nat.eqb_neq in K. split; [intros O; split; assumption | intros [O _]; exact O].
Qed.

(** ... and, in any state, an unknown string is refused and changes nothing. *)
Theorem c71_remove_unknown : forall cs s c, ~ In c (map cs (sources s)) ->
  removeSource cs c s = (s, NotFound).
Proof. intros cs s c N. unfold removeSource. apply find_none in N. rewrite N. reflexivity. Qed.

(** Removing the device leaves no source, no owner, and just the statuses that were not of
    sources. *)
Theorem c71_removed_partial : forall cs conf ops, Forall (clean cs conf) ops ->
  let s := run cs ops in
  let s' := run cs (ops ++ [Removed]) in
  snd (removed cs s) = Success /\ sources s' = [] /\ (forall k, owned s' k = false) /\
  (forall c, In c (statuses s') <-> In c (statuses s) /\ ~ In c (map cs (sources s))).
Proof.
  intros cs conf ops F s s'.
  assert (S' : s' = fst (removed cs s)) by (unfold s', s, run; rewrite fold_left_app; reflexivity).
  destruct (removed_ok cs conf s (run_inv cs conf ops F)) as [t [E [B1 [_ [B3 B4]]]]].
  rewrite S', E. cbn [fst snd]. split; [reflexivity|]. split; [exact B1|]. split; [exact B4|exact B3].
Qed.

(** The status of the configuration connection outlives all of this. *)
Theorem c71_config_partial : forall cs conf ops ops', Forall (clean cs conf) (ops ++ ops') ->
  In conf (statuses (run cs ops)) -> In conf (statuses (run cs (ops ++ ops'))).
Proof.
  intros cs conf ops ops'. revert ops. induction ops' as [|o ops' IH]; intros ops F I.
  - rewrite app_nil_r. exact I.
  - replace (ops ++ o :: ops')%list with ((ops ++ [o]) ++ ops')%list in * by (rewrite <- app_assoc; reflexivity).
    apply IH; [exact F|].
    apply Forall_app in F. destruct F as [F _]. apply Forall_app in F. destruct F as [F1 F2].
    apply Forall_cons_iff in F2. destruct F2 as [C _].
    pose proof (run_inv cs conf ops F1) as V.
    unfold run at 1. rewrite fold_left_app. fold (run cs ops). cbn [fold_left].
    set (s := run cs ops) in *. destruct o as [c|k|req k|c|]; cbn [step].
    + unfold addConfig. destruct (String.eqb c ""); [exact I|]. destruct (confAdded s || hasStatus c s); [exact I|].
      cbn [fst statuses]. apply in_or_app. left. exact I.
    + destruct C as [C1 C2]. unfold addSource. destruct (findSource cs (cs k) s) eqn:Q; [exact I|].
      apply find_none in Q. rewrite (attach_ok cs conf k s V C1 C2 Q). cbn [fst statuses]. apply in_or_app. left. exact I.
    + destruct C as [C1 [C2 C3]]. subst req. unfold addStreaming. destruct (findSource cs (cs k) s) eqn:Q; [exact I|].
      apply find_none in Q. rewrite (attach_ok cs conf k s V C1 C2 Q). cbn [fst statuses]. apply in_or_app. left. exact I.
    + destruct (findSource cs c s) as [k|] eqn:Q.
      * rewrite (remove_ok cs conf c k s V Q). cbn [fst statuses]. apply filter_status. split; [exact I|].
        destruct (find_some' cs c s k Q) as [K1 K2]. destruct V as [_ P]. intros X. apply (P k K1). congruence.
      * unfold removeSource. rewrite Q. exact I.
    + destruct (removed_ok cs conf s V) as [t [E [_ [_ [B3 _]]]]]. rewrite E. cbn [fst]. apply B3.
      split; [exact I|]. intros X. apply in_map_iff in X. destruct X as [k [K1 K2]].
      destruct V as [_ P]. exact (P k K2 K1).
Qed.

(** After any history at all, a streaming that has the device as its owner is one of its sources. *)
Theorem c71_owner : forall cs ops k, owned (run cs ops) k = true -> In k (sources (run cs ops)).
Proof.
  intros cs ops. unfold run.
  assert (G : forall s, (forall j, owned s j = true -> In j (sources s)) ->
    forall j, owned (fold_left (step cs) ops s) j = true -> In j (sources (fold_left (step cs) ops s))).
  { induction ops as [|o ops IH]; intros s H; [exact H|]. cbn [fold_left]. apply IH. apply step_owned, H. }
  apply G. intros j H. discriminate H.
Qed.

(** A streaming with the string of the configuration connection is refused, but stays in the list,
    without an owner; removing it takes away the status of the configuration connection. *)
Theorem c71_config_refuted : exists cs k,
  let s := run cs [AddConfig "daq.nd://device"] in
  let (s1, e1) := addSource cs k s in
  let (s2, e2) := removeSource cs (cs k) s1 in
  cs k = "daq.nd://device" /\ e1 = AlreadyExists /\ sources s1 = [k] /\ owned s1 k = false /\
  e2 = Success /\ In "daq.nd://device" (statuses s1) /\ statuses s2 = [].
Proof.
  exists (fun _ => "daq.nd://device"), 0. cbn. repeat split; left; reflexivity.
Qed.

(** A streaming without a string is refused, but stays in the list; it cannot be removed, and the
    device can no longer be removed cleanly: the sources behind it keep the device as owner. *)
Theorem c71_stuck_refuted : exists cs ops k j,
  let s := run cs ops in
  cs k = "" /\ sources s = [k; j] /\
  removeSource cs "" s = (s, NotFound) /\
  snd (removed cs s) = NotFound /\ owned (fst (removed cs s)) j = true /\
  sources (fst (removed cs s)) = [k; j].
Proof.
  exists (fun k => match k with 0 => "" | _ => "daq.ns://device" end), [AddSource 0; AddSource 1], 0, 1.
  cbn. repeat split.
Qed.

(** A streaming asked for by one string and made with the string of a source that is there already
    is refused, but stays in the list a second time. *)
Theorem c71_requested_refuted : exists cs req k j,
  let s := run cs [AddSource k; AddStreaming req j] in
  snd (addStreaming cs req j (run cs [AddSource k])) = AlreadyExists /\ k <> j /\
  sources s = [k; j] /\ cs k = cs j /\ owned s j = false.
Proof.
  exists (fun _ => "daq.ns://10.0.0.1"), "daq.ns://device", 0, 1. cbn. repeat split. discriminate.
Qed.

(** ** Concrete cases *)

Definition c71_names (k : nat) : string :=
  match k with 0 => "daq.ns://a" | 1 => "daq.lt://a" | _ => "daq.ns://b" end.

Definition c71_ops : list op :=
  [AddConfig "daq.nd://a"; AddSource 0; AddStreaming "daq.lt://a" 1; AddSource 2; RemoveSource "daq.ns://a"].

Example c71_case_clean : Forall (clean c71_names "daq.nd://a") c71_ops.
Proof. unfold c71_ops. repeat constructor; discriminate. Qed.

Example c71_case_run :
  sources (run c71_names c71_ops) = [1; 2] /\
  statuses (run c71_names c71_ops) = ["daq.nd://a"; "daq.lt://a"; "daq.ns://b"] /\
  map (owned (run c71_names c71_ops)) [0; 1; 2] = [false; true; true].
Proof. repeat split; vm_compute; reflexivity. Qed.

Example c71_case_new : ~ In (c71_names 0) (map c71_names (sources (run c71_names c71_ops))).
Proof. vm_compute. intros [H|[H|[]]]; discriminate H. Qed.

Print Assumptions c71_in_step_partial.
Print Assumptions c71_add_partial.
Print Assumptions c71_duplicate.
Print Assumptions c71_remove_partial.
Print Assumptions c71_remove_unknown.
Print Assumptions c71_removed_partial.
Print Assumptions c71_config_partial.
Print Assumptions c71_owner.
Print Assumptions c71_config_refuted.
Print Assumptions c71_stuck_refuted.
Print Assumptions c71_requested_refuted.
