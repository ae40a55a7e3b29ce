(** C54: mirrored signals are requested from a streaming source exactly while
    they are needed through it. *)
From Coq Require Import List Bool Arith Lia.
Import ListNotations.
From Verif Require Import Mir_Model Mir_Spec Mir_Proofs Mir_Inv Mir_Steps.

(** After any history of successful calls a signal that a source has is
    requested from the server behind that source if and only if the server
    offers it and some signal that is connected, streamed and has this source
    as its active one needs it. Left out: the circumstances of [calm], and
    histories with failed calls. *)
Theorem c54_requested_exactly_while_needed_partial : forall n skip st s g,
  reached n skip st -> has st s g ->
  (asked (st_wire st) s g <-> r_avail (st_src st s) g = true /\ exists v, needs st v s g).
Proof. intros n skip st s g R. apply in_accord. exact (inv_reached n skip st R). Qed.

(** The calls that take something away never fail, and those that ask for
    something do not when every source that has a signal has its domain signal. *)
Theorem c54_letting_go_succeeds_partial : forall n skip st, reached n skip st ->
  (forall g c, In c (g_conns (st_sig st g)) -> failed (snd (disconnect st g c)) = false) /\
  (forall g, failed (snd (deactivate st g)) = false) /\
  (forall s g, has st s g -> failed (snd (remove_signal st s g)) = false) /\
  (forall s, r_alive (st_src st s) = true -> failed (snd (remove_all st s)) = false).
Proof.
  intros n skip st R. pose proof (inv_reached n skip st R) as IV. split; [|split; [|split]].
  - intros g c H. destruct (disconnect st g c) as [st' o] eqn:E.
    apply (inv_disconnect none st g c st' o IV E). now apply memb_In.
  - intros g. now apply (inv_deactivate none st g IV).
  - intros s g. now apply remove_signal_succeeds.
  - intros s. now apply remove_all_succeeds.
Qed.

Theorem c54_asking_succeeds_partial : forall n skip st, reached n skip st -> complete st ->
  (forall g c, g_removed (st_sig st g) = false -> ~ In c (g_conns (st_sig st g)) -> failed (snd (connect st g c)) = false) /\
  (forall g s, has st s g -> failed (snd (set_active st g s)) = false) /\
  (forall g b, failed (snd (set_streamed st g b)) = false).
Proof.
  intros n skip st R CP. pose proof (inv_reached n skip st R) as IV. split; [|split].
  - intros g c. now apply connect_succeeds.
  - intros g s. now apply set_active_succeeds.
  - intros g b. now apply set_streamed_succeeds.
Qed.

(** Switching the source: afterwards the signal has the new source, and no
    other source is asked for it unless another signal needs it there. *)
Theorem c54_switching_source_partial : forall n skip st g s,
  reached n skip st -> failed (snd (step st (SetActive g s))) = false ->
  let st' := fst (step st (SetActive g s)) in
  active_source st' g = Some s /\
  (forall s', s' <> s -> has st' s' g -> (forall v, v <> g -> ~ needs st' v s' g) -> ~ asked (st_wire st') s' g).
Proof.
  intros n skip st g s R F st'.
  assert (R' : reached n skip st') by (apply r_step; [exact R|exact I|exact F]).
  assert (A' : active_source st' g = Some s).
  { unfold st', step in *. destruct (possible st (SetActive g s)); [|discriminate]. cbn [act] in *.
    apply set_active_active; [|exact F]. exact (inv_reached n skip st R). }
  split; [exact A'|].
  intros s' NS HS OTH AK.
  apply (c54_requested_exactly_while_needed_partial n skip st' s' g R' HS) in AK. destruct AK as [_ [v NV]].
  destruct (Nat.eq_dec v g) as [ ->|NE]; [|now apply (OTH v NE)].
  destruct NV as [[_ [_ A]] _]. congruence.
Qed.

(** Every packet that reached a connection came over the source that was the
    active one of its signal at that moment, the signal was streamed and the
    connection was one of its connections. All histories, failed calls too. *)
Theorem c54_data_from_active_source : forall n skip l g c s k,
  In (g, c, s, k) (st_out (run (start n skip) l)) ->
  exists l1 l2, l = l1 ++ Packet s g k :: l2 /\
    In c (g_conns (st_sig (run (start n skip) l1) g)) /\
    g_streamed (st_sig (run (start n skip) l1) g) = true /\
    active_source (run (start n skip) l1) g = Some s.
Proof.
  intros n skip l. induction l as [|o l IH] using rev_ind; intros g c s k H; [destruct H|].
  rewrite run_app in H. apply out_step in H. destruct H as [H|(EO&H1&H2&H3)].
  - destruct (IH g c s k H) as (l1&l2&E&Q). exists l1, (l2 ++ [o]). split; [|exact Q].
    rewrite E, <- app_assoc. reflexivity.
  - exists l, []. subst o. auto.
Qed.

(** A packet that comes over an active source goes to every connection of a
    signal that is received through it, in the order of the connections. *)
Theorem c54_data_reaches_all_partial : forall n skip st g s k,
  reached n skip st -> receives st g s -> g < st_n st -> r_on (st_src st s) = true ->
  st_out (fst (step st (Packet s g k))) = st_out st ++ map (fun c => (g, c, s, k)) (g_conns (st_sig st g)).
Proof.
  intros n skip st g s k R (L&T&A) B ON. pose proof (inv_reached n skip st R) as IV.
  unfold step, possible. cbn [op_sig op_src act]. rewrite (proj2 (Nat.ltb_lt g (st_n st)) B).
  rewrite (proj2 (active_alive st g s A)). cbn [andb]. unfold packet. rewrite ON, T, A, Nat.eqb_refl.
  destruct (has_item st s g IV (active_has st g s IV A)) as [q Q]. rewrite Q. reflexivity.
Qed.

(** *** A session: signals 0 (value), 1 (its domain), 2 (another value with the
    same domain), sources 0 and 1. *)
Definition setup : list op :=
  [SetDomain 0 (Some 1); SetDomain 2 (Some 1);
   AddSignal 0 0; AddSignal 0 1; AddSignal 0 2; AddSignal 1 0; AddSignal 1 1; AddSignal 1 2;
   Avail 0 0; Avail 0 1; Avail 0 2; Avail 1 0; Avail 1 1; Avail 1 2;
   SetActive 0 0; SetActive 2 0; SrcActive 0 true; SrcActive 1 true].
Definition session : list op :=
  setup ++ [Connect 0 7; Connect 2 8; Connect 0 9; SetActive 0 1; Packet 1 0 5; Packet 0 0 6; Disconnect 2 8].
Definition none_skip : nat -> bool := fun _ => false.

(** A way to see that a history is one of [reached]. *)
Fixpoint good (st : state) (l : list op) : bool :=
  match l with
  | [] => true
  | o :: l =>
      negb (failed (snd (step st o)))
      && match o with
         | RemoveSignal _ _ => false
         | SetDomain v _ => match g_conns (st_sig st v) with [] => true | _ => false end
         | AddSignal _ g => negb (g_removed (st_sig st g))
         | _ => true
         end
      && good (fst (step st o)) l
  end.

Lemma good_reached n skip l : forall st, reached n skip st -> good st l = true -> reached n skip (run st l).
Proof.
  induction l as [|o l IH]; intros st R G; [exact R|]. cbn [good] in G. rewrite !andb_true_iff, negb_true_iff in G.
  destruct G as [[F C] G]. apply (IH (fst (step st o))); [|exact G]. apply r_step; [exact R| |exact F].
  destruct o; cbn [calm] in *; try exact Logic.I; try discriminate.
  - now apply negb_true_iff.
  - intros s (L&_). unfold listening in L. now destruct (g_conns (st_sig st g)).
Qed.

Definition after (l : list op) : state := run (start 3 none_skip) l.

Example c54_session_reached : reached 3 none_skip (after session).
Proof. apply good_reached; [constructor|vm_compute; reflexivity]. Qed.

Example c54_session_complete : complete (after setup).
Proof.
  intros v s d HS D _.
  assert (R : reached 3 none_skip (after setup)) by (apply good_reached; [constructor|vm_compute; reflexivity]).
  pose proof (inv_reached _ _ _ R) as IV.
  assert (B : v < st_n (after setup)).
  { destruct (has_item _ _ _ IV HS) as [k E]. apply (i_bound none _ IV v s). congruence. }
  replace (st_n (after setup)) with 3 in B by (vm_compute; reflexivity).
  destruct HS as [H _]. clear IV R.
  destruct v as [|[|[|v]]]; [| | |exfalso; clear -B; lia].
  all: vm_compute in D; try discriminate D.
  all: vm_compute in H; inversion D; subst d; clear D.
  all: destruct H as [<-|[<-|[]]].
  all: (split; [discriminate|intros _]).
  all: split; [vm_compute; auto|vm_compute; reflexivity].
Qed.

(** Signal 0 is received through source 1, where it and its domain signal are
    requested; nothing is requested from source 0 any more. *)
Example c54_session_state :
  has (after session) 1 0 /\ has (after session) 0 1 /\ needs (after session) 0 1 1 /\
  asked (st_wire (after session)) 1 0 /\ asked (st_wire (after session)) 1 1 /\ ~ asked (st_wire (after session)) 0 1 /\
  st_wire (after session) =
    [Ask 0 1; Ask 0 0; Ask 0 2; Cancel 0 0; Ask 1 1; Ask 1 0; Cancel 0 1; Cancel 0 2] /\
  st_out (after session) = [(0, 7, 1, 5); (0, 9, 1, 5)].
Proof.
  repeat match goal with |- _ /\ _ => split end; try (vm_compute; auto; fail); try (vm_compute; discriminate).
  - unfold needs, receives, listening. repeat split; try (vm_compute; discriminate); try (vm_compute; reflexivity).
    right. vm_compute. auto.
Qed.

(** *** Where the full claim fails *)

(** The device gives a received signal another domain signal: the old one stays
    requested, and when the last listener leaves the call fails and the value
    signal itself stays requested. *)
Definition changed : list op := setup ++ [Connect 0 7; SetDomain 0 (Some 2)].
Theorem c54_domain_change_refuted :
  (forall o, In o (outcomes (start 3 none_skip) changed) -> failed o = false) /\
  has (after changed) 0 1 /\ asked (st_wire (after changed)) 0 1 /\ (forall v, v < 3 -> ~ needs (after changed) v 0 1) /\
  snd (step (after changed) (Disconnect 0 7)) = BadState /\
  asked (st_wire (after (changed ++ [Disconnect 0 7]))) 0 0 /\
  g_conns (st_sig (after (changed ++ [Disconnect 0 7])) 0) = [].
Proof.
  split; [intros o H; vm_compute in H; repeat (destruct H as [<-|H]; [reflexivity|]); destruct H|].
  split; [vm_compute; auto|]. split; [vm_compute; reflexivity|]. split.
  - intros v B [[L _] [ ->|[D _]]]; [vm_compute in L; now apply L|].
    destruct v as [|[|[|v]]]; [| | |exfalso; clear -B; lia]; vm_compute in D; try discriminate D. vm_compute in L. now apply L.
  - repeat split; vm_compute; reflexivity.
Qed.

(** A connection whose subscription fails (the source does not have the domain
    signal) leaves the signal marked as listened to: the next connection is
    accepted although nothing is requested. *)
Definition no_domain : list op :=
  [SetDomain 0 (Some 1); AddSignal 0 0; Avail 0 0; Avail 0 1; SetActive 0 0; Connect 0 7].
Theorem c54_failed_connect_refuted :
  snd (step (after [SetDomain 0 (Some 1); AddSignal 0 0; Avail 0 0; Avail 0 1; SetActive 0 0]) (Connect 0 7)) = NotFound /\
  snd (step (after (no_domain ++ [AddSignal 0 1])) (Connect 0 8)) = OK /\
  needs (after (no_domain ++ [AddSignal 0 1; Connect 0 8])) 0 0 0 /\
  has (after (no_domain ++ [AddSignal 0 1; Connect 0 8])) 0 0 /\
  st_wire (after (no_domain ++ [AddSignal 0 1; Connect 0 8])) = [].
Proof.
  split; [vm_compute; reflexivity|]. split; [vm_compute; reflexivity|]. split; [|split].
  - unfold needs, receives, listening. split; [|now left]. repeat split; vm_compute; discriminate || reflexivity.
  - vm_compute. auto.
  - vm_compute. reflexivity.
Qed.

(** Such a connection, once closed, takes away a subscription of another
    signal: here the domain signal 1, needed by signal 2. *)
Definition steal : list op :=
  no_domain ++ [AddSignal 0 1; Connect 0 8; SetDomain 2 (Some 1); AddSignal 0 2; Avail 0 2; SetActive 2 0; Connect 2 9;
   Disconnect 0 8].
Theorem c54_stolen_subscription_refuted :
  asked (st_wire (after (no_domain ++ [AddSignal 0 1; Connect 0 8; SetDomain 2 (Some 1); AddSignal 0 2; Avail 0 2; SetActive 2 0; Connect 2 9]))) 0 1 /\
  needs (after steal) 2 0 1 /\ has (after steal) 0 1 /\ r_avail (st_src (after steal) 0) 1 = true /\
  ~ asked (st_wire (after steal)) 0 1.
Proof.
  split; [vm_compute; reflexivity|]. split.
  - unfold needs, receives, listening. repeat split; try (vm_compute; discriminate); try (vm_compute; reflexivity).
    right. vm_compute. auto.
  - split; [vm_compute; auto|]. split; [vm_compute; reflexivity|]. vm_compute. discriminate.
Qed.

(** A domain signal is taken from the source of a signal that is received
    through it: closing the connection fails and the value signal stays
    requested; the source cannot be switched either. *)
Definition taken : list op := setup ++ [Connect 0 7; RemoveSignal 0 1].
Theorem c54_domain_taken_refuted :
  (forall o, In o (outcomes (start 3 none_skip) taken) -> failed o = false) /\
  snd (step (after taken) (Disconnect 0 7)) = NotFound /\
  snd (step (after taken) (SetActive 0 1)) = NotFound /\
  has (after (taken ++ [Disconnect 0 7])) 0 0 /\
  g_conns (st_sig (after (taken ++ [Disconnect 0 7])) 0) = [] /\
  asked (st_wire (after (taken ++ [Disconnect 0 7]))) 0 0.
Proof.
  split; [intros o H; vm_compute in H; repeat (destruct H as [<-|H]; [reflexivity|]); destruct H|].
  split; [vm_compute; reflexivity|]. split; [vm_compute; reflexivity|]. split; [vm_compute; auto|].
  split; vm_compute; reflexivity.
Qed.

Print Assumptions c54_requested_exactly_while_needed_partial.
Print Assumptions c54_letting_go_succeeds_partial.
Print Assumptions c54_asking_succeeds_partial.
Print Assumptions c54_switching_source_partial.
Print Assumptions c54_data_from_active_source.
Print Assumptions c54_data_reaches_all_partial.
Print Assumptions c54_domain_change_refuted.
Print Assumptions c54_failed_connect_refuted.
Print Assumptions c54_stolen_subscription_refuted.
Print Assumptions c54_domain_taken_refuted.
