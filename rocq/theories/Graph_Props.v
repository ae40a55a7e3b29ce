(** C24: connecting signals can never create a cycle of function blocks. *)
From Verif Require Import Base Graph_Model Graph_Spec Graph_Proofs.
Local Open Scope nat_scope.

(** No sequence of calls that sets listeners only on unconnected ports yields a
    cycle.  Missing from the full property: one thread calls at a time (see
    c24_concurrent_refuted) and listeners (c24_listener_refuted). *)
Theorem c24_acyclic_partial : forall h, polite_history h -> ~ cyclic (after h).
Proof. exact acyclic_after. Qed.

(** connect always ends, and reports a cyclic reference exactly when the new
    edge, in place of the port's old one, would close a cycle *)
Theorem c24_exact_partial : forall h s p ok, polite_history h -> ~ In s (gone_signals (after h)) ->
  (snd (step (after h) (Connect s p ok)) = Cyclic <-> cyclic (connected (after h) s p)).
Proof.
  intros h s p ok P NG. rewrite cycle_through by now apply acyclic_after. rewrite <- check_exact by apply wf_after. cbn [step].
  unfold connect, canConnectSignal. apply mem_not in NG. rewrite NG. pose proof (check_ends (after h) s p (wf_after h)) as NE.
  destruct (hasCyclicReferenceIfConnected (enough (after h)) (after h) s p) as [[|]|]; cbn [snd]; [tauto| |congruence].
  split; [|discriminate]. intros C. unfold commit in C. destruct (mem p (gone_ports (after h))); [discriminate|]. destruct ok; discriminate.
Qed.

(** The search ends in every state, whatever listeners were set, cyclic or not *)
Theorem c24_terminates : forall h s p ok, snd (step (after h) (Connect s p ok)) <> NoEnd.
Proof.
  intros h s p ok. cbn [step]. unfold connect, canConnectSignal. destruct (mem s (gone_signals (after h))); [discriminate|].
  pose proof (check_ends (after h) s p (wf_after h)) as NE. destruct (hasCyclicReferenceIfConnected (enough (after h)) (after h) s p) as [[|]|]; [discriminate| |congruence].
  unfold commit. destruct (mem p (gone_ports (after h))); [discriminate|]. destruct ok; discriminate.
Qed.

(** The outcome and the new connections, for every call in every state: success
    replaces the port's connection and touches no other; every refusal but the
    listener's leaves all connections as they were *)
Theorem c24_outcome_partial : forall h s p ok g r, step (after h) (Connect s p ok) = (g, r) ->
  (r = Connected -> g = connected (after h) s p /\ ~ In s (gone_signals (after h)) /\ ~ In p (gone_ports (after h)) /\ ok = true)
  /\ (r <> Connected -> r <> ListenerFailed -> g = after h)
  /\ (r = ListenerFailed -> ok = false)
  /\ (r = RemovedSignal <-> In s (gone_signals (after h))).
Proof.
  intros h s p ok g r. cbn [step]. unfold connect, canConnectSignal. destruct (mem s (gone_signals (after h))) eqn:M.
  - intros E. inversion E; subst. apply mem_In in M. split; [discriminate|]. split; auto. split; [discriminate|]. tauto.
  - apply mem_not in M. destruct (hasCyclicReferenceIfConnected (enough (after h)) (after h) s p) as [[|]|].
    + intros E. inversion E; subst. split; [discriminate|]. split; auto. split; [discriminate|]. split; [discriminate|tauto].
    + unfold commit. destruct (mem p (gone_ports (after h))) eqn:MP; [|destruct ok]; intros E; inversion E; subst.
      * split; [discriminate|]. split; auto. split; [discriminate|]. split; [discriminate|tauto].
      * apply mem_not in MP. split; [repeat split; auto|]. split; [congruence|]. split; [discriminate|]. split; [discriminate|tauto].
      * split; [discriminate|]. split; [congruence|]. split; auto. split; [discriminate|tauto].
    + intros E. inversion E; subst. split; [discriminate|]. split; auto. split; [discriminate|]. split; [discriminate|tauto].
Qed.

(** a port has at most one connection *)
Theorem c24_one_connection : forall h, NoDup (map fst (conns (after h))).
Proof. intros h. apply w_one_port. apply wf_after. Qed.

(** F48: giving a connected port another listener is not checked *)
Theorem c24_listener_refuted : exists h, (forall s p, ~ In (RemoveSignal s) h /\ ~ In (RemovePort p) h) /\ cyclic (after h).
Proof.
  exists (rev [AddBlock 0; AddBlock 1; AddOutput 0 10; AddPort 20 1; Connect 10 20 true; SetListener 20 (Some 0)]). split.
  - intros s p. split; intros H; cbn in H; repeat (destruct H as [H|H]; [discriminate|]); destruct H.
  - exists 0. apply one. exists 10, 20. repeat split; now left.
Qed.

(** F49: two threads connect two ports; each one's check is done before either
    connection is made, both succeed, and the graph is cyclic *)
Theorem c24_concurrent_refuted : exists h s p s' p', polite_history h
  /\ let g := after h in canConnectSignal (enough g) g s p = Connected /\ canConnectSignal (enough g) g s' p' = Connected
  /\ let (g1, r1) := commit g s p true in let (g2, r2) := commit g1 s' p' true in r1 = Connected /\ r2 = Connected /\ cyclic g2.
Proof.
  exists (rev [AddBlock 0; AddBlock 1; AddOutput 0 10; AddOutput 1 11; AddPort 20 0; AddPort 21 1]), 10, 21, 11, 20. split; [cbn; tauto|].
  cbv zeta. split; [reflexivity|]. split; [reflexivity|]. cbn. split; auto. split; auto. exists 0.
  apply more with 1; [|apply one].
  - exists 10, 21. cbn. tauto.
  - exists 11, 20. cbn. tauto.
Qed.

(** F50: a connect refused by the listener loses the connection the port had *)
Theorem c24_listener_failure_refuted : exists h s p g, polite_history h /\ step (after h) (Connect s p false) = (g, ListenerFailed)
  /\ conns (after h) <> [] /\ conns g = [].
Proof.
  exists (rev [AddBlock 0; AddBlock 1; AddOutput 0 10; AddOutput 0 11; AddPort 20 1; Connect 10 20 true]), 11, 20. eexists.
  split; [cbn; tauto|]. split; [reflexivity|]. split; [discriminate|reflexivity].
Qed.

(** A diamond of four blocks: the back edge is refused, the port keeps its
    connection, and after a disconnect the edge can be made *)
Definition diamond : list op := rev
  [AddBlock 0; AddBlock 1; AddBlock 2; AddBlock 3; AddOutput 0 10; AddOutput 1 11; AddOutput 2 12; AddOutput 3 13;
   AddPort 20 1; AddPort 21 2; AddPort 22 3; AddPort 23 3; AddPort 24 0; Connect 10 20 true; Connect 10 21 true; Connect 11 22 true; Connect 12 23 true].
Example c24_ex : polite_history diamond /\ snd (step (after diamond) (Connect 13 24 true)) = Cyclic /\ length (conns (after diamond)) = 4
  /\ snd (step (after (rev [Disconnect 22; Disconnect 23] ++ diamond)) (Connect 13 24 true)) = Connected
  /\ snd (step (after diamond) (Connect 11 23 true)) = Connected.
Proof. split; [cbn; tauto|]. repeat split. Qed.

Print Assumptions c24_acyclic_partial.
Print Assumptions c24_exact_partial.
Print Assumptions c24_terminates.
Print Assumptions c24_outcome_partial.
Print Assumptions c24_one_connection.
Print Assumptions c24_listener_refuted.
Print Assumptions c24_concurrent_refuted.
Print Assumptions c24_listener_failure_refuted.
