(** C15: core events reach the client in order, none lost, and before the reply
    of the call that caused them. *)
From Coq Require Import List Bool Arith Lia.
From Verif Require Import Notif_Model Notif_Spec Notif_Proofs.
Import ListNotations.

(** Exactly once and in order, at every moment of every schedule: what was sent
    so far, then what waits, then what the thread is about to add, are the
    forwarded events of that thread, once each and in the order raised. *)
Theorem c15_exactly_once : forall v n h st t,
  run (init v n) h = Some st ->
  RaisedBy v h t (by_thread t (sent st ++ s_queue st) ++ pending st t).
Proof. intros v n h st t E. exact (run_acc h v n st t E). Qed.

(** ... and there is no other list of that kind. *)
Theorem c15_raised_determined : forall v h t l l', RaisedBy v h t l -> RaisedBy v h t l' -> l = l'.
Proof. intros v h t l l' H H'. exact (raised_fun v h t l H l' H'). Qed.

(** Between threads: what has been packed at some moment precedes everything
    packed later, and what was sent stays as it was. *)
Lemma step_extends : forall st l st', step st l = Some st' ->
  (exists x, sent st' ++ s_queue st' = (sent st ++ s_queue st) ++ x) /\ (exists w, s_wire st' = s_wire st ++ w).
Proof.
  intros st l st' E.
  assert (Same : forall s2, s_wire s2 = s_wire st -> s_queue s2 = s_queue st ->
     (exists x, sent s2 ++ s_queue s2 = (sent st ++ s_queue st) ++ x) /\ (exists w, s_wire s2 = s_wire st ++ w)).
  { intros s2 W Q. split; exists []; rewrite app_nil_r; [|exact W]. unfold sent. rewrite W, Q. reflexivity. }
  assert (Out : forall s2, s_wire s2 = s_wire (send_out st) -> s_queue s2 = s_queue (send_out st) ->
     (exists x, sent s2 ++ s_queue s2 = (sent st ++ s_queue st) ++ x) /\ (exists w, s_wire s2 = s_wire st ++ w)).
  { intros s2 W Q. split.
    - exists []. rewrite app_nil_r. pose proof (send_out_all st) as A. unfold all_sent in A. unfold sent in *. rewrite W, Q. exact A.
    - rewrite W. unfold send_out. destruct (s_queue st); [exists []; rewrite app_nil_r; reflexivity|eexists; reflexivity]. }
  destruct l as [t e|t|t r|t|w]; cbn [step] in E; [| | | |injection E as <-; apply Same; reflexivity];
    (destruct (nth_error (s_threads st) t) as [th|] eqn:N; [|discriminate]).
  - destruct (t_pc th); try discriminate. destruct (packs _ _); injection E as <-; apply Same; reflexivity.
  - destruct (t_pc th) as [|e| | | |]; try discriminate.
    + injection E as <-. split; [exists [(t, e)]; cbn [with_thread with_queue s_queue]; rewrite app_assoc; reflexivity|].
      exists []. rewrite app_nil_r. reflexivity.
    + destruct (_ || _); injection E as <-; apply Same; reflexivity.
    + injection E as <-. apply Out; reflexivity.
    + injection E as <-. apply Out; reflexivity.
    + destruct (t_calls th) as [|[r b] cs]; [discriminate|]. injection E as <-. split.
      * exists []. rewrite sent_item, !app_nil_r. reflexivity.
      * exists [Reply t r]. reflexivity.
  - destruct (t_pc th); try discriminate. destruct (_ <? _); injection E as <-; apply Same; reflexivity.
  - destruct (t_pc th); try discriminate. destruct (t_calls th) as [|[r []] cs]; try discriminate; injection E as <-; apply Same; reflexivity.
Qed.

Theorem c15_between_threads : forall h st st',
  run st h = Some st' ->
  (exists x, sent st' ++ s_queue st' = (sent st ++ s_queue st) ++ x) /\ (exists w, s_wire st' = s_wire st ++ w).
Proof.
  induction h as [|l h IH]; intros st st' E.
  - injection E as <-. split; exists []; rewrite app_nil_r; reflexivity.
  - cbn [run] in E. destruct (step st l) as [s|] eqn:S0; [|discriminate].
    destruct (step_extends _ _ _ S0) as [(x & X) (w & W)]. destruct (IH _ _ E) as [(y & Y) (z & Z)]. split.
    + exists (x ++ y). rewrite Y, X, !app_assoc. reflexivity.
    + exists (w ++ z). rewrite Z, W, app_assoc. reflexivity.
Qed.

(** None is left behind: when no thread is in a call or a callback, everything
    raised was sent. *)
Theorem c15_none_left : forall v n h st t,
  run (init v n) h = Some st -> quiet st -> s_queue st = [] /\ RaisedBy v h t (by_thread t (sent st)).
Proof.
  intros v n h st t E Q. pose proof (quiet_empty st (run_good _ _ _ (init_good v n) E) Q) as K. split; [exact K|].
  pose proof (run_acc h v n st t E) as R. unfold acc, all_sent in R. rewrite K, app_nil_r in R.
  assert (P : pending st t = []).
  { unfold pending. destruct (nth_error (s_threads st) t) as [th|] eqn:N; [|reflexivity].
    destruct (Q th (nth_error_In _ _ N)) as [-> _]. reflexivity. }
  rewrite P, app_nil_r in R. exact R.
Qed.

(** No thread waits for another one for ever: inside the server every thread can
    take its next step. *)
Theorem c15_progress : forall v n h st t th,
  run (init v n) h = Some st -> nth_error (s_threads st) t = Some th -> t_pc th <> Idle ->
  exists st', step st (Go t) = Some st'.
Proof.
  intros v n h st t th E N P. destruct (run_good _ _ _ (init_good v n) E) as (F & _).
  rewrite Forall_forall in F. specialize (F th (nth_error_In _ _ N)). unfold th_ok in F.
  cbn [step]. rewrite N. destruct (t_pc th); try (eexists; reflexivity); [congruence|destruct (_ || _); eexists; reflexivity|].
  destruct (t_calls th) as [|[r b] cs]; [congruence|eexists; reflexivity].
Qed.

(** The reply comes last: when a call replies, all events its thread raised so
    far were sent before. The protocol version must not change on the way. *)
Theorem c15_reply_last_partial : forall v n h t st st' r l,
  no_upgrade h -> run (init v n) h = Some st -> step st (Go t) = Some st' -> s_wire st' = s_wire st ++ [Reply t r] ->
  RaisedBy v h t l -> by_thread t (sent st) = l.
Proof.
  intros v n h t st st' r l U E S0 W R.
  destruct (run_own h v n st U E) as [O _]. pose proof (run_acc h v n st t E) as A.
  rewrite (raised_fun _ _ _ _ R _ A). cbn [step] in S0.
  destruct (nth_error (s_threads st) t) as [th|] eqn:N; [|discriminate].
  assert (Ne : forall x : item, s_wire st = s_wire st ++ [x] -> False).
  { intros x X. apply (f_equal (@length item)) in X. rewrite app_length in X. cbn [length] in X. lia. }
  assert (No : forall s2, s_wire s2 = s_wire (send_out st) -> s_wire s2 = s_wire st ++ [Reply t r] -> False).
  { intros s2 W2 X. rewrite W2 in X. unfold send_out in X. destruct (s_queue st); [eapply Ne; exact X|].
    cbn [with_item with_queue s_wire] in X. apply app_inj_tail in X. destruct X as [_ X]. discriminate. }
  destruct (t_pc th) as [|e| | | |] eqn:P; try discriminate.
  - injection S0 as <-. exfalso. eapply Ne. exact W.
  - destruct (_ || _); injection S0 as <-; exfalso; eapply Ne; exact W.
  - injection S0 as <-. exfalso. eapply No; [|exact W]. reflexivity.
  - injection S0 as <-. exfalso. eapply No; [|exact W]. reflexivity.
  - unfold acc, all_sent, pending. rewrite N, P, app_nil_r, by_thread_app.
    destruct (by_thread t (s_queue st)) eqn:B; [rewrite app_nil_r; reflexivity|]. exfalso.
    destruct (O t th N) as [X|[X|[_ X]]]; [rewrite B; discriminate|congruence|congruence|congruence].
Qed.

(** The client: what arrives is part of what was sent, in that order and once;
    all of it if every event serializes. *)
Theorem c15_arrival : forall st,
  Sublist (received st) (sent st) /\
  ((forall x, In x (sent st) -> ev_serializes (snd x) = true) -> received st = sent st).
Proof. intro st. split; [apply received_sublist|apply received_all]. Qed.

(** * Concrete schedules *)
Definition ev (k : nat) : event := {| ev_id := k; ev_kind := Plain; ev_own := false; ev_params := true; ev_serializes := true |}.
Definition bad_ev (k : nat) : event := {| ev_id := k; ev_kind := Plain; ev_own := false; ev_params := true; ev_serializes := false |}.

(** Two calls overlap; thread 2 raises an event outside of calls meanwhile. *)
Definition overlap : list label :=
  [Enter 0 7; Raise 0 (ev 1); Enter 1 8; Go 0; Raise 2 (ev 2); Go 2; Go 0; Go 2; Raise 1 (ev 3); Go 1; Leave 0; Go 1; Go 0; Go 0;
   Leave 1; Go 1; Go 1].

Example c15_overlap : exists st, run (init 21 3) overlap = Some st /\ quiet st /\ no_upgrade overlap /\
  s_wire st = [Batch [(0, ev 1); (2, ev 2); (1, ev 3)]; Reply 0 7; Reply 1 8].
Proof.
  eexists. split; [vm_compute; reflexivity|]. split; [|split; [|reflexivity]].
  - intros th I. cbn [s_threads In] in I. repeat (destruct I as [<-|I]; [split; reflexivity|]). contradiction.
  - intros v I. cbn [overlap In] in I. repeat (destruct I as [I|I]; [discriminate|]). contradiction.
Qed.

(** * Where the claim fails *)

(** One event that cannot be serialized takes the others of its batch with
    it. *)
Theorem c15_neighbour_refuted : exists h st e,
  run (init 21 1) h = Some st /\ quiet st /\ In (Raise 0 e) h /\ Forwarded 21 e /\ ev_serializes e = true /\
  received st = [].
Proof.
  exists [Enter 0 7; Raise 0 (ev 1); Go 0; Go 0; Raise 0 (bad_ev 2); Go 0; Go 0; Leave 0; Go 0; Go 0], 
    {| s_version := 21; s_queue := []; s_counter := 0; s_threads := [{| t_pc := Idle; t_calls := [] |}];
       s_wire := [Batch [(0, ev 1); (0, bad_ev 2)]; Reply 0 7] |}, (ev 1).
  split; [vm_compute; reflexivity|]. split; [|split; [|split; [|split; [reflexivity|reflexivity]]]].
  - intros th [<-|[]]. split; reflexivity.
  - right. left. reflexivity.
  - apply packs_spec. reflexivity.
Qed.

(** A call that began before the protocol was upgraded may reply before the
    events it caused are sent. *)
Theorem c15_upgrade_refuted : exists h st st' r,
  run (init 0 2) h = Some st /\ step st (Go 0) = Some st' /\ s_wire st' = s_wire st ++ [Reply 0 r] /\
  RaisedBy 0 h 0 [ev 1] /\ by_thread 0 (sent st') = [].
Proof.
  pose (h := [Enter 0 7; Upgrade 21; Enter 1 8; Raise 0 (ev 1); Go 0; Go 0; Leave 0]).
  destruct (run (init 0 2) h) as [st|] eqn:E; [|vm_compute in E; discriminate].
  destruct (step st (Go 0)) as [st'|] eqn:S0; [|vm_compute in E; injection E as <-; vm_compute in S0; discriminate].
  exists h, st, st', 7. split; [exact E|]. split; [exact S0|].
  pose proof (run_acc h 0 2 st 0 E) as R.
  vm_compute in E. injection E as <-. vm_compute in S0. injection S0 as <-.
  split; [reflexivity|]. split; [exact R|reflexivity].
Qed.

Print Assumptions c15_exactly_once.
Print Assumptions c15_raised_determined.
Print Assumptions c15_between_threads.
Print Assumptions c15_none_left.
Print Assumptions c15_progress.
Print Assumptions c15_reply_last_partial.
Print Assumptions c15_arrival.
Print Assumptions c15_neighbour_refuted.
Print Assumptions c15_upgrade_refuted.
