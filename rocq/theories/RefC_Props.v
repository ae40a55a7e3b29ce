(** C46: an object lives exactly as long as it is referenced. *)
From Coq Require Import List Bool ZArith Lia.
From Verif Require Import RefC_Model RefC_Spec RefC_Proofs.
Import ListNotations.

(** Whatever the threads do and however they are interleaved, nothing is used
    after it was given back. *)
Theorem c46_safe_partial : forall h, Behaved init h -> s_ub (fst (run init h)) = false.
Proof. intros h B. exact (good_safe _ (reach_good h B)). Qed.

(** While somebody holds a reference the object has not been destroyed. *)
Theorem c46_alive_partial : forall h, Behaved init h -> Held (fst (run init h)) ->
  times is_destroyed (snd (run init h)) = 0%nat /\ times is_freed (snd (run init h)) = 0%nat.
Proof.
  intros h B H. destruct (good_alive _ (reach_good h B) H) as [D F]. destruct (run_events h init) as [D1 F1]. rewrite D in D1. rewrite F in F1. cbn in D1, F1. lia.
Qed.

(** The object is destroyed at most once, and so are its counters. *)
Theorem c46_once_partial : forall h, Behaved init h ->
  (times is_destroyed (snd (run init h)) <= 1)%nat /\ (times is_freed (snd (run init h)) <= 1)%nat.
Proof.
  intros h B. destruct (good_once _ (reach_good h B)) as [D F]. destruct (run_events h init) as [D1 F1]. cbn [init s_destroyed s_freed] in D1, F1. lia.
Qed.

(** When it is neither under construction nor referenced, and every release in
    progress has come to its end, it has been destroyed: weak references do not
    keep it. *)
Theorem c46_not_kept_partial : forall h, Behaved init h ->
  (forall a, In a (s_agents (fst (run init h))) -> ~ keeps a) -> times is_destroyed (snd (run init h)) = 1%nat.
Proof.
  intros h B N. pose proof (good_not_kept _ (reach_good h B) N) as D. destruct (run_events h init) as [D1 _]. cbn [init s_destroyed] in D1. lia.
Qed.

(** When the weak references are gone as well, everything has been given back. *)
Theorem c46_collected_partial : forall h, Behaved init h -> s_agents (fst (run init h)) = [] ->
  times is_destroyed (snd (run init h)) = 1%nat /\ times is_freed (snd (run init h)) = 1%nat.
Proof.
  intros h B E. destruct (good_collected _ (reach_good h B) E) as [D F]. destruct (run_events h init) as [D1 F1]. cbn [init s_destroyed s_freed] in D1, F1. lia.
Qed.

(** A weak reference never yields an object that is destroyed: the object it
    yields is held, and not destroyed. *)
Theorem c46_got_partial : forall h ix k, Behaved init (h ++ [ix]) -> In (Got k) (snd (step (fst (run init h)) ix)) ->
  Held (fst (run init (h ++ [ix]))) /\ times is_destroyed (snd (run init (h ++ [ix]))) = 0%nat.
Proof.
  intros h ix k B G. destruct (behaved_app _ _ _ B) as [B1 B2].
  assert (H : Held (fst (run init (h ++ [ix])))).
  { rewrite run_app. cbn [fst]. rewrite run_cons. cbn [fst run]. inversion B2; subst. exact (got_alive _ _ k (reach_good h B1) H2 G). }
  split; [exact H|]. exact (proj1 (c46_alive_partial _ B H)).
Qed.

(** When a weak reference reads as expired, nobody holds the object and nobody
    ever will again, as long as it is asked for interfaces the object has. *)
Theorem c46_expired_partial : forall h ix k h', Behaved init (h ++ [ix]) -> (forall i, ~ In (i, WGet false) h) ->
  In (Expired k) (snd (step (fst (run init h)) ix)) ->
  ~ Held (fst (run init (h ++ [ix] ++ h'))) /\
  forall j, ~ In (Got j) (snd (run (fst (run init (h ++ [ix]))) h')).
Proof.
  intros h ix k h' B N E. destruct (behaved_app _ _ _ B) as [B1 B2].
  assert (D : dead (fst (run init (h ++ [ix])))).
  { rewrite run_app. cbn [fst]. rewrite run_cons. cbn [fst run].
    exact (expired_dead _ _ k (reach_good h B1) (reach_fresh h B1) (reach_supported h N) E). }
  destruct (run_dead h' _ D) as [D' G]. split; [|exact G].
  rewrite app_assoc, run_app. cbn [fst]. exact (dead_unheld _ D').
Qed.

(** While the object is held, asking a weak reference for it succeeds: the three
    steps of the call, when no other thread comes in between. *)
Theorem c46_yields_partial : forall h i k, Behaved init h -> Held (fst (run init h)) ->
  nth_error (s_agents (fst (run init h))) i = Some (Weak k) ->
  snd (run (fst (run init h)) [(i, WGet true); (i, Tick); (i, Tick)]) = [Got k].
Proof.
  intros h i k B H N. destruct (reach_good h B) as [V|[_ [(A & _)|(A & _)]]].
  - exact (weak_yields _ i k V H N).
  - unfold Held in H. rewrite A in H. destruct H as [H|[]]. discriminate.
  - unfold Held in H. rewrite A in H. destruct H.
Qed.

(** A release in progress can always go on. *)
Theorem c46_progress : forall st i a, nth_error (s_agents st) i = Some a ->
  match a with Dec | Del _ | WDec _ | WDel | Load _ _ | Cas _ _ _ | Undo _ => fst (step st (i, Tick)) <> st | _ => True end.
Proof.
  intros st i a N. pose proof (split_at _ _ _ N) as EA.
  assert (L : forall l1 (b : agent) l2 w, l1 ++ b :: l2 = l1 ++ w ++ l2 -> [b] = w).
  { intros l1 b l2 w Q. apply app_inv_head in Q. change (b :: l2) with ([b] ++ l2) in Q. apply app_inv_tail in Q. exact Q. }
  unfold step. rewrite N. destruct a as [| | |own| |k| |k sup|k sup c|k]; try exact Logic.I; cbn [act]; unfold do_release.
  all: try (destruct own).
  all: repeat match goal with |- context [match (if ?b then _ else _) with Some _ => _ | None => _ end] => destruct b end.
  all: cbn [fst]; intro Q; apply (f_equal s_agents) in Q; cbn [with_agents s_agents] in Q; rewrite EA in Q at 3; symmetry in Q; apply L in Q;
    try discriminate Q; repeat match type of Q with context [if ?b then _ else _] => destruct b end; discriminate Q.
Qed.

(* ---------- what does not hold without the discipline ---------- *)
(** A constructor that takes and gives back a reference to itself, without
    internalAddRef, destroys itself; the reference createObject returns is to
    freed memory. *)
Theorem c46_self_refuted : exists h, s_ub (fst (run init h)) = true /\ forall i x, In (i, x) h -> x <> CThrow /\ x <> CThrowGuard.
Proof.
  exists [(0%nat, CSelf); (1%nat, ARelease); (1%nat, Tick); (1%nat, Tick); (0%nat, CDone)]. split; [vm_compute; reflexivity|].
  intros i x H. cbn in H. repeat match type of H with _ \/ _ => destruct H as [H|H] | False => destruct H end; inversion H; split; discriminate.
Qed.

(** A constructor that throws after it handed out a weak reference, without
    releaseWeakRefOnException: the weak reference reads freed counters. *)
Theorem c46_throw_refuted : exists h, s_ub (fst (run init h)) = true /\ forall i x, In (i, x) h -> x <> CSelf.
Proof.
  exists [(0%nat, CInternal); (0%nat, CWeak); (0%nat, CThrow); (0%nat, Tick); (0%nat, WGet true); (0%nat, Tick)]. split; [vm_compute; reflexivity|].
  intros i x H. cbn in H. repeat match type of H with _ \/ _ => destruct H as [H|H] | False => destruct H end; inversion H; discriminate.
Qed.

(** A weak reference handed out before internalAddRef reads as expired although
    the object is about to be returned to its creator. *)
Theorem c46_early_refuted : exists h ix h', (forall i, ~ In (i, WGet false) h) /\
  In (Expired 0) (snd (step (fst (run init h)) ix)) /\ Held (fst (run init (h ++ [ix] ++ h'))).
Proof.
  exists [(0%nat, CWeak); (1%nat, WGet true)], (1%nat, Tick), [(0%nat, CDone)]. split; [|split; vm_compute; auto].
  intros i H. cbn in H. repeat match type of H with _ \/ _ => destruct H as [H|H] | False => destruct H end; inversion H.
Qed.

(** Asked for an interface the object does not have, a weak reference reads as
    expired although the object is held. *)
Theorem c46_interface_refuted : exists h ix, Behaved init (h ++ [ix]) /\
  In (Expired 0) (snd (step (fst (run init h)) ix)) /\ Held (fst (run init (h ++ [ix]))).
Proof.
  exists [(0%nat, CDone); (0%nat, AWeak); (1%nat, WGet false); (1%nat, Tick); (1%nat, Tick)], (1%nat, Tick).
  split; [|split; vm_compute; auto]. repeat (constructor; [exact Logic.I|]). constructor.
Qed.

(* ---------- the hypotheses are met ---------- *)
(** An object with its own reference during construction, a weak reference, and
    two threads: one releases the object while the other asks for it. *)
Definition story : list (nat * action) :=
  [(0, CInternal); (0, CWeak); (0, CSelf); (0, CDone); (1, ARelease);
   (1, WAdd); (1, WGet true); (1, Tick); (0, ARelease); (0, Tick); (1, Tick); (1, Tick); (0, Tick)]%nat.
Example story_behaved : Behaved init story.
Proof. repeat (constructor; [try exact Logic.I; reflexivity|]). constructor. Qed.
Example story_events : snd (run init story) = [Expired 0; Destroyed].
Proof. vm_compute. reflexivity. Qed.
Example story_agents : s_agents (fst (run init story)) = [Weak 0; Weak 0].
Proof. vm_compute. reflexivity. Qed.
Example story_end : snd (run init (story ++ [(0, WRelease); (0, WRelease); (0, Tick); (0, Tick)]%nat)) = [Expired 0; Destroyed; Freed].
Proof. vm_compute. reflexivity. Qed.
(** The same race won by the other thread. *)
Example story_won : snd (run init [(0, CInternal); (0, CWeak); (0, CDone); (1, WGet true); (1, Tick); (1, Tick); (0, ARelease); (1, WRelease)]%nat) = [Got 0].
Proof. vm_compute. reflexivity. Qed.
(** A constructor that throws with the guard. *)
Example story_guard : let h := [(0, CInternal); (0, CWeak); (0, CThrowGuard); (1, WGet true); (1, Tick); (0, Tick); (0, Tick)]%nat in
  Behaved init h /\ snd (run init h) = [Expired 0; Destroyed].
Proof.
  split; [|vm_compute; reflexivity]. do 2 (constructor; [try exact Logic.I; reflexivity|]).
  constructor; [split; [reflexivity|repeat constructor]|]. repeat (constructor; [exact Logic.I|]). constructor.
Qed.

Print Assumptions c46_safe_partial.
Print Assumptions c46_alive_partial.
Print Assumptions c46_once_partial.
Print Assumptions c46_not_kept_partial.
Print Assumptions c46_collected_partial.
Print Assumptions c46_got_partial.
Print Assumptions c46_expired_partial.
Print Assumptions c46_yields_partial.
Print Assumptions c46_progress.
Print Assumptions c46_self_refuted.
Print Assumptions c46_throw_refuted.
Print Assumptions c46_early_refuted.
Print Assumptions c46_interface_refuted.
