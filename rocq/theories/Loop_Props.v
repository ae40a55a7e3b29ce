(** C34: the main-thread loop. *)
From Verif Require Import Base Loop_Model Loop_Spec Loop_Proofs.
From Coq Require Import Sorting.Permutation Sorting.Sorted.
Local Open Scope nat_scope.

(** Works are numbered in the order in which they were scheduled. *)
Theorem c34_numbers : forall h, exists n, map num (rev (scheduled (trace h))) = seq 0 n.
Proof. intros h. exists (next (after h)). apply numbers. Qed.

(** No one-shot work is ever started twice, whatever calls overlap. *)
Theorem c34_at_most_once : forall h, NoDup (map num (filter one_shot (started (trace h)))).
Proof.
  intros h. pose proof (i_once _ _ (inv_after h)) as N. rewrite map_app in N. apply NoDup_front in N. exact N.
Qed.

(** Only works that were scheduled and have not finished for good are started;
    so a repetitive work that did not ask to be repeated never runs again. *)
Theorem c34_only_pending : forall h o l i, In (Exec l i) (snd (step (after h) o)) -> In i (pending (trace h)).
Proof.
  intros h o l i H. eapply Permutation_in; [apply (i_perm _ _ (inv_after h))|].
  destruct o as [k| | |l'|l'|l' again|l']; cbn [step] in H.
  - destruct H as [H|[]]. discriminate.
  - unfold beginRun in H. destruct (running (after h)); destruct H as [H|[]]; discriminate.
  - unfold beginIteration in H. destruct (running (after h)); cbn [snd In] in H; intuition discriminate.
  - unfold wake in H. destruct (find l' (loops (after h))) as [[o [|kept cur todo]]|]; cbn [snd In] in H; intuition discriminate.
  - unfold start in H. destruct (find l' (loops (after h))) as [[o [|kept [i0|] [|i1 todo]]]|] eqn:FL; cbn [snd In] in H; try tauto.
    destruct H as [H|[]]. inversion H; subst. unfold all. destruct (find_split _ _ _ FL) as (A & B & -> & _). rewrite flat_mid.
    apply in_or_app. right. apply in_or_app. right. apply in_or_app. left. cbn [li ph Datatypes.snd]. apply in_or_app. right. now left.
  - unfold finish in H. destruct (find l' (loops (after h))) as [[o [|kept [i0|] todo]]|]; cbn [snd In] in H; try tauto.
    destruct (ikind i0); [|destruct again|]; cbn [snd In] in H; intuition discriminate.
  - unfold endIteration in H. destruct (find l' (loops (after h))) as [[o [|kept [i0|] [|i1 todo]]]|]; cbn [snd In] in H; try tauto.
    destruct (o || negb (running (after h))); cbn [snd In] in H; intuition discriminate.
Qed.

(** One-shot works are started in the order in which they were scheduled, as
    long as calls do not overlap. *)
Theorem c34_order_partial : forall h, orderly (trace h) -> StronglySorted lt (map num (filter one_shot (rev (started (trace h))))).
Proof.
  intros h OR. pose proof (o_sorted _ _ (ord_after h OR)) as S. unfold sorted_items in S. rewrite filter_app, map_app in S. revert S.
  generalize (map num (filter one_shot (rev (started (trace h))))). intros a. induction a as [|x a IH]; intros S; [constructor|].
  cbn [app] in S. inversion S as [|? ? S1 S2]; subst. constructor; auto. apply Forall_app in S2. tauto.
Qed.

(** When an iteration ends, the works started in it are exactly those that were
    pending when it began, each once: every repetitive work that has not asked
    to stop and every one-shot work scheduled before it, and nothing scheduled
    during it. *)
Theorem c34_iteration_partial : forall h l t2 t1,
  orderly (trace h) -> trace h = t2 ++ IterBegins l :: t1 -> within l t2 ->
  In (IterEnds l) (snd (step (after h) (EndIteration l))) ->
  Permutation (started t2) (pending t1) /\ NoDup (map num (started t2)).
Proof.
  intros h l t2 t1 OR ET W H. assert (NE : snd (step (after h) (EndIteration l)) <> []) by (intros E; rewrite E in H; destruct H).
  destruct (end_iteration h l t2 t1 OR ET W NE) as [P _].
  assert (Q : Permutation (started t2) (pending t1)) by (rewrite <- P; apply Permutation_rev). split; auto.
  eapply Permutation_NoDup; [apply Permutation_map; symmetry; exact Q|].
  (* the numbers of pending works are distinct *)
  assert (SUB : forall t, NoDup (map num (scheduled t)) -> NoDup (map num (pending t)) /\ forall x, In x (map num (pending t)) -> In x (map num (scheduled t))).
  { induction t as [|e t IH]; cbn [pending scheduled]; [split; [constructor|auto]|]. destruct e as [i| | | | |? i []| |]; try exact IH.
    - cbn [map]. intros N. inversion N as [|? ? N1 N2]; subst. destruct (IH N2) as [I1 I2]. split; [constructor; auto|]. cbn [In]. intros x [X|X]; auto.
    - intros N. destruct (IH N) as [I1 I2]. clear IH. generalize dependent (pending t). intros p I1 I2.
      assert (MF : forall x, In x (map num (filter (fun j => negb (num j =? num i)) p)) -> In x (map num p)) by (intros x X; apply in_map_iff in X; destruct X as (j & <- & J); apply filter_In in J; apply in_map; tauto).
      split; [|auto]. clear MF I2. induction p as [|j p IHp]; cbn [filter map] in *; [constructor|]. inversion I1; subst. destruct (negb (num j =? num i)); cbn [map]; auto.
      constructor; auto. intros X. apply H2. apply in_map_iff in X. destruct X as (q & E & X). apply filter_In in X. rewrite <- E. apply in_map. tauto. }
  apply SUB. pose proof (numbers h) as NU. rewrite ET in NU.
  assert (SA : forall a b, scheduled (a ++ b) = scheduled a ++ scheduled b).
  { induction a as [|e a IH]; intros b; cbn [app scheduled]; auto. destruct e; auto. cbn [app]. now rewrite IH. }
  rewrite SA in NU. cbn [scheduled] in NU. rewrite rev_app_distr, map_app, map_rev in NU.
  assert (N : NoDup (rev (map num (scheduled t1)) ++ map num (rev (scheduled t2)))) by (rewrite NU; apply seq_NoDup).
  apply NoDup_front in N. apply NoDup_rev in N. now rewrite rev_involutive in N.
Qed.

(** run returns at the end of the first iteration in which a stop request was
    executed, and only then; runIteration returns after one iteration. *)
Theorem c34_stop_partial : forall h l t2 t1 single,
  orderly (trace h) -> trace h = t2 ++ IterBegins l :: t1 -> within l t2 -> In (Began l single) (trace h) ->
  In (IterEnds l) (snd (step (after h) (EndIteration l))) ->
  (In (Returned l) (snd (step (after h) (EndIteration l))) <-> single = true \/ stop_done t2).
Proof.
  intros h l t2 t1 single OR ET W B H. assert (NE : snd (step (after h) (EndIteration l)) <> []) by (intros E; rewrite E in H; destruct H).
  destruct (end_iteration h l t2 t1 OR ET W NE) as [_ (o & F & R)]. rewrite R. apply find_In in F. rewrite (kin_after h l single o B F). reflexivity.
Qed.

(** Until a stop request is executed calls cannot overlap: a call is refused
    exactly while another one is active. *)
Theorem c34_exclusive_partial : forall h, ~ stop_done (trace h) ->
  orderly (trace h)
  /\ ((exists l, active (trace h) l) <-> In Refused (snd (step (after h) Run)))
  /\ ((exists l, active (trace h) l) <-> In Refused (snd (step (after h) RunIteration))).
Proof.
  intros h NS. pose proof (no_stop_orderly h NS) as OR. split; auto. rewrite <- (running_active h NS OR). cbn [step]. unfold beginRun, beginIteration.
  destruct (running (after h)); cbn [snd In]; split; split; intros H; auto; try discriminate; intuition discriminate.
Qed.

(** A stop request clears the flag in the middle of its iteration.  Another
    call of run is then accepted, sets the flag again, and the first run does
    not stop. *)
Definition lost_stop : list op := rev
  [Run; Schedule StopRequest; Schedule OneShot; Wake 0; Start 0; Finish 0 false; Run; Start 0; Finish 0 false].
Theorem c34_lost_stop_refuted : exists h l t2 t1, trace h = t2 ++ IterBegins l :: t1 /\ within l t2 /\ stop_done t2
  /\ In (Began l false) (trace h) /\ snd (step (after h) (EndIteration l)) = [IterEnds l]
  /\ exists k, k <> l /\ active (trace h) k /\ active (trace h) l.
Proof.
  exists lost_stop, 0, [Done 0 {| num := 1; ikind := OneShot |} false; Exec 0 {| num := 1; ikind := OneShot |}; Began 1 false;
     Done 0 {| num := 0; ikind := StopRequest |} false; Exec 0 {| num := 0; ikind := StopRequest |}],
     [Scheduled {| num := 1; ikind := OneShot |}; Scheduled {| num := 0; ikind := StopRequest |}; Began 0 false].
  split; [reflexivity|]. split; [split; cbn; intuition discriminate|]. split; [exists 0, {| num := 0; ikind := StopRequest |}; split; cbn; auto|].
  split; [cbn; intuition|]. split; [reflexivity|]. exists 1. split; [lia|].
  split; (split; [exists false; cbn; intuition|cbn; intuition discriminate]).
Qed.

(** Overlapping calls start one-shot works out of order. *)
Theorem c34_order_refuted : exists h o l i j, In (Exec l j) (snd (step (after h) o)) /\ In i (pending (trace h)) /\ ~ In i (started (trace h))
  /\ one_shot i = true /\ one_shot j = true /\ num i < num j.
Proof.
  exists (rev [Schedule StopRequest; Schedule OneShot; RunIteration; Start 0; Finish 0 false; Schedule OneShot; RunIteration]), (Start 1), 1,
    {| num := 1; ikind := OneShot |}, {| num := 2; ikind := OneShot |}.
  split; [now left|]. split; [right; now left|]. split; [intros [H|[]]; discriminate|]. split; [reflexivity|]. split; [reflexivity|]. cbn [num]. lia.
Qed.

(** Three iterations: a repetitive work runs in each of the first two and then
    asks to stop; a one-shot work scheduled during the first runs in the second. *)
Definition usual : list op := rev
  [Schedule Repetitive; Schedule OneShot; Run; Wake 0; Start 0; Schedule OneShot; Finish 0 true; Start 0; Finish 0 false; EndIteration 0;
   Wake 0; Start 0; Finish 0 false; Start 0; Schedule StopRequest; Finish 0 false; EndIteration 0; Wake 0; Start 0; Finish 0 true].
Example c34_ex : orderly (trace usual) /\ map num (rev (started (trace usual))) = [0; 1; 2; 0; 3]
  /\ snd (step (after usual) (EndIteration 0)) = [IterEnds 0; Returned 0]
  /\ exists t2 t1, trace usual = t2 ++ IterBegins 0 :: t1 /\ within 0 t2 /\ map num (pending t1) = [3].
Proof.
  split; [cbn; split; auto; intros k [[b [H|[H|[]]]] _]; discriminate|]. split; [reflexivity|]. split; [reflexivity|].
  eexists [_; _], _. split; [reflexivity|]. split; [split; cbn; intuition discriminate|reflexivity].
Qed.

Print Assumptions c34_numbers.
Print Assumptions c34_at_most_once.
Print Assumptions c34_only_pending.
Print Assumptions c34_order_partial.
Print Assumptions c34_iteration_partial.
Print Assumptions c34_stop_partial.
Print Assumptions c34_exclusive_partial.
Print Assumptions c34_lost_stop_refuted.
Print Assumptions c34_order_refuted.
