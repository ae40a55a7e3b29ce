(** Proofs about Task_Model. *)
From Coq Require Import Permutation.
From Verif Require Import Base Task_Model Task_Spec.

Lemma setNth_length : forall {A} n (x : A) l, length (setNth n x l) = length l.
Proof. induction n; destruct l; cbn [setNth length]; auto. Qed.

Lemma setNth_same : forall {A} n (x : A) l d, n < length l -> nth n (setNth n x l) d = x.
Proof. induction n; destruct l; cbn [setNth length nth]; intros d H; try lia; auto. apply IHn. lia. Qed.

Lemma setNth_other : forall {A} n m (x : A) l d, n <> m -> nth m (setNth n x l) d = nth m l d.
Proof.
  induction n; destruct l; cbn [setNth nth]; intros d H; auto; destruct m; cbn [nth]; auto; try lia.
Qed.

Lemma setNth_error_same : forall {A} n (x : A) l, n < length l -> nth_error (setNth n x l) n = Some x.
Proof. induction n; destruct l; cbn [setNth length nth_error]; intros H; try lia; auto. apply IHn. lia. Qed.

Lemma setNth_error_other : forall {A} n m (x : A) l, n <> m -> nth_error (setNth n x l) m = nth_error l m.
Proof.
  induction n; destruct l; cbn [setNth]; intros H; auto; destruct m; cbn [nth_error]; auto; try lia.
Qed.

Lemma mem_in : forall i l, mem i l = true <-> In i l.
Proof.
  intros i l. unfold mem. rewrite existsb_exists. split.
  - intros (x & Hx & E). apply Nat.eqb_eq in E. now subst.
  - intros H. exists i. split; auto. apply Nat.eqb_refl.
Qed.

Lemma remove_in : forall i k l, In k (remove i l) <-> In k l /\ k <> i.
Proof.
  intros i k l. unfold remove. rewrite filter_In. split; intros [H1 H2]; split; auto.
  - intros ->. rewrite Nat.eqb_refl in H2. discriminate.
  - apply negb_true_iff. now apply Nat.eqb_neq.
Qed.

Lemma NoDup_removed : forall i l, NoDup l -> NoDup (remove i l).
Proof. intros. now apply NoDup_filter. Qed.

(** *** Counting down *)
Definition occ (j : nat) (l : list nat) : nat := length (filter (fun k => Nat.eqb k j) l).

Lemma occ_cons : forall j x l, occ j (x :: l) = (if Nat.eqb x j then 1 else 0) + occ j l.
Proof. intros. unfold occ. cbn [filter]. destruct (Nat.eqb x j); cbn [length]; lia. Qed.

Lemma countDown_fold : forall l s, let s' := fold_left countDown l s in
  r_active s' = r_active s /\ r_ended s' = r_ended s /\ length (r_count s') = length (r_count s) /\
  (forall j, j < length (r_count s) -> nth j (r_count s') 0%Z = (nth j (r_count s) 0 - Z.of_nat (occ j l))%Z) /\
  exists q, r_queue s' = r_queue s ++ q /\ NoDup q /\
    forall j, In j q <-> j < length (r_count s) /\ (1 <= nth j (r_count s) 0 <= Z.of_nat (occ j l))%Z.
Proof.
  induction l as [ | x l IH]; intros s.
  - cbn [fold_left]. repeat (split; [reflexivity| ]). split.
    + intros j Hj. unfold occ. cbn [filter length]. lia.
    + exists []. rewrite app_nil_r. split; [reflexivity| ]. split; [constructor| ].
      intros j. unfold occ. cbn [In filter length]. split; [intros []|intros [_ B]; lia].
  - cbn [fold_left]. specialize (IH (countDown s x)). cbv zeta in IH.
    destruct IH as (A & E & L & C & q & Q & N & M).
    set (s' := fold_left countDown l (countDown s x)) in *. cbv zeta.
    assert (L1 : length (r_count (countDown s x)) = length (r_count s)).
    { unfold countDown. cbn [r_count]. apply setNth_length. }
    rewrite L1 in *.
    assert (C1 : forall j, j < length (r_count s) ->
      nth j (r_count (countDown s x)) 0%Z = (nth j (r_count s) 0 - (if Nat.eqb x j then 1 else 0))%Z).
    { intros j Hj. unfold countDown. cbn [r_count]. destruct (Nat.eqb x j) eqn:D.
      - apply Nat.eqb_eq in D. subst x. now rewrite setNth_same.
      - apply Nat.eqb_neq in D. rewrite setNth_other by auto. lia. }
    split; [rewrite A; reflexivity| ]. split; [rewrite E; reflexivity| ]. split; [assumption| ]. split.
    + intros j Hj. rewrite C, C1, occ_cons by auto. destruct (Nat.eqb x j); lia.
    + destruct (nth x (r_count s) 0 - 1 =? 0)%Z eqn:Z1.
      * apply Z.eqb_eq in Z1.
        assert (Hx : x < length (r_count s)).
        { destruct (le_lt_dec (length (r_count s)) x) as [G|G]; auto. rewrite nth_overflow in Z1 by auto. lia. }
        exists (x :: q). split.
        { rewrite Q. unfold countDown. cbn [r_queue]. rewrite (proj2 (Z.eqb_eq _ _) Z1), <- app_assoc. reflexivity. }
        split.
        { constructor; auto. intros In1. apply M in In1. destruct In1 as [_ In1]. rewrite C1 in In1 by auto.
          rewrite Nat.eqb_refl in In1. lia. }
        intros j. cbn [In]. rewrite M, occ_cons. split.
        { intros [ -> |[Hj B]].
          - rewrite Nat.eqb_refl. split; auto. lia.
          - split; auto. rewrite C1 in B by auto. destruct (Nat.eqb x j); lia. }
        { intros [Hj B]. destruct (Nat.eqb x j) eqn:D; [left; now apply Nat.eqb_eq| ].
          right. split; auto. rewrite C1, D by auto. lia. }
      * apply Z.eqb_neq in Z1. exists q. split.
        { rewrite Q. unfold countDown. cbn [r_queue]. destruct (_ =? 0)%Z eqn:Z2; auto.
          apply Z.eqb_eq in Z2. contradiction. }
        split; auto. intros j. rewrite M, occ_cons. split; intros [Hj B]; split; auto.
        { rewrite C1 in B by auto. destruct (Nat.eqb x j); lia. }
        { rewrite C1 by auto. destruct (Nat.eqb x j) eqn:D; try lia.
          apply Nat.eqb_eq in D. subst x. lia. }
Qed.

(** *** The invariant of a run *)
Definition endedBefore (b : build) (s : running) (j : nat) : nat :=
  length (filter (fun e => Nat.eqb (snd e) j && mem (fst e) (r_ended s)) (b_edges b)).

Definition touched (s : running) : list nat := r_queue s ++ r_active s ++ r_ended s.

Record inv (b : build) (g : nat) (s : running) : Prop := {
  inv_length : length (r_count s) = length (b_nodes b);
  inv_count : forall j, j < length (b_nodes b) ->
    nth j (r_count s) 0%Z = ((if Nat.eqb (nth j (b_nodes b) 0%nat) g then Z.of_nat (predecessors b j) else 0) - Z.of_nat (endedBefore b s j))%Z;
  inv_nodup : NoDup (touched s);
  inv_in : forall j, In j (touched s) <-> in_graph b g j /\ forall i, before b i j -> In i (r_ended s)
}.

Lemma in_graph_nth : forall b g j, in_graph b g j <-> j < length (b_nodes b) /\ nth j (b_nodes b) 0 = g.
Proof.
  intros b g j. unfold in_graph, graph_of. split.
  - intros H. assert (L : j < length (b_nodes b)) by (apply nth_error_Some; congruence).
    split; auto. now apply nth_error_nth.
  - intros [L E]. rewrite <- E. now apply nth_error_nth'.
Qed.

Lemma nodesOf_in : forall b g j, In j (nodesOf b g) <-> in_graph b g j.
Proof.
  intros b g j. unfold nodesOf. rewrite filter_In, in_seq, in_graph_nth, Nat.eqb_eq. cbn [Nat.add]. intuition lia.
Qed.

Lemma filter_and : forall {A} (f h : A -> bool) l,
  length (filter (fun x => f x && h x) l) <= length (filter f l) /\
  (length (filter (fun x => f x && h x) l) = length (filter f l) <-> forall x, In x l -> f x = true -> h x = true).
Proof.
  intros A f h l. induction l as [ | a l [IH1 IH2]].
  - cbn [filter length In]. split; auto. split; auto.
  - cbn [filter]. destruct (f a) eqn:F; cbn [andb]; [destruct (h a) eqn:H| ]; cbn [length].
    + split; [lia| ]. split.
      * intros E x [ -> |X] Fx; auto. apply IH2; auto; lia.
      * intros X. f_equal. apply IH2. intros x Hx. apply X. now right.
    + split; [lia| ]. split; [lia| ]. intros X. rewrite (X a) in H; try discriminate; auto. now left.
    + split; auto. rewrite IH2. split.
      * intros X x [ -> |Hx] Fx; auto. congruence.
      * intros X x Hx. apply X. now right.
Qed.

Lemma all_ended : forall b s j,
  endedBefore b s j <= predecessors b j /\
  (endedBefore b s j = predecessors b j <-> forall i, before b i j -> In i (r_ended s)).
Proof.
  intros b s j. unfold endedBefore, predecessors, before.
  destruct (filter_and (fun e : nat * nat => Nat.eqb (snd e) j) (fun e => mem (fst e) (r_ended s)) (b_edges b)) as [H1 H2].
  split; auto. rewrite H2. split.
  - intros X i Hi. apply mem_in. apply (X (i, j)); auto. cbn [snd]. apply Nat.eqb_refl.
  - intros X [i k] Hi E. cbn [fst snd] in *. apply Nat.eqb_eq in E. subst k. apply mem_in. now apply X.
Qed.

Lemma begin_inv : forall b g, inv b g (begin b g).
Proof.
  intros b g. constructor.
  - unfold begin. cbn [r_count]. now rewrite map_length, seq_length.
  - intros j Hj.
    assert (E : endedBefore b (begin b g) j = 0).
    { unfold endedBefore, begin. cbn [r_ended]. apply length_zero_iff_nil.
      induction (b_edges b) as [ | e l IH]; auto. cbn [filter]. unfold mem at 1. cbn [existsb]. now rewrite andb_false_r. }
    rewrite E. unfold begin. cbn [r_count].
    rewrite nth_indep with (d' := (fun i => if Nat.eqb (nth i (b_nodes b) 0) g then Z.of_nat (predecessors b i) else 0%Z) 0)
      by (now rewrite map_length, seq_length).
    rewrite (map_nth (fun i => if Nat.eqb (nth i (b_nodes b) 0) g then Z.of_nat (predecessors b i) else 0%Z)).
    rewrite seq_nth by auto. cbn [Nat.add].
    destruct (Nat.eqb _ g); lia.
  - unfold touched, begin. cbn [r_queue r_active r_ended]. rewrite !app_nil_r.
    apply NoDup_filter. unfold nodesOf. apply NoDup_filter. apply seq_NoDup.
  - intros j. unfold touched, begin. cbn [r_queue r_active r_ended]. rewrite !app_nil_r, filter_In, nodesOf_in.
    split; intros [H1 H2]; split; auto.
    + intros i Hi. apply Nat.eqb_eq in H2. unfold predecessors in H2. apply length_zero_iff_nil in H2.
      assert (X : In (i, j) (filter (fun e => Nat.eqb (snd e) j) (b_edges b))).
      { apply filter_In. split; auto. cbn [snd]. apply Nat.eqb_refl. }
      rewrite H2 in X. destruct X.
    + apply Nat.eqb_eq. unfold predecessors. apply length_zero_iff_nil.
      destruct (filter _ (b_edges b)) as [ | [i k] r] eqn:F; auto.
      assert (X : In (i, k) (filter (fun e => Nat.eqb (snd e) j) (b_edges b))) by (rewrite F; now left).
      apply filter_In in X. destruct X as [X E]. cbn [snd] in E. apply Nat.eqb_eq in E. subst k.
      destruct (H2 i X).
Qed.

Lemma removed_perm : forall i l, NoDup l -> In i l -> Permutation l (i :: remove i l).
Proof.
  intros i l N H. apply NoDup_Permutation; auto.
  - constructor. { rewrite remove_in. tauto. } now apply NoDup_removed.
  - intros x. cbn [In]. rewrite remove_in. destruct (Nat.eq_dec x i) as [ -> |D]; intuition congruence.
Qed.

Lemma nodup_app : forall {A} (a c : list A), NoDup (a ++ c) <-> NoDup a /\ NoDup c /\ forall x, In x a -> ~ In x c.
Proof.
  intros A a c. induction a as [ | x a IH]; cbn [app].
  - split; [intros N; repeat split; auto; constructor|tauto].
  - split.
    + intros N. inversion N as [ | y l N1 N2]; subst. apply IH in N2. destruct N2 as (P1 & P2 & P3).
      rewrite in_app_iff in N1. split; [constructor; tauto| ]. split; auto.
      intros y [ -> |Y]; auto.
    + intros (P1 & P2 & P3). inversion P1 as [ | y l N1 N2]; subst. constructor.
      * rewrite in_app_iff. intros [X|X]; auto. apply (P3 x); auto. now left.
      * apply IH. split; auto. split; auto. intros y Y. apply P3. now right.
Qed.

Lemma NoDup_parts : forall (a c d : list nat), NoDup (a ++ c ++ d) -> NoDup a /\ NoDup c /\ NoDup d.
Proof. intros a c d N. apply nodup_app in N. destruct N as (N1 & N & _). apply nodup_app in N. tauto. Qed.

Lemma start_inv : forall b g s i, inv b g s -> In i (r_queue s) ->
  inv b g {| r_count := r_count s; r_queue := remove i (r_queue s); r_active := i :: r_active s; r_ended := r_ended s |}.
Proof.
  intros b g s i [L C N M] Hi.
  assert (P : Permutation (touched s) (touched {| r_count := r_count s; r_queue := remove i (r_queue s); r_active := i :: r_active s; r_ended := r_ended s |})).
  { unfold touched in *. cbn [r_queue r_active r_ended].
    destruct (NoDup_parts _ _ _ N) as (N1 & _).
    rewrite (removed_perm i (r_queue s)) at 1 by auto. cbn [app]. apply Permutation_middle. }
  constructor.
  - exact L.
  - intros j Hj. cbn [r_count]. rewrite (C j Hj). reflexivity.
  - now apply (Permutation_NoDup P).
  - intros j. cbn [r_ended]. rewrite <- M. split; apply Permutation_in; auto. now symmetry.
Qed.

Lemma occ_successors : forall b i j,
  occ j (successors b i) = length (filter (fun e => Nat.eqb (fst e) i && Nat.eqb (snd e) j) (b_edges b)).
Proof.
  intros b i j. unfold occ, successors. induction (b_edges b) as [ | [x y] l IH]; auto.
  cbn [filter fst snd]. destruct (Nat.eqb x i); cbn [map filter andb snd]; auto.
  destruct (Nat.eqb y j); cbn [length]; lia.
Qed.

Lemma ended_more : forall b i j l, ~ In i l ->
  length (filter (fun e => Nat.eqb (snd e) j && mem (fst e) (i :: l)) (b_edges b)) =
  length (filter (fun e => Nat.eqb (snd e) j && mem (fst e) l) (b_edges b)) +
  length (filter (fun e => Nat.eqb (fst e) i && Nat.eqb (snd e) j) (b_edges b)).
Proof.
  intros b i j l Hi. assert (Mi : mem i l = false).
  { destruct (mem i l) eqn:E; auto. now apply mem_in in E. }
  induction (b_edges b) as [ | [x y] r IH]; auto. cbn [filter fst snd].
  unfold mem at 1. cbn [existsb]. fold (mem x l).
  destruct (Nat.eqb y j); cbn [andb]; [ |rewrite andb_false_r; assumption]. rewrite andb_true_r.
  destruct (Nat.eqb x i) eqn:E; cbn [orb].
  - apply Nat.eqb_eq in E. subst x. rewrite Mi. cbn [length]. lia.
  - destruct (mem x l); cbn [length]; lia.
Qed.

Definition ending (s : running) (i : nat) : running :=
  {| r_count := r_count s; r_queue := r_queue s; r_active := remove i (r_active s); r_ended := i :: r_ended s |}.

Lemma end_inv : forall b g s i, inv b g s -> In i (r_active s) ->
  inv b g (fold_left countDown (successors b i) (ending s i)).
Proof.
  intros b g s i [L C N M] Hi.
  pose proof (countDown_fold (successors b i) (ending s i)) as F. cbv zeta in F.
  set (s' := fold_left countDown (successors b i) (ending s i)) in *.
  destruct F as (A & E & L' & C' & q & Q & Nq & Mq). unfold ending in A, E, L', C', Q, Mq.
  cbn [r_count r_queue r_active r_ended] in A, E, L', C', Q, Mq.
  destruct (NoDup_parts _ _ _ N) as (N1 & N2 & N3).
  assert (Hn : ~ In i (r_ended s)).
  { intros X. unfold touched in N. apply nodup_app in N. destruct N as (_ & N & _).
    apply nodup_app in N. destruct N as (_ & _ & N). now apply (N i). }
  assert (EB : forall j, endedBefore b s' j = endedBefore b s j + occ j (successors b i)).
  { intros j. unfold endedBefore. rewrite E, occ_successors. now apply ended_more. }
  assert (P : Permutation (touched s') (touched s ++ q)).
  { unfold touched. rewrite Q, A, E. rewrite <- !app_assoc.
    apply Permutation_app_head. rewrite (app_assoc (r_active s)).
    transitivity (q ++ r_active s ++ r_ended s); [ |apply Permutation_app_comm].
    apply Permutation_app_head. transitivity ((i :: remove i (r_active s)) ++ r_ended s).
    { cbn [app]. symmetry. apply Permutation_middle. }
    apply Permutation_app_tail. symmetry. now apply removed_perm. }
  assert (NE : forall j, In j q <-> in_graph b g j /\ (forall k, before b k j -> In k (r_ended s')) /\ ~ In j (touched s)).
  { intros j. rewrite Mq, L, M.
    destruct (all_ended b s j) as [U1 U2]. destruct (all_ended b s' j) as [V1 V2].
    specialize (EB j). split.
    - intros [Hj B]. rewrite (C j Hj) in B. destruct (Nat.eqb (nth j (b_nodes b) 0) g) eqn:D; [ |lia].
      apply Nat.eqb_eq in D. split; [apply in_graph_nth; auto| ]. split; [apply V2; lia| ].
      intros [_ X]. apply U2 in X. lia.
    - intros (H1 & H2 & H3). pose proof (proj1 (in_graph_nth _ _ _) H1) as [Hj D].
      apply V2 in H2. split; auto. rewrite (C j Hj), D, Nat.eqb_refl.
      assert (endedBefore b s j <> predecessors b j) by (intros X; apply H3; split; auto; now apply U2). lia. }
  constructor.
  - congruence.
  - intros j Hj. rewrite C' by (now rewrite L). rewrite (C j Hj), EB. destruct (Nat.eqb _ g); lia.
  - apply (Permutation_NoDup (Permutation_sym P)). apply nodup_app. split; [exact N| ]. split; [exact Nq| ].
    intros x X1 X2. apply NE in X2. tauto.
  - intros j. transitivity (In j (touched s ++ q)).
    { split; apply Permutation_in; auto. now symmetry. }
    rewrite in_app_iff, NE. split.
    + intros [X|X]; [ |tauto]. apply M in X. destruct X as [X1 X2]. split; auto.
      intros k Hk. rewrite E. right. auto.
    + intros [X1 X2]. destruct (in_dec Nat.eq_dec j (touched s)); tauto.
Qed.

Lemma happen_inv : forall b g w s e s', inv b g s -> happen b w s e = Some s' -> inv b g s'.
Proof.
  intros b g w s [i|i] s' I0 H; cbn [happen] in H.
  - destruct (mem i (r_queue s)) eqn:Mi; cbn [andb] in H; [ |discriminate].
    destruct (Nat.ltb _ w); [ |discriminate]. inversion H. apply start_inv; auto. now apply mem_in.
  - destruct (mem i (r_active s)) eqn:Mi; [ |discriminate]. inversion H. apply end_inv; auto. now apply mem_in.
Qed.

Lemma events_app : forall b w l1 l2 s, events b w s (l1 ++ l2) =
  match events b w s l1 with Some s' => events b w s' l2 | None => None end.
Proof.
  induction l1 as [ | e l1 IH]; intros l2 s; auto. cbn [app events]. destruct (happen b w s e); auto.
Qed.

Lemma events_inv : forall b g w l s s', inv b g s -> events b w s l = Some s' -> inv b g s'.
Proof.
  induction l as [ | e l IH]; intros s s' I0 H; cbn [events] in H.
  - now inversion H; subst.
  - destruct (happen b w s e) eqn:E; [ |discriminate]. apply (IH r); auto. now apply (happen_inv b g w s e).
Qed.

(** What the lists of a run say about its history. *)
Record hist (w : nat) (s : running) (l : list event) : Prop := {
  h_started : forall i, In (Start i) l <-> In i (r_active s ++ r_ended s);
  h_ended : forall i, In (End i) l <-> In i (r_ended s);
  h_length : length l = length (r_active s) + 2 * length (r_ended s);
  h_workers : length (r_active s) <= w
}.

Lemma fold_same : forall l s, r_active (fold_left countDown l s) = r_active s /\ r_ended (fold_left countDown l s) = r_ended s.
Proof. induction l as [ | x l IH]; intros s; auto. cbn [fold_left]. destruct (IH (countDown s x)) as [A B]. rewrite A, B. auto. Qed.

Lemma happen_hist : forall b g w s e s' l, inv b g s -> hist w s l -> happen b w s e = Some s' -> hist w s' (l ++ [e]).
Proof.
  intros b g w s [i|i] s' l [L C N M] [H1 H2 H3 H4] H; cbn [happen] in H.
  - destruct (mem i (r_queue s)) eqn:Mi; cbn [andb] in H; [ |discriminate].
    destruct (Nat.ltb _ w) eqn:W; [ |discriminate]. inversion H; subst s'. clear H. apply Nat.ltb_lt in W.
    constructor; cbn [r_active r_ended].
    + intros j. rewrite in_app_iff. cbn [In app]. rewrite H1. split.
      * intros [X|[X|[]]]; auto. inversion X. auto.
      * intros [ -> |X]; auto.
    + intros j. rewrite in_app_iff. cbn [In]. rewrite H2. split; auto. intros [X|[X|[]]]; auto. discriminate.
    + rewrite app_length. cbn [length]. lia.
    + cbn [length]. lia.
  - destruct (mem i (r_active s)) eqn:Mi; [ |discriminate]. inversion H; subst s'. clear H.
    apply mem_in in Mi. destruct (NoDup_parts _ _ _ N) as (_ & N2 & _).
    pose proof (Permutation_length (removed_perm _ _ N2 Mi)) as PL. cbn [length] in PL.
    match goal with |- hist w ?x _ => destruct (fold_same (successors b i) (ending s i)) as [A E]; change x with (fold_left countDown (successors b i) (ending s i)) end.
    constructor; rewrite ?A, ?E; unfold ending; cbn [r_active r_ended].
    + intros j. rewrite in_app_iff, H1, !in_app_iff, remove_in. cbn [In].
      destruct (Nat.eq_dec j i) as [ -> |D]; intuition (try discriminate; try congruence).
    + intros j. rewrite in_app_iff. cbn [In]. rewrite H2. split.
      * intros [X|[X|[]]]; auto. inversion X. auto.
      * intros [ -> |X]; auto.
    + rewrite app_length. cbn [length]. lia.
    + lia.
Qed.

Lemma events_hist : forall b g w l s s' l0, inv b g s -> hist w s l0 -> events b w s l = Some s' -> hist w s' (l0 ++ l).
Proof.
  induction l as [ | e l IH]; intros s s' l0 I0 H0 H; cbn [events] in H.
  - inversion H; subst. now rewrite app_nil_r.
  - destruct (happen b w s e) as [s1| ] eqn:E; [ |discriminate].
    replace (l0 ++ e :: l) with ((l0 ++ [e]) ++ l) by (now rewrite <- app_assoc).
    apply (IH s1); auto. { now apply (happen_inv b g w s e). } now apply (happen_hist b g w s e).
Qed.

Lemma run_facts : forall b g w l s, events b w (begin b g) l = Some s -> inv b g s /\ hist w s l.
Proof.
  intros b g w l s H. split.
  - now apply (events_inv b g w l (begin b g)), H; auto using begin_inv.
  - apply (events_hist b g w l (begin b g) s []); auto using begin_inv.
    constructor; unfold begin; cbn [r_active r_ended app In length]; intros; try tauto; try lia.
Qed.
