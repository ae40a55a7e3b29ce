(** * SyncC_Proofs: lemmas for C67 *)
From Coq Require Import String List Bool Arith ZArith Lia.
From Verif Require Import SyncC_Model SyncC_Spec.
Import ListNotations.
Open Scope string_scope.
Open Scope nat_scope.
Open Scope list_scope.

Lemma check_ok : forall stack tm c, checkClass stack tm c = Ok <-> exists k, k <= stack /\ inherits tm c k.
Proof.
  induction stack as [|stack IH]; intros tm c.
  - split; [discriminate|]. intros [k [L H]]. inversion H; subst; lia.
  - cbn [checkClass]. destruct (findType tm c) as [[[p|]|]|] eqn:F.
    + destruct (String.eqb_spec p base) as [->|N].
      * split; [intros _; exists 1; split; [lia|constructor; exact F]|reflexivity].
      * rewrite IH. split; intros [k [L H]].
        -- exists (S k). split; [lia|]. apply (inh_step tm c p k); assumption.
        -- inversion H as [? F2|? p2 k2 F2 N2 H2]; subst; rewrite F in F2; injection F2 as F2; [contradiction|subst p2].
           exists k2. split; [lia|exact H2].
    + split; [discriminate|]. intros [k [L H]]. inversion H; subst; congruence.
    + split; [discriminate|]. intros [k [L H]]. inversion H; subst; congruence.
    + split; [discriminate|]. intros [k [L H]]. inversion H; subst; congruence.
Qed.

Lemma check_invalid : forall stack tm c, checkClass stack tm c = InvalidArgument <-> exists k, k <= stack /\ strange tm c k.
Proof.
  induction stack as [|stack IH]; intros tm c.
  - split; [discriminate|]. intros [k [L H]]. inversion H; subst; lia.
  - cbn [checkClass]. destruct (findType tm c) as [[[p|]|]|] eqn:F.
    + destruct (String.eqb_spec p base) as [->|N].
      * split; [discriminate|]. intros [k [L H]].
        inversion H as [? F2|? p2 k2 F2 N2 H2]; subst; [destruct (F2 base); exact F|rewrite F in F2; injection F2 as F2; congruence].
      * rewrite IH. split; intros [k [L H]].
        -- exists (S k). split; [lia|]. apply (str_step tm c p k); assumption.
        -- inversion H as [? F2|? p2 k2 F2 N2 H2]; subst; [destruct (F2 p); exact F|rewrite F in F2; injection F2 as F2; subst p2].
           exists k2. split; [lia|exact H2].
    + split; [|reflexivity]. intros _. exists 1. split; [lia|]. constructor. intros p E. congruence.
    + split; [|reflexivity]. intros _. exists 1. split; [lia|]. constructor. intros p E. congruence.
    + split; [|reflexivity]. intros _. exists 1. split; [lia|]. constructor. intros p E. congruence.
Qed.

Lemma check_cases : forall stack tm c, checkClass stack tm c = Ok \/ checkClass stack tm c = InvalidArgument \/ checkClass stack tm c = Overflow.
Proof.
  induction stack as [|stack IH]; intros tm c; cbn [checkClass]; [tauto|].
  destruct (findType tm c) as [[[p|]|]|]; [|tauto|tauto|tauto]. destruct (String.eqb p base); [tauto|apply IH].
Qed.

Lemma has_in : forall n l, has n l = true <-> In n (map fst l).
Proof.
  intros n l. unfold has. rewrite existsb_exists, in_map_iff. split.
  - intros [p [I1 E]]. apply String.eqb_eq in E. exists p. tauto.
  - intros [p [E I1]]. exists p. split; [exact I1|]. apply String.eqb_eq. exact E.
Qed.

Lemma indexOf_spec : forall n l i,
  match indexOf n l i with
  | Some j => i <= j /\ nth_error (map fst l) (j - i) = Some n
  | None => ~ In n (map fst l)
  end.
Proof.
  induction l as [|[k o] l IH]; intro i; cbn [indexOf map fst]; [intros []|].
  destruct (String.eqb_spec k n) as [->|N].
  - split; [lia|]. rewrite Nat.sub_diag. reflexivity.
  - specialize (IH (S i)). destruct (indexOf n l (S i)) as [j|].
    + destruct IH as [L E]. split; [lia|]. replace (j - i) with (S (j - S i)) by lia. exact E.
    + intros [E|X]; [contradiction|exact (IH X)].
Qed.

Lemma remove_names : forall n l, map fst (removeProperty n l) = without n (map fst l).
Proof.
  induction l as [|[k o] l IH]; [reflexivity|]. unfold removeProperty, without in *. cbn [filter map fst].
  destruct (String.eqb k n); cbn [negb map fst]; [exact IH|rewrite IH; reflexivity].
Qed.

Lemma without_none : forall n l, ~ In n l -> without n l = l.
Proof.
  induction l as [|k l IH]; intro N; [reflexivity|]. unfold without in *. cbn [filter].
  destruct (String.eqb_spec k n) as [->|D]; [destruct N; left; reflexivity|]. cbn [negb]. f_equal. apply IH. intro X. apply N. right. exact X.
Qed.

Lemma without_nodup : forall n l, NoDup l -> NoDup (without n l).
Proof. intros n l H. apply NoDup_filter. exact H. Qed.

(** Removing the entry at one index shifts those after it. *)
Lemma without_nth : forall n l i, NoDup l -> nth_error l i = Some n ->
  length l = S (length (without n l)) /\
  (forall j, j < i -> nth_error (without n l) j = nth_error l j) /\
  (forall j, i <= j -> nth_error (without n l) j = nth_error l (S j)).
Proof.
  induction l as [|k l IH]; intros i D N; [destruct i; discriminate|].
  inversion D as [|? ? K D2]; subst. destruct i as [|i]; cbn [nth_error] in N.
  - injection N as ->. unfold without. cbn [filter]. rewrite String.eqb_refl. cbn [negb]. fold (without n l).
    rewrite (without_none n l K). split; [reflexivity|]. split; intros j L; [lia|reflexivity].
  - destruct (IH i D2 N) as [Ln [A B]]. unfold without. cbn [filter].
    destruct (String.eqb_spec k n) as [->|X]; [destruct K; apply nth_error_In in N; exact N|]. cbn [negb]. fold (without n l).
    split; [cbn [length]; lia|]. split; intros j L.
    + destruct j as [|j]; [reflexivity|]. cbn [nth_error]. apply A. lia.
    + destruct j as [|j]; [lia|]. cbn [nth_error]. apply B. lia.
Qed.

Definition good (s : comp) : Prop :=
  NoDup (names s) /\ (names s = [] /\ source s = 0 \/ source s < length (names s)) /\ depth s = 0 /\ pend s = [].

Lemma good_init : good init.
Proof. split; [constructor|]. split; [left; split; reflexivity|]. split; reflexivity. Qed.

Lemma range_spec : forall z l, inRange z l = true <-> exists i, z = Z.of_nat i /\ i < length (map fst l).
Proof.
  intros z l. unfold inRange. rewrite andb_true_iff, Z.leb_le, Z.ltb_lt, map_length. split.
  - intros [A B]. exists (Z.to_nat z). split; lia.
  - intros [i [-> L]]. lia.
Qed.

Lemma select_spec : forall z s, depth s = 0 ->
  (exists i, z = Z.of_nat i /\ i < length (names s) /\ setValue (ToSource z) s = (Comp (ifs s) i (locked s) (depth s) (pend s), Ok)) \/
  ((forall i, z = Z.of_nat i -> ~ i < length (names s)) /\ setValue (ToSource z) s = (s, NotFound)).
Proof.
  intros z s D. unfold setValue. rewrite D. cbn [Nat.ltb Nat.leb write]. destruct (inRange z (ifs s)) eqn:R.
  - left. apply range_spec in R. destruct R as [i [-> L]]. exists i. split; [reflexivity|]. split; [exact L|]. rewrite Nat2Z.id, D. reflexivity.
  - right. split; [|reflexivity]. intros i E L. assert (X : inRange z (ifs s) = true) by (apply range_spec; exists i; split; [exact E|exact L]). congruence.
Qed.

Lemma remove_absent : forall n s, ~ In n (names s) -> removeInterface n s = (s, NotFound).
Proof.
  intros n s H. unfold removeInterface. assert (X := indexOf_spec n (ifs s) 0). destruct (indexOf n (ifs s) 0) as [j|]; [|reflexivity].
  destruct X as [_ X]. apply nth_error_In in X. contradiction.
Qed.

Lemma remove_present : forall n s, good s -> In n (names s) ->
  exists i k, nth_error (names s) i = Some n /\
    removeInterface n s = (Comp (removeProperty n (ifs s)) k (locked s) 0 [], Ok) /\
    (source s = i -> k = 0) /\ (i < source s -> k = source s - 1) /\ (source s < i -> k = source s).
Proof.
  intros n s [D [R [Dp Pn]]] H. unfold removeInterface. assert (X := indexOf_spec n (ifs s) 0).
  destruct (indexOf n (ifs s) 0) as [i|]; [|contradiction]. destruct X as [_ X]. rewrite Nat.sub_0_r in X.
  exists i. destruct (without_nth n (names s) i D X) as [Ln _].
  assert (Ls : source s < length (names s)) by (destruct R as [[E _]|R]; [rewrite E in H; destruct H|exact R]).
  set (s1 := Comp (removeProperty n (ifs s)) (source s) (locked s) (depth s) (pend s)).
  assert (N1 : names s1 = without n (names s)) by (unfold names, s1; cbn [ifs]; apply remove_names).
  destruct (Nat.eqb_spec (source s) i) as [E|E].
  - exists 0. split; [exact X|]. destruct (select_spec 0 s1 Dp) as [[j [Z0 [L Q]]]|[L Q]]; rewrite Q.
    + assert (j = 0) as -> by lia. split; [unfold s1; cbn [ifs locked depth pend]; rewrite Dp, Pn; reflexivity|].
      split; [reflexivity|]. split; lia.
    + assert (length (names s1) = 0) by (specialize (L 0 eq_refl); lia). rewrite N1 in *.
      assert (source s = 0) by lia. split; [unfold s1; rewrite Dp, Pn, H1; reflexivity|]. split; [reflexivity|]. split; lia.
  - destruct (Nat.ltb_spec i (source s)) as [L|L].
    + exists (source s - 1). split; [exact X|]. destruct (select_spec (Z.of_nat (source s) - 1) s1 Dp) as [[j [Z0 [L2 Q]]]|[L2 Q]]; rewrite Q; cbn [fst].
      * assert (j = source s - 1) as -> by lia. split; [unfold s1; cbn [ifs locked depth pend]; rewrite Dp, Pn; reflexivity|]. split; [lia|]. split; lia.
      * exfalso. apply (L2 (source s - 1)); [lia|]. rewrite N1. lia.
    + exists (source s). split; [exact X|]. split; [unfold s1; rewrite Dp, Pn; reflexivity|]. split; [lia|]. split; lia.
Qed.

Lemma good_step : forall p s, direct p -> good s -> good (fst (step p s)).
Proof.
  intros p s Dr G. assert (G0 := G). destruct G as [D [R [Dp Pn]]]. destruct p as [k tm c o|n|z|b| |]; cbn [step]; try destruct Dr.
  - unfold addInterface. destruct c as [c|]; [|exact G0]. destruct (String.eqb c base); [exact G0|].
    destruct (checkClass k tm c); try exact G0. unfold addProperty. destruct (has c (ifs s)) eqn:Hc; [exact G0|].
    assert (Nc : ~ In c (names s)) by (intro X; apply has_in in X; congruence).
    assert (Nm : names (Comp (ifs s ++ [(c, o)]) (source s) (locked s) (depth s) (pend s)) = names s ++ [c])
      by (unfold names; cbn [ifs]; rewrite map_app; reflexivity).
    split; [|split; [|split; assumption]].
    + cbn [fst]. rewrite Nm. apply NoDup_rev in D. rewrite <- (rev_involutive (names s ++ [c])), rev_app_distr. apply NoDup_rev.
      cbn [rev app]. constructor; [|exact D]. intro X. apply in_rev in X. exact (Nc X).
    + right. cbn [fst]. rewrite Nm, app_length. cbn [length source]. destruct R as [[_ E]|R]; [|cbn [source]]; lia.
  - destruct (in_dec string_dec n (names s)) as [H|H].
    + destruct (remove_present n s G0 H) as [i [k [X [-> [A [B C]]]]]]. cbn [fst].
      destruct (without_nth n (names s) i D X) as [Ln _].
      assert (Ls : source s < length (names s)) by (destruct R as [[E _]|R]; [rewrite E in H; destruct H|exact R]).
      assert (Li : i < length (names s)) by (apply nth_error_Some; congruence).
      unfold good, names. cbn [ifs source depth pend]. rewrite remove_names. fold (names s).
      split; [apply without_nodup; exact D|]. split; [|split; reflexivity].
      destruct (Nat.lt_trichotomy (source s) i) as [L|[L|L]].
      * right. rewrite (C L). lia.
      * rewrite (A L). destruct (without n (names s)) as [|y l]; [left; split; reflexivity|right; cbn [length]; lia].
      * right. rewrite (B L). lia.
    + rewrite remove_absent by exact H. exact G0.
  - destruct (select_spec z s Dp) as [[i [_ [L ->]]]|[_ ->]]; [|exact G0]. split; [exact D|]. split; [right; exact L|]. split; assumption.
  - unfold setValue. rewrite Dp. cbn [Nat.ltb Nat.leb write fst]. split; [exact D|]. split; [exact R|]. split; cbn [depth pend]; assumption.
Qed.

Lemma good_run : forall l s, Forall direct l -> good s -> good (run l s).
Proof.
  induction l as [|p l IH]; intros s F G; [exact G|]. inversion F; subst. cbn [run]. apply IH; [assumption|]. apply good_step; assumption.
Qed.

Lemma reached_good : forall s, reached s -> good s.
Proof. intros s [l [F ->]]. apply good_run; [exact F|exact good_init]. Qed.

Definition changeOf (p : op) : list change :=
  match p with Select z => [ToSource z] | SetLocked b => [ToLocked b] | _ => [] end.

Lemma run_app : forall l1 l2 s, run (l1 ++ l2) s = run l2 (run l1 s).
Proof. induction l1 as [|p l1 IH]; intros l2 s; [reflexivity|]. rewrite <- app_comm_cons. cbn [run]. apply IH. Qed.

Lemma run_collect : forall l f k b d q s0, Forall (fits s0) l ->
  run l (Comp f k b (S d) q) = Comp f k b (S d) (q ++ flat_map changeOf l).
Proof.
  induction l as [|p l IH]; intros f k b d q s0 F; [cbn [run flat_map]; rewrite app_nil_r; reflexivity|].
  inversion F as [|? ? P F2]; subst. cbn [run flat_map]. destruct p as [? ? ? ?|?|z|b1| |]; try destruct P;
    cbn [step changeOf]; unfold setValue; cbn [depth ifs source locked pend]; change (0 <? S d) with true; cbn [fst];
    rewrite (IH _ _ _ _ _ s0 F2), <- app_assoc; reflexivity.
Qed.

Lemma apply_run : forall l f k b s0, f = ifs s0 -> Forall (fits s0) l ->
  apply (flat_map changeOf l) (Comp f k b 0 []) = (run l (Comp f k b 0 []), Ok).
Proof.
  induction l as [|p l IH]; intros f k b s0 E F; [reflexivity|].
  inversion F as [|? ? P F2]; subst. cbn [run flat_map]. destruct p as [? ? ? ?|?|z|b1| |]; try destruct P.
  - destruct H as [-> L]. cbn [step changeOf app apply]. unfold setValue. cbn [depth]. change (0 <? 0) with false. cbn iota. cbn [write ifs].
    assert (R : inRange (Z.of_nat x) (ifs s0) = true) by (apply range_spec; exists x; split; [reflexivity|exact L]).
    rewrite R. cbn [fst locked depth pend]. apply (IH _ _ _ s0 eq_refl F2).
  - cbn [step changeOf app apply]. unfold setValue. cbn [depth]. change (0 <? 0) with false. cbn iota. cbn [write ifs fst source depth pend].
    apply (IH _ _ _ s0 eq_refl F2).
Qed.
