(** * Evaluation of integer and boolean expressions *)
From Coq Require Import ZArith List Bool Ascii Arith Lia.
From Verif Require Import Base Eval_Model Eval_Spec.
Import ListNotations.
Local Open Scope Z_scope.

Scheme iexp_mut := Induction for iexp Sort Prop
  with bexp_mut := Induction for bexp Sort Prop.
Combined Scheme exp_ind from iexp_mut, bexp_mut.

Lemma int_small z : small z -> int z = Val (VInt z).
Proof.
  unfold small, int, fits, int64_min, int64_max. intro H.
  replace ((-9223372036854775808 <=? z) && (z <=? 9223372036854775807)) with true; [reflexivity|].
  symmetry. apply andb_true_iff. change (2 ^ 63) with 9223372036854775808 in H.
  rewrite !Z.leb_le. lia.
Qed.

Lemma binOp_int o x y : binOp o (VInt x) (VInt y) = intOp o x y.
Proof. reflexivity. Qed.
Lemma binOp_bool o x y : binOp o (VBool x) (VBool y) = boolOp o x y.
Proof. reflexivity. Qed.

Lemma compare_int o x y :
  compareOp (cmp_op o) (VInt x) (VInt y) = Val (VBool (cmp_holds o x y)).
Proof.
  cbn [compareOp compareTo]. do 2 f_equal.
  destruct (Z.compare_spec x y) as [H|H|H]; destruct o; cbn; symmetry;
    first [apply Z.eqb_eq; lia | apply Z.eqb_neq; lia | apply Z.ltb_lt; lia | apply Z.ltb_ge; lia
          | apply Z.leb_le; lia | apply Z.leb_gt; lia
          | apply negb_true_iff; apply Z.eqb_neq; lia | apply negb_false_iff; apply Z.eqb_eq; lia].
Qed.

Section C.
Variable num : text -> Z.
Variable cond : text -> bool.
Notation calc := (calc (refs num cond)).
Notation resolved := (resolved (refs num cond)).

Lemma exp_resolved :
  (forall e, resolved (itree e) = true) /\ (forall e, resolved (btree e) = true).
Proof.
  apply exp_ind; intros; cbn [itree btree Eval_Model.resolved refs]; auto;
    repeat (rewrite andb_true_iff); auto.
Qed.

Lemma exp_calc :
  (forall e, isafe num cond e -> calc (itree e) = Val (VInt (inum num cond e))) /\
  (forall e, bsafe num cond e -> calc (btree e) = Val (VBool (btruth num cond e))).
Proof.
  apply exp_ind.
  - reflexivity.
  - reflexivity.
  - intros a IH [Sa S]. cbn [itree Eval_Model.calc inum]. rewrite (IH Sa). cbn [bind].
    apply int_small. exact S.
  - intros a IHa b IHb (Sa & Sb & S). cbn [itree Eval_Model.calc inum].
    rewrite (IHa Sa), (IHb Sb). cbn [bind applyBin]. rewrite binOp_int. apply int_small. exact S.
  - intros a IHa b IHb (Sa & Sb & S). cbn [itree Eval_Model.calc inum].
    rewrite (IHa Sa), (IHb Sb). cbn [bind applyBin]. rewrite binOp_int. apply int_small. exact S.
  - intros a IHa b IHb (Sa & Sb & S). cbn [itree Eval_Model.calc inum].
    rewrite (IHa Sa), (IHb Sb). cbn [bind applyBin]. rewrite binOp_int. apply int_small. exact S.
  - intros a IHa b IHb (Sa & Sb & N & S). cbn [itree Eval_Model.calc inum].
    rewrite (IHa Sa), (IHb Sb). cbn [bind applyBin]. rewrite binOp_int. cbn [intOp].
    destruct (inum num cond b =? 0) eqn:E; [apply Z.eqb_eq in E; contradiction|].
    apply int_small. exact S.
  - intros c IHc a IHa b IHb S.
    assert (S1 : bsafe num cond c /\ (if btruth num cond c then isafe num cond a else isafe num cond b))
      by exact S.
    destruct S1 as [Sc S1].
    change (calc (itree (IIf c a b))) with
      (bind (calc (btree c)) (fun v => match truthOf v with
        | Truth true => calc (itree a) | Truth false => calc (itree b)
        | NoTruth => CalcFailed | TruthOutside => Outside end)).
    change (inum num cond (IIf c a b))
      with (if btruth num cond c then inum num cond a else inum num cond b).
    rewrite (IHc Sc). cbn [bind truthOf].
    clear IHc S Sc. destruct (btruth num cond c); auto.
  - reflexivity.
  - reflexivity.
  - intros a IH S. cbn [btree Eval_Model.calc btruth]. rewrite (IH S). reflexivity.
  - intros a IHa b IHb (Sa & Sb). cbn [btree Eval_Model.calc btruth].
    rewrite (IHa Sa), (IHb Sb). reflexivity.
  - intros a IHa b IHb (Sa & Sb). cbn [btree Eval_Model.calc btruth].
    rewrite (IHa Sa), (IHb Sb). reflexivity.
  - intros o a IHa b IHb (Sa & Sb). cbn [btree Eval_Model.calc btruth].
    rewrite (IHa Sa), (IHb Sb). cbn [bind].
    rewrite <- compare_int. destruct o; reflexivity.
  - intros a IHa b IHb (Sa & Sb). cbn [btree Eval_Model.calc btruth].
    rewrite (IHa Sa), (IHb Sb).
    destruct (btruth num cond a), (btruth num cond b); reflexivity.
  - intros a IHa b IHb (Sa & Sb). cbn [btree Eval_Model.calc btruth].
    rewrite (IHa Sa), (IHb Sb).
    destruct (btruth num cond a), (btruth num cond b); reflexivity.
Qed.
End C.

(** ** Lists *)
Lemma collect_ints l : collect (map (fun z => Val (VInt z)) l) = Val (vlist l).
Proof.
  induction l as [|z l IH]; [reflexivity|]. cbn [map collect]. rewrite IH. reflexivity.
Qed.

Lemma calc_ilist ref l : calc ref (ilist l) = Val (vlist l).
Proof.
  unfold ilist. cbn [calc]. rewrite map_map. rewrite <- collect_ints. f_equal.
Qed.

Lemma arith_int o x y : small (arith_num o x y) -> intOp (arith_op o) x y = Val (VInt (arith_num o x y)).
Proof. intro S. destruct o; cbn [arith_op intOp arith_num] in *; apply int_small; exact S. Qed.

Lemma binOpN_int n o x y : binOpN (S n) o (VInt x) (VInt y) = intOp o x y.
Proof. reflexivity. Qed.

Lemma two_lists n o xs ys :
  length xs = length ys ->
  Forall small (map (fun p => arith_num o (fst p) (snd p)) (combine xs ys)) ->
  collect (twoLists (binOpN (S n) (arith_op o)) (map VInt xs) (map VInt ys)) =
  Val (vlist (map (fun p => arith_num o (fst p) (snd p)) (combine xs ys))).
Proof.
  revert ys. induction xs as [|x xs IH]; intros [|y ys] L F; cbn in L; try discriminate.
  - reflexivity.
  - cbn [map combine] in F. inversion F; subst. cbn [map twoLists collect].
    rewrite binOpN_int, arith_int by assumption. rewrite IH; [reflexivity|lia|assumption].
Qed.

Lemma list_scalar n o xs y :
  Forall small (map (fun x => arith_num o x y) xs) ->
  collect (map (fun item => binOpN (S n) (arith_op o) item (VInt y)) (map VInt xs)) =
  Val (vlist (map (fun x => arith_num o x y) xs)).
Proof.
  induction xs as [|x xs IH]; intro F; [reflexivity|].
  cbn [map] in F. inversion F; subst. cbn [map collect].
  rewrite binOpN_int, arith_int by assumption. rewrite IH by assumption. reflexivity.
Qed.

Lemma apply_arith o l r : applyBin (arith_op o) l r = binOp (arith_op o) l r.
Proof. destruct o; reflexivity. Qed.
