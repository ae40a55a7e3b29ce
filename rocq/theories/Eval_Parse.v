(** * The parser accepts exactly the grammar *)
From Coq Require Import ZArith List Bool Ascii Arith Lia.
From Verif Require Import Base Eval_Model Eval_Spec.
Import ListNotations.

Section P.
Variable fr : bool.
Notation expression := (expression fr).
Notation loop := (loop fr).
Notation prefix := (prefix fr).
Notation elements := (elements fr).
Notation values := (values fr).
Notation arguments := (arguments fr).

(** ** One step of each function *)
Lemma expression_S n p ts :
  expression (S n) p ts =
  match ts with
  | [] => PFail
  | t :: ts' =>
      match prefix n t ts' with
      | POk lhs r => loop n p lhs r | PFail => PFail | PFuel => PFuel
      end
  end.
Proof. reflexivity. Qed.

Lemma loop_S n p lhs ts :
  loop (S n) p lhs ts =
  match ts with
  | [] => POk lhs ts
  | t :: ts' =>
      match infixRule t with
      | None => POk lhs ts
      | Some (q, o) =>
          if (p <? q)%nat then
            match expression n q ts' with
            | POk rhs r => loop n p (NBin o lhs rhs) r | PFail => PFail | PFuel => PFuel
            end
          else POk lhs ts
      end
  end.
Proof. reflexivity. Qed.

Lemma elements_S n ts :
  elements (S n) ts =
  match ts with
  | TCloseBracket :: r => POk [] r
  | _ =>
      match expression n MinPrecedence ts with
      | POk e r =>
          match r with
          | TCloseBracket :: r' => POk [e] r'
          | TComma :: r' =>
              match elements n r' with
              | POk l r'' => POk (e :: l) r'' | PFail => PFail | PFuel => PFuel
              end
          | _ => PFail
          end
      | PFail => PFail
      | PFuel => PFuel
      end
  end.
Proof. reflexivity. Qed.

Lemma values_S n ts :
  values (S n) ts =
  match ts with
  | TCloseParen :: r => POk [] r
  | TComma :: r =>
      match expression n MinPrecedence r with
      | POk e r' =>
          match values n r' with
          | POk l r'' => POk (e :: l) r'' | PFail => PFail | PFuel => PFuel
          end
      | PFail => PFail
      | PFuel => PFuel
      end
  | _ => PFail
  end.
Proof. reflexivity. Qed.

Lemma arguments_S n k ts :
  arguments (S n) k ts =
  match ts with
  | TCloseParen :: r => POk [] r
  | _ =>
      if (3 <? k)%nat then PFail
      else
      match expression n MinPrecedence ts with
      | POk e r =>
          match r with
          | TCloseParen :: r' => POk [e] r'
          | TComma :: r' =>
              match arguments n (S k) r' with
              | POk l r'' => POk (e :: l) r'' | PFail => PFail | PFuel => PFuel
              end
          | _ => PFail
          end
      | PFail => PFail
      | PFuel => PFuel
      end
  end.
Proof. reflexivity. Qed.

(** the element, value and argument lists, without the case analysis on the
    head *)
Definition starts (t : token) (ts : list token) : Prop := exists r, ts = t :: r.

Lemma elements_more n ts :
  ~ starts TCloseBracket ts ->
  elements (S n) ts =
  match expression n MinPrecedence ts with
  | POk e r =>
      match r with
      | TCloseBracket :: r' => POk [e] r'
      | TComma :: r' =>
          match elements n r' with
          | POk l r'' => POk (e :: l) r'' | PFail => PFail | PFuel => PFuel
          end
      | _ => PFail
      end
  | PFail => PFail
  | PFuel => PFuel
  end.
Proof.
  intro N. rewrite elements_S. destruct ts as [|t ts]; [reflexivity|].
  destruct t; try reflexivity. exfalso; apply N; eexists; reflexivity.
Qed.

Lemma arguments_more n k ts :
  ~ starts TCloseParen ts ->
  arguments (S n) k ts =
  if (3 <? k)%nat then PFail
  else
  match expression n MinPrecedence ts with
  | POk e r =>
      match r with
      | TCloseParen :: r' => POk [e] r'
      | TComma :: r' =>
          match arguments n (S k) r' with
          | POk l r'' => POk (e :: l) r'' | PFail => PFail | PFuel => PFuel
          end
      | _ => PFail
      end
  | PFail => PFail
  | PFuel => PFuel
  end.
Proof.
  intro N. rewrite arguments_S. destruct ts as [|t ts]; [reflexivity|].
  destruct t; try reflexivity. exfalso; apply N; eexists; reflexivity.
Qed.

Lemma starts_dec t ts : (forall a b : token, {a = b} + {a <> b}) -> starts t ts \/ ~ starts t ts.
Proof.
  intro D. destruct ts as [|a ts]; [right; intros [r E]; discriminate|].
  destruct (D a t) as [->|N]; [left; eexists; reflexivity|].
  right; intros [r E]; congruence.
Qed.

Lemma token_dec : forall a b : token, {a = b} + {a <> b}.
Proof. repeat decide equality. Qed.

(** ** More fuel changes nothing *)
Lemma mono n :
  (forall p ts, expression n p ts <> PFuel -> expression (S n) p ts = expression n p ts) /\
  (forall p l ts, loop n p l ts <> PFuel -> loop (S n) p l ts = loop n p l ts) /\
  (forall t ts, prefix n t ts <> PFuel -> prefix (S n) t ts = prefix n t ts) /\
  (forall ts, elements n ts <> PFuel -> elements (S n) ts = elements n ts) /\
  (forall ts, values n ts <> PFuel -> values (S n) ts = values n ts) /\
  (forall k ts, arguments n k ts <> PFuel -> arguments (S n) k ts = arguments n k ts).
Proof.
  induction n as [|n (IHe & IHl & IHp & IHs & IHv & IHa)].
  { repeat match goal with |- _ /\ _ => split end; intros; exfalso; auto. }
  assert (Ge : forall p ts, expression n p ts = PFuel \/ expression (S n) p ts = expression n p ts).
  { intros. destruct (expression n p ts) eqn:E; auto; right; rewrite <- E; apply IHe; congruence. }
  assert (Gl : forall p l ts, loop n p l ts = PFuel \/ loop (S n) p l ts = loop n p l ts).
  { intros. destruct (loop n p l ts) eqn:E; auto; right; rewrite <- E; apply IHl; congruence. }
  assert (Gp : forall t ts, prefix n t ts = PFuel \/ prefix (S n) t ts = prefix n t ts).
  { intros. destruct (prefix n t ts) eqn:E; auto; right; rewrite <- E; apply IHp; congruence. }
  assert (Gs : forall ts, elements n ts = PFuel \/ elements (S n) ts = elements n ts).
  { intros. destruct (elements n ts) eqn:E; auto; right; rewrite <- E; apply IHs; congruence. }
  assert (Gv : forall ts, values n ts = PFuel \/ values (S n) ts = values n ts).
  { intros. destruct (values n ts) eqn:E; auto; right; rewrite <- E; apply IHv; congruence. }
  assert (Ga : forall k ts, arguments n k ts = PFuel \/ arguments (S n) k ts = arguments n k ts).
  { intros. destruct (arguments n k ts) eqn:E; auto; right; rewrite <- E; apply IHa; congruence. }
  clear IHe IHl IHp IHs IHv IHa.
  assert (W : forall (A B : Type) (x y : presult A) (f : A -> list token -> presult B),
     (x = PFuel \/ y = x) ->
     match x with POk a r => f a r | PFail => PFail | PFuel => PFuel end <> PFuel ->
     match y with POk a r => f a r | PFail => PFail | PFuel => PFuel end =
     match x with POk a r => f a r | PFail => PFail | PFuel => PFuel end).
  { intros A B x y f [->| ->] H; [now elim H|reflexivity]. }
  assert (W2 : forall (A B : Type) (x y : presult A) (f g : A -> list token -> presult B),
     (x = PFuel \/ y = x) ->
     (forall a r, f a r <> PFuel -> g a r = f a r) ->
     match x with POk a r => f a r | PFail => PFail | PFuel => PFuel end <> PFuel ->
     match y with POk a r => g a r | PFail => PFail | PFuel => PFuel end =
     match x with POk a r => f a r | PFail => PFail | PFuel => PFuel end).
  { intros A B x y f g [->| ->] Hf H; [now elim H|]. destruct x; auto. }
  assert (Id : forall (A : Type) (x y : presult A), (x = PFuel \/ y = x) -> x <> PFuel -> y = x).
  { intros A x y [H|H] N; [contradiction|exact H]. }
  repeat match goal with |- _ /\ _ => split end.
  - intros p ts. rewrite (expression_S (S n)), (expression_S n).
    destruct ts as [|t ts]; [reflexivity|].
    apply W2; [apply Gp|]. intros a r. apply Id, Gl.
  - intros p l ts. rewrite (loop_S (S n)), (loop_S n).
    destruct ts as [|t ts]; [reflexivity|].
    destruct (infixRule t) as [[q o]|]; [|reflexivity].
    destruct (p <? q)%nat; [|reflexivity].
    apply W2; [apply Ge|]. intros a r. apply Id, Gl.
  - intros t ts.
    destruct t; try reflexivity.
    all: cbn [Eval_Model.prefix].
    all: fold expression loop prefix elements values arguments.
    all: try (apply W; apply Ge).
    all: try (apply W; apply Gs).
    + destruct ts as [|t ts]; [reflexivity|]. destruct t; try reflexivity.
      apply W; apply Ga.
    + destruct ts as [|t ts]; [reflexivity|]. destruct t; try reflexivity.
      apply W2; [apply Ge|]. intros a r. apply W; apply Gv.
    + destruct ts as [|t ts]; [reflexivity|]. destruct t; try reflexivity.
      apply W2; [apply Ge|]. intros a r. destruct (comma r) as [r'|]; [|reflexivity].
      apply W2; [apply Ge|]. intros a2 r2. destruct (comma r2) as [r2'|]; [|reflexivity].
      apply W; apply Ge.
  - intro ts. destruct (starts_dec TCloseBracket ts token_dec) as [[r ->]|N]; [reflexivity|].
    rewrite !elements_more by exact N.
    apply W2; [apply Ge|]. intros a r. destruct r as [|t r]; [reflexivity|].
    destruct t; try reflexivity. apply W; apply Gs.
  - intro ts. rewrite (values_S (S n)), (values_S n).
    destruct ts as [|t ts]; [reflexivity|]. destruct t; try reflexivity.
    apply W2; [apply Ge|]. intros a r. apply W; apply Gv.
  - intros k ts. destruct (starts_dec TCloseParen ts token_dec) as [[r ->]|N]; [reflexivity|].
    rewrite !arguments_more by exact N. destruct (3 <? k)%nat; [reflexivity|].
    apply W2; [apply Ge|]. intros a r. destruct r as [|t r]; [reflexivity|].
    destruct t; try reflexivity. apply W; apply Ga.
Qed.

(** ** The parser always makes progress and ends *)
Lemma valref_rest a ts e r : valref a ts = POk e r -> length r < length ts.
Proof.
  unfold valref. intro H.
  destruct ts as [|t ts]; [discriminate|]. destruct t; try discriminate.
  destruct ts as [|t2 ts]; [inversion H; subst; cbn; lia|].
  destruct t2; try (inversion H; subst; cbn; lia).
  destruct ts as [|t3 ts]; [discriminate|]. destruct t3; try discriminate.
  destruct ts as [|t4 ts]; [discriminate|]. destruct t4; try discriminate.
  inversion H; subst; cbn; lia.
Qed.

Lemma parens_rest k w a ts e r : proprefParens k w a ts = POk e r -> length r <= length ts.
Proof.
  unfold proprefParens. intro H.
  destruct ts as [|t ts]; [inversion H; subst; cbn; lia|].
  destruct t; try (inversion H; subst; cbn; lia).
  destruct ts as [|t2 ts]; [discriminate|]. destruct t2; try discriminate.
  inversion H; subst; cbn; lia.
Qed.

Lemma propref_rest a ts e r : propref a ts = POk e r -> length r < length ts.
Proof.
  unfold propref. intro H.
  destruct ts as [|t ts]; [discriminate|]. destruct t; try discriminate.
  destruct ts as [|t2 ts]; [apply parens_rest in H; cbn in *; lia|].
  destruct t2; try (apply parens_rest in H; cbn [length] in *; lia).
  destruct ts as [|t3 ts]; [discriminate|]. destruct t3; try discriminate.
  destruct (propertyItem _); [|discriminate].
  apply parens_rest in H; cbn [length] in *; lia.
Qed.

Lemma argref_rest ts e r : argref ts = POk e r -> length r < length ts.
Proof.
  unfold argref. intro H.
  destruct ts as [|t ts]; [discriminate|]. destruct t; try discriminate.
  destruct ts as [|t ts]; [discriminate|]. destruct t; try discriminate.
  destruct ts as [|t ts]; [discriminate|]. destruct t; try discriminate.
  destruct ts as [|t ts]; [discriminate|].
  destruct t; try discriminate; [apply valref_rest in H|apply propref_rest in H];
    cbn [length]; lia.
Qed.

Lemma close_rest ts r : close ts = Some r -> ts = TCloseParen :: r.
Proof. destruct ts as [|t ts]; [discriminate|]. destruct t; cbn; congruence. Qed.
Lemma comma_rest ts r : comma ts = Some r -> ts = TComma :: r.
Proof. destruct ts as [|t ts]; [discriminate|]. destruct t; cbn; congruence. Qed.

Ltac grab H :=
  match type of H with
  | match ?x with _ => _ end = _ => let E := fresh "E" in destruct x eqn:E; try discriminate H
  end.

Lemma shrink n :
  (forall p ts e r, expression n p ts = POk e r -> length r < length ts) /\
  (forall p l ts e r, loop n p l ts = POk e r -> length r <= length ts) /\
  (forall t ts e r, prefix n t ts = POk e r -> length r <= length ts) /\
  (forall ts e r, elements n ts = POk e r -> length r < length ts) /\
  (forall ts e r, values n ts = POk e r -> length r < length ts) /\
  (forall k ts e r, arguments n k ts = POk e r -> length r < length ts).
Proof.
  induction n as [|n (IHe & IHl & IHp & IHs & IHv & IHa)].
  { repeat match goal with |- _ /\ _ => split end; intros; discriminate. }
  repeat match goal with |- _ /\ _ => split end.
  - intros p ts e r H. rewrite expression_S in H.
    destruct ts as [|t ts]; [discriminate|]. grab H.
    apply IHp in E. apply IHl in H. cbn [length]; lia.
  - intros p l ts e r H. rewrite loop_S in H.
    destruct ts as [|t ts]; [inversion H; subst; auto|].
    destruct (infixRule t) as [[q o]|]; [|inversion H; subst; cbn; lia].
    destruct (p <? q)%nat; [|inversion H; subst; cbn; lia].
    grab H. apply IHe in E. apply IHl in H. cbn [length]; lia.
  - intros t ts e r H.
    destruct t; try discriminate H; cbn [Eval_Model.prefix] in H;
      fold expression loop prefix elements values arguments in H;
      try (inversion H; subst; lia).
    + (* paren *) grab H. apply IHe in E. grab H.
      apply close_rest in E0. inversion H; subst. cbn [length] in *; lia.
    + (* bracket *) grab H. apply IHs in E. inversion H; subst. lia.
    + apply argref_rest in H. lia.
    + grab H. apply IHe in E. inversion H; subst. lia.
    + grab H. apply IHe in E. inversion H; subst. lia.
    + apply valref_rest in H. lia.
    + apply propref_rest in H. lia.
    + destruct fr; inversion H; subst; lia.
    + (* unit *) destruct ts as [|t ts]; [discriminate|]. destruct t; try discriminate.
      grab H. apply IHa in E. destruct a; [discriminate|].
      inversion H; subst. cbn [length] in *; lia.
    + (* switch *) destruct ts as [|t ts]; [discriminate|]. destruct t; try discriminate.
      grab H. apply IHe in E. grab H. apply IHv in E0.
      destruct (length a0 <? 2)%nat; [discriminate|].
      inversion H; subst. cbn [length] in *; lia.
    + (* if *) destruct ts as [|t ts]; [discriminate|]. destruct t; try discriminate.
      grab H. apply IHe in E. grab H. apply comma_rest in E0. subst.
      grab H. apply IHe in E0. grab H. apply comma_rest in E1. subst.
      grab H. apply IHe in E1. grab H. apply close_rest in E2. subst.
      inversion H; subst. cbn [length] in *; lia.
  - intros ts e r H.
    destruct (starts_dec TCloseBracket ts token_dec) as [[r0 ->]|N].
    { rewrite elements_S in H. inversion H; subst. cbn; lia. }
    rewrite elements_more in H by exact N. grab H. apply IHe in E.
    destruct rest as [|t rest]; [discriminate|]. destruct t; try discriminate.
    + inversion H; subst. cbn [length] in *; lia.
    + grab H. apply IHs in E0. inversion H; subst. cbn [length] in *; lia.
  - intros ts e r H. rewrite values_S in H.
    destruct ts as [|t ts]; [discriminate|]. destruct t; try discriminate.
    + inversion H; subst. cbn; lia.
    + grab H. apply IHe in E. grab H. apply IHv in E0. inversion H; subst. cbn [length]; lia.
  - intros k ts e r H.
    destruct (starts_dec TCloseParen ts token_dec) as [[r0 ->]|N].
    { rewrite arguments_S in H. inversion H; subst. cbn; lia. }
    rewrite arguments_more in H by exact N. destruct (3 <? k)%nat; [discriminate|].
    grab H. apply IHe in E.
    destruct rest as [|t rest]; [discriminate|]. destruct t; try discriminate.
    + inversion H; subst. cbn [length] in *; lia.
    + grab H. apply IHa in E0. inversion H; subst. cbn [length] in *; lia.
Qed.

Lemma valref_fuel a ts : valref a ts <> PFuel.
Proof.
  unfold valref. destruct ts as [|t ts]; [discriminate|]. destruct t; try discriminate.
  destruct ts as [|t2 ts]; [discriminate|]. destruct t2; try discriminate.
  destruct ts as [|t3 ts]; [discriminate|]. destruct t3; try discriminate.
  destruct ts as [|t4 ts]; [discriminate|]. destruct t4; discriminate.
Qed.

Lemma parens_fuel k w a ts : proprefParens k w a ts <> PFuel.
Proof.
  unfold proprefParens. destruct ts as [|t ts]; [discriminate|]. destruct t; try discriminate.
  destruct ts as [|t2 ts]; [discriminate|]. destruct t2; discriminate.
Qed.

Lemma propref_fuel a ts : propref a ts <> PFuel.
Proof.
  unfold propref. destruct ts as [|t ts]; [discriminate|]. destruct t; try discriminate.
  destruct ts as [|t2 ts]; [apply parens_fuel|]. destruct t2; try apply parens_fuel.
  destruct ts as [|t3 ts]; [discriminate|]. destruct t3; try discriminate.
  destruct (propertyItem _); [apply parens_fuel|discriminate].
Qed.

Lemma argref_fuel ts : argref ts <> PFuel.
Proof.
  unfold argref.
  destruct ts as [|t ts]; [discriminate|]. destruct t; try discriminate.
  destruct ts as [|t ts]; [discriminate|]. destruct t; try discriminate.
  destruct ts as [|t ts]; [discriminate|]. destruct t; try discriminate.
  destruct ts as [|t ts]; [discriminate|].
  destruct t; try discriminate; [apply valref_fuel|apply propref_fuel].
Qed.

Lemma enough n :
  (forall p ts, 3 * length ts + 1 <= n -> expression n p ts <> PFuel) /\
  (forall p l ts, 3 * length ts + 1 <= n -> loop n p l ts <> PFuel) /\
  (forall t ts, 3 * length ts + 3 <= n -> prefix n t ts <> PFuel) /\
  (forall ts, 3 * length ts + 2 <= n -> elements n ts <> PFuel) /\
  (forall ts, 3 * length ts + 2 <= n -> values n ts <> PFuel) /\
  (forall k ts, 3 * length ts + 2 <= n -> arguments n k ts <> PFuel).
Proof.
  induction n as [|n (IHe & IHl & IHp & IHs & IHv & IHa)].
  { repeat match goal with |- _ /\ _ => split end; intros; lia. }
  destruct (shrink n) as (Se & Sl & Sp & Ss & Sv & Sa).
  repeat match goal with |- _ /\ _ => split end.
  - intros p ts L. rewrite expression_S. destruct ts as [|t ts]; [discriminate|].
    cbn [length] in L. specialize (IHp t ts). destruct (prefix n t ts) eqn:E; try discriminate.
    + intros _. apply IHp; [lia|reflexivity].
    + apply Sp in E. apply IHl. lia.
  - intros p l ts L. rewrite loop_S. destruct ts as [|t ts]; [discriminate|].
    cbn [length] in L.
    destruct (infixRule t) as [[q o]|]; [|discriminate].
    destruct (p <? q)%nat; [|discriminate].
    specialize (IHe q ts). destruct (expression n q ts) eqn:E; try discriminate.
    + intros _. apply IHe; [lia|reflexivity].
    + apply Se in E. apply IHl. lia.
  - intros t ts L.
    assert (Je : forall q ts', length ts' <= length ts -> expression n q ts' <> PFuel)
      by (intros; apply IHe; lia).
    assert (Ja : forall q ts', length ts' <= length ts -> arguments n q ts' <> PFuel)
      by (intros; apply IHa; lia).
    assert (Jv : forall ts', length ts' <= length ts -> values n ts' <> PFuel)
      by (intros; apply IHv; lia).
    destruct t; try discriminate; cbn [Eval_Model.prefix];
      fold expression loop prefix elements values arguments.
    + specialize (Je MinPrecedence ts). destruct (expression n MinPrecedence ts) eqn:E; try discriminate.
      * intros _; apply Je; auto.
      * destruct (close rest); discriminate.
    + specialize (IHs ts). destruct (elements n ts) eqn:E; try discriminate.
      intros _; apply IHs; [lia|reflexivity].
    + apply argref_fuel.
    + specialize (Je Prefix ts). destruct (expression n Prefix ts) eqn:E; try discriminate.
      intros _; apply Je; auto.
    + specialize (Je Prefix ts). destruct (expression n Prefix ts) eqn:E; try discriminate.
      intros _; apply Je; auto.
    + apply valref_fuel.
    + apply propref_fuel.
    + destruct fr; discriminate.
    + destruct ts as [|t ts]; [discriminate|]. destruct t; try discriminate.
      specialize (Ja 0 ts). destruct (arguments n 0 ts) eqn:E; try discriminate.
      * intros _; apply Ja; [cbn; lia|reflexivity].
      * destruct a; discriminate.
    + destruct ts as [|t ts]; [discriminate|]. destruct t; try discriminate.
      pose proof (Je MinPrecedence ts) as J1.
      destruct (expression n MinPrecedence ts) eqn:E; try discriminate.
      * intros _; apply J1; [cbn; lia|reflexivity].
      * apply Se in E. specialize (Jv rest). destruct (values n rest) eqn:E2; try discriminate.
        -- intros _; apply Jv; [cbn; lia|reflexivity].
        -- destruct (length a0 <? 2)%nat; discriminate.
    + destruct ts as [|t ts]; [discriminate|]. destruct t; try discriminate.
      pose proof (Je MinPrecedence ts) as J1.
      destruct (expression n MinPrecedence ts) eqn:E; try discriminate.
      { intros _; apply J1; [cbn; lia|reflexivity]. }
      apply Se in E. destruct (comma rest) eqn:C; [|discriminate]. apply comma_rest in C. subst.
      pose proof (Je MinPrecedence l) as J2.
      destruct (expression n MinPrecedence l) eqn:E2; try discriminate.
      { intros _; apply J2; [cbn [length] in *; lia|reflexivity]. }
      apply Se in E2. destruct (comma rest) eqn:C; [|discriminate]. apply comma_rest in C. subst.
      pose proof (Je MinPrecedence l0) as J3.
      destruct (expression n MinPrecedence l0) eqn:E3; try discriminate.
      { intros _; apply J3; [cbn [length] in *; lia|reflexivity]. }
      destruct (close rest); discriminate.
  - intros ts L.
    destruct (starts_dec TCloseBracket ts token_dec) as [[r0 ->]|N]; [discriminate|].
    rewrite elements_more by exact N.
    specialize (IHe MinPrecedence ts). destruct (expression n MinPrecedence ts) eqn:E; try discriminate.
    { intros _. apply IHe; [lia|reflexivity]. }
    apply Se in E. destruct rest as [|t rest]; [discriminate|]. destruct t; try discriminate.
    specialize (IHs rest). destruct (elements n rest); try discriminate.
    intros _. apply IHs; [cbn [length] in *; lia|reflexivity].
  - intros ts L. rewrite values_S.
    destruct ts as [|t ts]; [discriminate|]. destruct t; try discriminate.
    cbn [length] in L.
    specialize (IHe MinPrecedence ts). destruct (expression n MinPrecedence ts) eqn:E; try discriminate.
    { intros _. apply IHe; [lia|reflexivity]. }
    apply Se in E. specialize (IHv rest). destruct (values n rest); try discriminate.
    intros _. apply IHv; [lia|reflexivity].
  - intros k ts L.
    destruct (starts_dec TCloseParen ts token_dec) as [[r0 ->]|N]; [discriminate|].
    rewrite arguments_more by exact N. destruct (3 <? k)%nat; [discriminate|].
    specialize (IHe MinPrecedence ts). destruct (expression n MinPrecedence ts) eqn:E; try discriminate.
    { intros _. apply IHe; [lia|reflexivity]. }
    apply Se in E. destruct rest as [|t rest]; [discriminate|]. destruct t; try discriminate.
    specialize (IHa (S k) rest). destruct (arguments n (S k) rest); try discriminate.
    intros _. apply IHa; [cbn [length] in *; lia|reflexivity].
Qed.

Lemma parse_ends ts : parseTokens fr ts <> PFuel.
Proof.
  unfold parseTokens. destruct (enough (S (3 * length ts))) as (H & _). apply H. lia.
Qed.
End P.
