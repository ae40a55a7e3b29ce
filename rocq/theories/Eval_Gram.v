(** * The parser accepts exactly the (lax) grammar *)
From Coq Require Import ZArith List Bool Ascii Arith Lia.
From Verif Require Import Base Eval_Model Eval_Spec Eval_Char Eval_Parse.
Import ListNotations.

Scheme derives_mut := Minimality for derives Sort Prop
  with items_mut := Minimality for items Sort Prop
  with more_mut := Minimality for more Sort Prop.
Combined Scheme grammar_ind from derives_mut, items_mut, more_mut.

Section G.
Variable fr : bool.
Notation expression := (expression fr).
Notation loop := (loop fr).
Notation prefix := (prefix fr).
Notation elements := (elements fr).
Notation values := (values fr).
Notation arguments := (arguments fr).

Ltac grab H :=
  match type of H with
  | match ?x with _ => _ end = _ => let E := fresh "E" in destruct x eqn:E; try discriminate H
  end.

(** ** Soundness *)

Notation drv := (derives fr true).
Notation its := (items fr true).
Notation mor := (more fr true).

Lemma drv_weaken p q e ts : drv p e ts -> q <= p -> drv q e ts.
Proof.
  intros D L. destruct D; try (econstructor; eassumption).
  econstructor; try eassumption. lia.
Qed.

Lemma valref_sound a ts e r :
  valref a ts = POk e r ->
  exists name i pre, ts = pre ++ r /\ e = NRef RValue name i a /\ reference RValue name i (TDollar :: pre).
Proof.
  unfold valref. intro H.
  destruct ts as [|t ts]; [discriminate|]. destruct t as [ | | | | | | | | | | | | | | | | | | | | | | | | | | | |w| | | ]; try discriminate.
  assert (D : forall rest, POk (NRef RValue w None a) rest = POk e r -> rest = ts ->
    exists name i pre, TIdent w :: ts = pre ++ r /\ e = NRef RValue name i a /\ reference RValue name i (TDollar :: pre)).
  { intros rest X Y. inversion X; subst. exists w, None, [TIdent w]. repeat split. constructor. }
  destruct ts as [|t2 ts]; [apply (D _ H eq_refl)|].
  destruct t2; try (apply (D _ H eq_refl)).
  destruct ts as [|t3 ts]; [discriminate|]. destruct t3; try discriminate.
  destruct ts as [|t4 ts]; [discriminate|]. destruct t4; try discriminate.
  inversion H; subst. exists w, (Some z), [TIdent w; TOpenBracket; TInt z; TCloseBracket].
  repeat split. constructor.
Qed.

Lemma parens_sound k w a ts e r :
  proprefParens k w a ts = POk e r ->
  exists call, ts = call ++ r /\ e = NRef k w None a /\ (call = [] \/ call = [TOpenParen; TCloseParen]).
Proof.
  unfold proprefParens. intro H.
  assert (D : forall rest, POk (NRef k w None a) rest = POk e r -> rest = ts ->
    exists call, ts = call ++ r /\ e = NRef k w None a /\ (call = [] \/ call = [TOpenParen; TCloseParen])).
  { intros rest X Y. inversion X; subst. exists []. auto. }
  destruct ts as [|t ts]; [apply (D _ H eq_refl)|].
  destruct t; try (apply (D _ H eq_refl)).
  destruct ts as [|t2 ts]; [discriminate|]. destruct t2; try discriminate.
  inversion H; subst. exists [TOpenParen; TCloseParen]. auto.
Qed.

Lemma propref_sound a ts e r :
  propref a ts = POk e r ->
  exists k name pre, ts = pre ++ r /\ e = NRef k name None a /\ reference k name None (TPercent :: pre).
Proof.
  unfold propref. intro H.
  destruct ts as [|t ts]; [discriminate|]. destruct t as [ | | | | | | | | | | | | | | | | | | | | | | | | | | | |w| | | ]; try discriminate.
  assert (D : proprefParens RProperty w a ts = POk e r ->
     exists k name pre, TIdent w :: ts = pre ++ r /\ e = NRef k name None a /\ reference k name None (TPercent :: pre)).
  { intro X. apply parens_sound in X. destruct X as (call & -> & -> & C).
    exists RProperty, w, (TIdent w :: call). repeat split. constructor. exact C. }
  destruct ts as [|t2 ts]; [apply (D H)|].
  destruct t2; try (apply (D H)).
  destruct ts as [|t3 ts]; [discriminate|]. destruct t3 as [ | | | | | | | | | | | | | | | | | | | | | | | | | | | |i| | | ]; try discriminate.
  destruct (propertyItem i) as [k|] eqn:P; [|discriminate].
  apply item_spec in P. destruct P as (n & I & C).
  apply parens_sound in H. destruct H as (call & -> & -> & Hc).
  exists k, w, (TIdent w :: TColon :: TIdent i :: call). repeat split. econstructor; eassumption.
Qed.

Lemma argref_sound ts e r :
  argref ts = POk e r ->
  exists pre, ts = pre ++ r /\ forall p, drv p e (TOpenCurly :: pre).
Proof.
  unfold argref. intro H.
  destruct ts as [|t ts]; [discriminate|]. destruct t; try discriminate.
  destruct ts as [|t ts]; [discriminate|]. destruct t; try discriminate.
  destruct ts as [|t ts]; [discriminate|]. destruct t; try discriminate.
  destruct ts as [|t ts]; [discriminate|]. destruct t; try discriminate.
  - apply valref_sound in H. destruct H as (n & i & pre & -> & -> & R).
    exists (TInt z :: TCloseCurly :: TDot :: TDollar :: pre). split; [reflexivity|].
    intro p. apply d_arg. exact R.
  - apply propref_sound in H. destruct H as (k & n & pre & -> & -> & R).
    exists (TInt z :: TCloseCurly :: TDot :: TPercent :: pre). split; [reflexivity|].
    intro p. apply d_arg. exact R.
Qed.

Lemma its_cons e te l tl :
  drv 0 e te -> its l tl -> its (e :: l) (te ++ TComma :: tl).
Proof.
  intros De I. destruct I as [|e2 te2 l tl last D2 M L].
  - change (te ++ [TComma]) with (te ++ [] ++ [TComma]). constructor; [exact De|constructor|auto].
  - replace (te ++ TComma :: te2 ++ tl ++ last) with (te ++ (TComma :: te2 ++ tl) ++ last)
      by (cbn; rewrite <- app_assoc; reflexivity).
    constructor; [exact De|constructor; assumption|exact L].
Qed.

Lemma its_one e te : drv 0 e te -> its [e] te.
Proof.
  intro D. rewrite <- (app_nil_r te). change (@nil token) with (@nil token ++ @nil token).
  constructor; [exact D|constructor|auto].
Qed.

Lemma sound n :
  (forall p ts e r, expression n p ts = POk e r ->
     exists pre, ts = pre ++ r /\ drv p e pre /\ nextPrecedence r <= p) /\
  (forall p l ts e r, loop n p l ts = POk e r ->
     forall pre0 m, p <= m -> drv m l pre0 -> nextPrecedence ts <= m + 1 ->
     exists pre, ts = pre ++ r /\ drv p e (pre0 ++ pre) /\ nextPrecedence r <= p) /\
  (forall t ts e r, prefix n t ts = POk e r ->
     exists pre, ts = pre ++ r /\ forall p, drv p e (t :: pre)) /\
  (forall ts l r, elements n ts = POk l r ->
     exists pre, ts = pre ++ TCloseBracket :: r /\ its l pre) /\
  (forall ts l r, values n ts = POk l r ->
     exists pre, ts = pre ++ TCloseParen :: r /\ mor l pre) /\
  (forall k ts l r, k <= 4 -> arguments n k ts = POk l r ->
     exists pre, ts = pre ++ TCloseParen :: r /\ its l pre /\ k + length l <= 4).
Proof.
  induction n as [|n (IHe & IHl & IHp & IHs & IHv & IHa)].
  { repeat match goal with |- _ /\ _ => split end; intros; discriminate. }
  repeat match goal with |- _ /\ _ => split end.
  - intros p ts e r H. rewrite expression_S in H.
    destruct ts as [|t ts]; [discriminate|]. grab H.
    apply IHp in E. destruct E as (pre & -> & D).
    destruct (IHl _ _ _ _ _ H (t :: pre) (Nat.max 5 p)) as (pre2 & -> & D2 & N2).
    + lia.
    + apply D.
    + pose proof (next_le4 rest); lia.
    + exists ((t :: pre) ++ pre2). split; [cbn; rewrite app_assoc; reflexivity|].
      split; assumption.
  - intros p l ts e r H pre0 m Lm D0 N0. rewrite loop_S in H.
    assert (Stop : nextPrecedence ts <= p -> POk l ts = POk e r ->
       exists pre, ts = pre ++ r /\ drv p e (pre0 ++ pre) /\ nextPrecedence r <= p).
    { intros Np X. inversion X; subst. exists []. rewrite app_nil_r.
      split; [reflexivity|]. split; [|exact Np]. eapply drv_weaken; eassumption. }
    destruct ts as [|t ts]; [apply Stop; [cbn; unfold MinPrecedence; lia|exact H]|].
    cbn [nextPrecedence] in *.
    destruct (infixRule t) as [[q o]|] eqn:R; [|apply Stop; [unfold MinPrecedence; lia|exact H]].
    destruct (p <? q) eqn:Lq; [|apply Stop; [apply Nat.ltb_ge in Lq; exact Lq|exact H]].
    apply Nat.ltb_lt in Lq. clear Stop. grab H.
    apply IHe in E. destruct E as (preb & -> & Db & Nb).
    apply infix_rule in R.
    destruct (IHl _ _ _ _ _ H (pre0 ++ t :: preb) (q - 1)) as (pre2 & -> & D2 & N2).
    + lia.
    + apply d_bin with (q := q); [exact R|destruct R; cbn; lia| |exact Db].
      eapply drv_weaken; [exact D0|]. lia.
    + lia.
    + exists (t :: preb ++ pre2). split; [cbn; rewrite app_assoc; reflexivity|].
      split; [|exact N2]. rewrite <- app_assoc in D2. exact D2.
  - intros t ts e r H.
    destruct t; try discriminate H; cbn [Eval_Model.prefix] in H;
      fold expression loop prefix elements values arguments in H;
      try (inversion H; subst; exists []; split; [reflexivity|]; intro p; constructor; fail).
    + (* paren *) grab H. apply IHe in E. destruct E as (pre & -> & D & _). grab H.
      apply close_rest in E. subst. inversion H; subst.
      exists (pre ++ [TCloseParen]). split; [rewrite <- app_assoc; reflexivity|].
      intro p. apply d_paren. exact D.
    + (* bracket *) grab H. apply IHs in E. destruct E as (pre & -> & D). inversion H; subst.
      exists (pre ++ [TCloseBracket]). split; [rewrite <- app_assoc; reflexivity|].
      intro p. apply d_list. exact D.
    + apply argref_sound in H. exact H.
    + grab H. apply IHe in E. destruct E as (pre & -> & D & _). inversion H; subst.
      exists pre. split; [reflexivity|]. intro p. apply d_neg. exact D.
    + grab H. apply IHe in E. destruct E as (pre & -> & D & _). inversion H; subst.
      exists pre. split; [reflexivity|]. intro p. apply d_not. exact D.
    + apply valref_sound in H. destruct H as (w & i & pre & -> & -> & R).
      exists pre. split; [reflexivity|]. intro p. apply d_ref. exact R.
    + apply propref_sound in H. destruct H as (k & w & pre & -> & -> & R).
      exists pre. split; [reflexivity|]. intro p. apply d_ref. exact R.
    + destruct fr eqn:F; [|discriminate]. inversion H; subst. exists []. split; [reflexivity|].
      intro p. apply d_name. reflexivity.
    + (* unit *) destruct ts as [|t ts]; [discriminate|]. destruct t; try discriminate.
      grab H. apply IHa in E; [|lia]. destruct E as (pre & -> & D & L).
      destruct a as [|x a]; [discriminate|]. inversion H; subst.
      exists (TOpenParen :: pre ++ [TCloseParen]).
      split; [cbn; rewrite <- app_assoc; reflexivity|].
      intro p. apply d_unit; [exact D|]. cbn [length] in *. lia.
    + (* switch *) destruct ts as [|t ts]; [discriminate|]. destruct t; try discriminate.
      grab H. apply IHe in E. destruct E as (pre & -> & D & _).
      grab H. apply IHv in E. destruct E as (pre2 & -> & D2).
      destruct (length a0 <? 2) eqn:L; [discriminate|]. apply Nat.ltb_ge in L.
      inversion H; subst. exists (TOpenParen :: pre ++ pre2 ++ [TCloseParen]).
      split; [cbn; rewrite <- !app_assoc; reflexivity|].
      intro p. apply d_switch; assumption.
    + (* if *) destruct ts as [|t ts]; [discriminate|]. destruct t; try discriminate.
      grab H. apply IHe in E. destruct E as (pre & -> & D & _).
      grab H. apply comma_rest in E. subst.
      grab H. apply IHe in E. destruct E as (pre2 & -> & D2 & _).
      grab H. apply comma_rest in E. subst.
      grab H. apply IHe in E. destruct E as (pre3 & -> & D3 & _).
      grab H. apply close_rest in E. subst. inversion H; subst.
      exists (TOpenParen :: pre ++ TComma :: pre2 ++ TComma :: pre3 ++ [TCloseParen]).
      split; [cbn; repeat (rewrite <- app_assoc; cbn); reflexivity|].
      intro p. apply d_if; assumption.
  - intros ts e r H.
    destruct (starts_dec TCloseBracket ts token_dec) as [[r0 ->]|N].
    { rewrite elements_S in H. inversion H; subst. exists []. split; [reflexivity|constructor]. }
    rewrite elements_more in H by exact N. grab H. apply IHe in E.
    destruct E as (pre & -> & D & _).
    destruct rest as [|t rest]; [discriminate|]. destruct t; try discriminate.
    + inversion H; subst. exists pre. split; [reflexivity|]. apply its_one; exact D.
    + grab H. apply IHs in E. destruct E as (pre2 & -> & D2). inversion H; subst.
      exists (pre ++ TComma :: pre2). split; [rewrite <- app_assoc; reflexivity|].
      apply its_cons; assumption.
  - intros ts e r H. rewrite values_S in H.
    destruct ts as [|t ts]; [discriminate|]. destruct t; try discriminate.
    + inversion H; subst. exists []. split; [reflexivity|constructor].
    + grab H. apply IHe in E. destruct E as (pre & -> & D & _).
      grab H. apply IHv in E. destruct E as (pre2 & -> & D2). inversion H; subst.
      exists (TComma :: pre ++ pre2). split; [cbn; rewrite <- app_assoc; reflexivity|].
      constructor; assumption.
  - intros k ts e r Lk H.
    destruct (starts_dec TCloseParen ts token_dec) as [[r0 ->]|N].
    { rewrite arguments_S in H. inversion H; subst. exists [].
      split; [reflexivity|]. split; [constructor|cbn; lia]. }
    rewrite arguments_more in H by exact N.
    destruct (3 <? k) eqn:L3; [discriminate|]. apply Nat.ltb_ge in L3.
    grab H. apply IHe in E. destruct E as (pre & -> & D & _).
    destruct rest as [|t rest]; [discriminate|]. destruct t; try discriminate.
    + inversion H; subst. exists pre. split; [reflexivity|].
      split; [apply its_one; exact D|cbn; lia].
    + grab H. apply IHa in E; [|lia]. destruct E as (pre2 & -> & D2 & L2). inversion H; subst.
      exists (pre ++ TComma :: pre2). split; [rewrite <- app_assoc; reflexivity|].
      split; [apply its_cons; assumption|cbn [length]; lia].
Qed.

Lemma parse_sound ts e r :
  parseTokens fr ts = POk e r -> exists pre, ts = pre ++ r /\ drv 0 e pre.
Proof.
  intro H. destruct (sound (S (3 * length ts))) as (S1 & _).
  apply S1 in H. destruct H as (pre & E & D & _). exists pre. auto.
Qed.

(** ** Completeness *)

Definition Ev {A} (f : nat -> presult A) (out : presult A) : Prop :=
  exists N, forall n, N <= n -> f n = out.

Lemma Ev_S {A} (f g : nat -> presult A) out :
  (forall n, f (S n) = g n) -> Ev g out -> Ev f out.
Proof.
  intros H [N E]. exists (S N). intros n L. destruct n as [|n]; [lia|].
  rewrite H. apply E. lia.
Qed.

Lemma Ev_const {A} (f : nat -> presult A) out : (forall n, f n = out) -> Ev f out.
Proof. intro H. exists 0. auto. Qed.

(** sequence: the first call eventually gives [POk a r] *)
Lemma Ev_bind {A B} (x : nat -> presult A) a r (f : nat -> A -> list token -> presult B) out :
  Ev x (POk a r) -> Ev (fun n => f n a r) out ->
  Ev (fun n => match x n with POk a r => f n a r | PFail => PFail | PFuel => PFuel end) out.
Proof.
  intros [N1 E1] [N2 E2]. exists (Nat.max N1 N2). intros n L.
  rewrite E1 by lia. apply E2. lia.
Qed.

Lemma Ev_ext {A} (f g : nat -> presult A) out : (forall n, f n = g n) -> Ev g out -> Ev f out.
Proof. intros H [N E]. exists N. intros n L. rewrite H. auto. Qed.

Lemma loop_stop p e rest : nextPrecedence rest <= p -> Ev (fun n => loop n p e rest) (POk e rest).
Proof.
  intro L. apply (Ev_S _ (fun _ => POk e rest)); [|apply Ev_const; reflexivity].
  intro n. rewrite loop_S. destruct rest as [|t rest]; [reflexivity|].
  cbn [nextPrecedence] in L. destruct (infixRule t) as [[q o]|]; [|reflexivity].
  destruct (p <? q) eqn:E; [apply Nat.ltb_lt in E; lia|reflexivity].
Qed.

(** an atom: the prefix rule returns it at once *)
Lemma prefix_step r out t tsr e rest :
  Ev (fun n => prefix n t tsr) (POk e rest) ->
  Ev (fun n => loop n r e rest) out ->
  Ev (fun n => expression n r (t :: tsr)) out.
Proof.
  intros P L. apply (Ev_S _ (fun n => match prefix n t tsr with
     | POk lhs r0 => loop n r lhs r0 | PFail => PFail | PFuel => PFuel end)).
  - intro n. rewrite expression_S. reflexivity.
  - apply (Ev_bind _ e rest (fun n a b => loop n r a b)); assumption.
Qed.

Lemma prefix_now t tsr e rest :
  (forall n, prefix (S n) t tsr = POk e rest) -> Ev (fun n => prefix n t tsr) (POk e rest).
Proof. intro H. apply (Ev_S _ (fun _ => POk e rest)); [exact H|apply Ev_const; reflexivity]. Qed.

(** what can follow a complete expression *)
Definition follow (rest : list token) : Prop :=
  match rest with
  | [] => True
  | t :: _ => t = TCloseParen \/ t = TCloseBracket \/ t = TComma \/ infixRule t <> None
  end.

Lemma ref_prefix k w i ts arg rest :
  reference k w i ts -> follow rest ->
  (exists ts', ts = TDollar :: ts' /\ valref arg (ts' ++ rest) = POk (NRef k w i arg) rest) \/
  (exists ts', ts = TPercent :: ts' /\ propref arg (ts' ++ rest) = POk (NRef k w i arg) rest).
Proof.
  intros R F.
  assert (Nb : forall s, rest <> TOpenBracket :: s).
  { intros s ->. cbn in F. intuition congruence. }
  assert (Nc : forall s, rest <> TColon :: s).
  { intros s ->. cbn in F. intuition congruence. }
  assert (Np : forall s, rest <> TOpenParen :: s).
  { intros s ->. cbn in F. intuition congruence. }
  assert (PP : forall k w, proprefParens k w arg rest = POk (NRef k w None arg) rest).
  { intros k0 w0. unfold proprefParens. destruct rest as [|t rest]; [reflexivity|].
    destruct t; try reflexivity. exfalso; eapply Np; reflexivity. }
  destruct R as [w|w z|w call C|w k nm i call C I K].
  - left. exists [TIdent w]. split; [reflexivity|]. cbn.
    destruct rest as [|t rest]; [reflexivity|]. destruct t; try reflexivity.
    exfalso; eapply Nb; reflexivity.
  - left. exists [TIdent w; TOpenBracket; TInt z; TCloseBracket]. split; reflexivity.
  - right. exists (TIdent w :: call). split; [reflexivity|]. destruct C as [-> | ->].
    + cbn [app propref]. destruct rest as [|t rest]; [apply PP|].
      destruct t; try apply PP. exfalso; eapply Nc; reflexivity.
    + reflexivity.
  - right. exists (TIdent w :: TColon :: TIdent i :: call). split; [reflexivity|].
    assert (PI : propertyItem i = Some k) by (apply item_spec; exists nm; auto).
    cbn [app propref]. rewrite PI. destruct C as [-> | ->]; [apply PP|reflexivity].
Qed.

(** an expression does not begin with a closing token *)
Definition opening (ts : list token) : Prop :=
  exists t r, ts = t :: r /\ t <> TCloseParen /\ t <> TCloseBracket.

Lemma opens lax :
  (forall p e ts, derives fr lax p e ts -> opening ts) /\
  (forall l ts, items fr lax l ts -> True) /\
  (forall l ts, more fr lax l ts -> True).
Proof.
  apply grammar_ind; intros; auto;
    try (eexists _, _; split; [reflexivity|split; discriminate]).
  - destruct H; eexists _, _; (split; [reflexivity|split; discriminate]).
  - destruct H2 as (t0 & r & -> & N). eexists _, _. split; [reflexivity|exact N].
Qed.

Lemma opening_nb ts rest : opening ts -> ~ starts TCloseBracket (ts ++ rest).
Proof. intros (t & r & -> & N1 & N2) [s E]. cbn in E. congruence. Qed.
Lemma opening_np ts rest : opening ts -> ~ starts TCloseParen (ts ++ rest).
Proof. intros (t & r & -> & N1 & N2) [s E]. cbn in E. congruence. Qed.

(** the middle of [elements] and [arguments]: one element has been read *)
Definition elements_rest (n : nat) (e : node) (r : list token) : presult (list node) :=
  match r with
  | TCloseBracket :: r' => POk [e] r'
  | TComma :: r' =>
      match elements n r' with
      | POk l r'' => POk (e :: l) r'' | PFail => PFail | PFuel => PFuel
      end
  | _ => PFail
  end.

Definition arguments_rest (n k : nat) (e : node) (r : list token) : presult (list node) :=
  match r with
  | TCloseParen :: r' => POk [e] r'
  | TComma :: r' =>
      match arguments n (S k) r' with
      | POk l r'' => POk (e :: l) r'' | PFail => PFail | PFuel => PFuel
      end
  | _ => PFail
  end.

Lemma complete lax :
  (forall p e ts, derives fr lax p e ts -> forall r rest out,
     r <= p -> nextPrecedence rest <= p + 1 -> follow rest ->
     Ev (fun n => loop n r e rest) out ->
     Ev (fun n => expression n r (ts ++ rest)) out) /\
  (forall l ts, items fr lax l ts -> forall rest,
     Ev (fun n => elements n (ts ++ TCloseBracket :: rest)) (POk l rest) /\
     (forall k, k + length l <= 4 ->
      Ev (fun n => arguments n k (ts ++ TCloseParen :: rest)) (POk l rest))) /\
  (forall l ts, more fr lax l ts -> forall rest,
     Ev (fun n => values n (ts ++ TCloseParen :: rest)) (POk l rest) /\
     (forall e last, last = [] \/ last = [TComma] ->
      Ev (fun n => elements_rest n e (ts ++ last ++ TCloseBracket :: rest)) (POk (e :: l) rest) /\
      (forall k, k + S (length l) <= 4 ->
       Ev (fun n => arguments_rest n k e (ts ++ last ++ TCloseParen :: rest)) (POk (e :: l) rest)))).
Proof.
  (* parsing a complete expression, closed by [rest] *)
  assert (Whole : forall p e ts, 
     (forall r rest out, r <= p -> nextPrecedence rest <= p + 1 -> follow rest ->
       Ev (fun n => loop n r e rest) out -> Ev (fun n => expression n r (ts ++ rest)) out) ->
     forall rest, nextPrecedence rest <= p -> follow rest ->
     Ev (fun n => expression n p (ts ++ rest)) (POk e rest)).
  { intros p e ts IH rest N F. apply IH; [lia|lia|exact F|]. apply loop_stop. exact N. }
  apply grammar_ind.
  - intros p w r rest out _ _ F L. cbn [app].
    eapply prefix_step; [|exact L]. apply prefix_now. reflexivity.
  - intros p w r rest out _ _ F L. cbn [app].
    eapply prefix_step; [|exact L]. apply prefix_now. reflexivity.
  - intros p w r rest out _ _ F L. cbn [app].
    eapply prefix_step; [|exact L]. apply prefix_now. reflexivity.
  - intros p w r rest out _ _ F L. cbn [app].
    eapply prefix_step; [|exact L]. apply prefix_now. reflexivity.
  - intros p w Hn r rest out _ _ F L. cbn [app].
    eapply prefix_step; [|exact L]. apply prefix_now. intro n.
    cbn [Eval_Model.prefix]. rewrite Hn. reflexivity.
  - (* reference *) intros p k w i ts R r rest out _ _ F L.
    destruct (ref_prefix _ _ _ _ (-1)%Z rest R F) as [(ts' & -> & E)|(ts' & -> & E)];
      cbn [app]; (eapply prefix_step; [|exact L]); apply prefix_now; intro n; exact E.
  - (* argument *) intros p k w i ts z R r rest out _ _ F L.
    destruct (ref_prefix _ _ _ _ (castInt z) rest R F) as [(ts' & -> & E)|(ts' & -> & E)];
      cbn [app]; (eapply prefix_step; [|exact L]); apply prefix_now; intro n;
      cbn [Eval_Model.prefix argref]; exact E.
  - (* paren *) intros p e ts D IH r rest out _ _ F L. cbn [app].
    rewrite <- app_assoc. cbn [app].
    eapply prefix_step; [|exact L].
    apply (Ev_S _ (fun n => match expression n 0 (ts ++ TCloseParen :: rest) with
       | POk e r => match close r with Some r' => POk e r' | None => PFail end
       | PFail => PFail | PFuel => PFuel end)); [reflexivity|].
    apply (Ev_bind _ e (TCloseParen :: rest) (fun _ e r => match close r with Some r' => POk e r' | None => PFail end));
      [|apply Ev_const; reflexivity].
    apply (Whole 0 e ts IH); [cbn; unfold MinPrecedence; lia|cbn; auto].
  - (* not *) intros p e ts D IH r rest out _ _ F L. cbn [app].
    eapply prefix_step; [|exact L].
    apply (Ev_S _ (fun n => match expression n 5 (ts ++ rest) with
       | POk e r => POk (NNot e) r | PFail => PFail | PFuel => PFuel end)); [reflexivity|].
    apply (Ev_bind _ e rest (fun _ e r => POk (NNot e) r)); [|apply Ev_const; reflexivity].
    apply (Whole 5 e ts IH); [pose proof (next_le4 rest); lia|exact F].
  - (* neg *) intros p e ts D IH r rest out _ _ F L. cbn [app].
    eapply prefix_step; [|exact L].
    apply (Ev_S _ (fun n => match expression n 5 (ts ++ rest) with
       | POk e r => POk (NNeg e) r | PFail => PFail | PFuel => PFuel end)); [reflexivity|].
    apply (Ev_bind _ e rest (fun _ e r => POk (NNeg e) r)); [|apply Ev_const; reflexivity].
    apply (Whole 5 e ts IH); [pose proof (next_le4 rest); lia|exact F].
  - (* bin *) intros p q o t a b ta tb I Lq Da IHa Db IHb r rest out Lr Nr F L.
    pose proof I as R. apply infix_rule in R.
    rewrite <- app_assoc. cbn [app].
    apply IHa.
    + lia.
    + cbn [nextPrecedence]. rewrite R. lia.
    + cbn [follow]. right; right; right. congruence.
    + apply (Ev_S _ (fun n => match expression n q (tb ++ rest) with
        | POk rhs r0 => loop n r (NBin o a rhs) r0 | PFail => PFail | PFuel => PFuel end)).
      * intro n. rewrite loop_S, R.
        destruct (r <? q) eqn:E; [reflexivity|apply Nat.ltb_ge in E; lia].
      * apply (Ev_bind _ b rest (fun n rhs r0 => loop n r (NBin o a rhs) r0)); [|exact L].
        apply (Whole q b tb IHb); [lia|exact F].
  - (* list *) intros p l ts D IH r rest out _ _ F L. cbn [app].
    rewrite <- app_assoc. cbn [app].
    eapply prefix_step; [|exact L].
    apply (Ev_S _ (fun n => match elements n (ts ++ TCloseBracket :: rest) with
       | POk l r => POk (NList l) r | PFail => PFail | PFuel => PFuel end)); [reflexivity|].
    apply (Ev_bind _ l rest (fun _ l r => POk (NList l) r)); [|apply Ev_const; reflexivity].
    apply IH.
  - (* if *) intros p c a b tc ta tb Dc IHc Da IHa Db IHb r rest out _ _ F L. cbn [app].
    eapply prefix_step; [|exact L].
    replace ((tc ++ TComma :: ta ++ TComma :: tb ++ [TCloseParen]) ++ rest)
      with (tc ++ TComma :: ta ++ TComma :: tb ++ TCloseParen :: rest)
      by (repeat (rewrite <- app_assoc; cbn [app]); reflexivity).
    apply (Ev_S _ (fun n => match expression n 0 (tc ++ TComma :: ta ++ TComma :: tb ++ TCloseParen :: rest) with
       | POk c r1 =>
          match comma r1 with
          | None => PFail
          | Some r1' =>
              match expression n MinPrecedence r1' with
              | POk a r2 =>
                  match comma r2 with
                  | None => PFail
                  | Some r2' =>
                      match expression n MinPrecedence r2' with
                      | POk b r3 =>
                          match close r3 with
                          | Some r3' => POk (NIf c a b) r3'
                          | None => PFail
                          end
                      | PFail => PFail
                      | PFuel => PFuel
                      end
                  end
              | PFail => PFail
              | PFuel => PFuel
              end
          end
       | PFail => PFail | PFuel => PFuel end)); [reflexivity|].
    refine (Ev_bind (fun n => expression n 0 (tc ++ TComma :: ta ++ TComma :: tb ++ TCloseParen :: rest))
       c (TComma :: ta ++ TComma :: tb ++ TCloseParen :: rest) _ _ _ _).
    { apply (Whole 0 c tc IHc); [cbn; unfold MinPrecedence; lia|cbn; auto]. }
    cbn [comma].
    refine (Ev_bind (fun n => expression n 0 (ta ++ TComma :: tb ++ TCloseParen :: rest))
       a (TComma :: tb ++ TCloseParen :: rest) _ _ _ _).
    { apply (Whole 0 a ta IHa); [cbn; unfold MinPrecedence; lia|cbn; auto]. }
    cbn [comma].
    refine (Ev_bind (fun n => expression n 0 (tb ++ TCloseParen :: rest))
       b (TCloseParen :: rest) _ _ _ _).
    { apply (Whole 0 b tb IHb); [cbn; unfold MinPrecedence; lia|cbn; auto]. }
    apply Ev_const; reflexivity.
  - (* switch *) intros p v l tv tl Dv IHv Dl IHl Len r rest out _ _ F L. cbn [app].
    eapply prefix_step; [|exact L].
    replace ((tv ++ tl ++ [TCloseParen]) ++ rest) with (tv ++ tl ++ TCloseParen :: rest)
      by (rewrite <- !app_assoc; reflexivity).
    apply (Ev_S _ (fun n => match expression n 0 (tv ++ tl ++ TCloseParen :: rest) with
       | POk v r1 =>
          match values n r1 with
          | POk l r2 => if (length l <? 2)%nat then PFail else POk (NSwitch v l) r2
          | PFail => PFail
          | PFuel => PFuel
          end
       | PFail => PFail | PFuel => PFuel end)); [reflexivity|].
    refine (Ev_bind (fun n => expression n 0 (tv ++ tl ++ TCloseParen :: rest))
       v (tl ++ TCloseParen :: rest) _ _ _ _).
    { apply (Whole 0 v tv IHv).
      - destruct Dl; cbn; unfold MinPrecedence; lia.
      - destruct Dl; cbn; auto. }
    refine (Ev_bind (fun n => values n (tl ++ TCloseParen :: rest)) l rest _ _ _ _).
    { apply IHl. }
    cbv beta. destruct (length l <? 2) eqn:E; [apply Nat.ltb_lt in E; lia|].
    apply Ev_const; reflexivity.
  - (* unit *) intros p l ts D IH Len r rest out _ _ F L. cbn [app].
    rewrite <- app_assoc. cbn [app].
    eapply prefix_step; [|exact L].
    apply (Ev_S _ (fun n => match arguments n 0 (ts ++ TCloseParen :: rest) with
       | POk l r1 => match l with [] => PFail | _ => POk (NUnit l) r1 end
       | PFail => PFail | PFuel => PFuel end)); [reflexivity|].
    refine (Ev_bind (fun n => arguments n 0 (ts ++ TCloseParen :: rest)) l rest _ _ _ _).
    { apply IH. lia. }
    cbv beta. destruct l; [cbn in Len; lia|]. apply Ev_const; reflexivity.
  - (* no item *) intro rest. cbn [app]. split.
    + apply (Ev_S _ (fun _ => POk [] rest)); [reflexivity|apply Ev_const; reflexivity].
    + intros k _. apply (Ev_S _ (fun _ => POk [] rest)); [reflexivity|apply Ev_const; reflexivity].
  - (* items *) intros e te l tl last De IHe Dl IHl La rest.
    assert (Op : opening te) by (eapply (proj1 (opens lax)); exact De).
    assert (La' : last = [] \/ last = [TComma]) by (destruct La as [->|[_ ->]]; auto).
    assert (Nx : forall t, t = TCloseParen \/ t = TCloseBracket ->
       nextPrecedence (tl ++ last ++ t :: rest) <= 0 /\ follow (tl ++ last ++ t :: rest)).
    { intros t Ht. destruct Dl; destruct La' as [-> | ->]; destruct Ht as [-> | ->];
        cbn; unfold MinPrecedence; split; auto. }
    destruct (IHl rest) as [_ M]. destruct (M e last La') as [M1 M2].
    split.
    + replace ((te ++ tl ++ last) ++ TCloseBracket :: rest)
        with (te ++ (tl ++ last ++ TCloseBracket :: rest)) by (rewrite <- !app_assoc; reflexivity).
      apply (Ev_S _ (fun n => match expression n 0 (te ++ (tl ++ last ++ TCloseBracket :: rest)) with
         | POk e r => elements_rest n e r | PFail => PFail | PFuel => PFuel end)).
      { intro n. rewrite elements_more by (apply opening_nb; exact Op). reflexivity. }
      refine (Ev_bind (fun n => expression n 0 (te ++ (tl ++ last ++ TCloseBracket :: rest))) e
         (tl ++ last ++ TCloseBracket :: rest) _ _ _ M1).
      apply (Whole 0 e te IHe); apply Nx; auto.
    + intros k Lk. cbn [length] in Lk.
      replace ((te ++ tl ++ last) ++ TCloseParen :: rest)
        with (te ++ (tl ++ last ++ TCloseParen :: rest)) by (rewrite <- !app_assoc; reflexivity).
      apply (Ev_S _ (fun n => match expression n 0 (te ++ (tl ++ last ++ TCloseParen :: rest)) with
         | POk e r => arguments_rest n k e r | PFail => PFail | PFuel => PFuel end)).
      { intro n. rewrite arguments_more by (apply opening_np; exact Op).
        destruct (3 <? k) eqn:E; [apply Nat.ltb_lt in E; lia|]. reflexivity. }
      refine (Ev_bind (fun n => expression n 0 (te ++ (tl ++ last ++ TCloseParen :: rest))) e
         (tl ++ last ++ TCloseParen :: rest) _ _ _ _).
      * apply (Whole 0 e te IHe); apply Nx; auto.
      * apply M2. lia.
  - (* no more *) intro rest. cbn [app]. split.
    + apply (Ev_S _ (fun _ => POk [] rest)); [reflexivity|apply Ev_const; reflexivity].
    + intros e last La. destruct La as [-> | ->]; cbn [app elements_rest arguments_rest]; split.
      * apply Ev_const; reflexivity.
      * intros k _. apply Ev_const; reflexivity.
      * refine (Ev_bind (fun n => elements n (TCloseBracket :: rest)) [] rest (fun _ l r => POk (e :: l) r) _ _ _).
        -- apply (Ev_S _ (fun _ => POk [] rest)); [reflexivity|apply Ev_const; reflexivity].
        -- apply Ev_const; reflexivity.
      * intros k _.
        refine (Ev_bind (fun n => arguments n (S k) (TCloseParen :: rest)) [] rest (fun _ l r => POk (e :: l) r) _ _ _).
        -- apply (Ev_S _ (fun _ => POk [] rest)); [reflexivity|apply Ev_const; reflexivity].
        -- apply Ev_const; reflexivity.
  - (* one more *) intros e te l tl De IHe Dl IHl rest.
    assert (Op : opening te) by (eapply (proj1 (opens lax)); exact De).
    destruct (IHl rest) as [V M].
    split.
    + cbn [app]. rewrite <- app_assoc.
      apply (Ev_S _ (fun n => match expression n 0 (te ++ (tl ++ TCloseParen :: rest)) with
         | POk e r' => match values n r' with
            | POk l r'' => POk (e :: l) r'' | PFail => PFail | PFuel => PFuel end
         | PFail => PFail | PFuel => PFuel end)); [reflexivity|].
      refine (Ev_bind (fun n => expression n 0 (te ++ (tl ++ TCloseParen :: rest))) e
         (tl ++ TCloseParen :: rest) _ _ _ _).
      * apply (Whole 0 e te IHe).
        -- destruct Dl; cbn; unfold MinPrecedence; lia.
        -- destruct Dl; cbn; auto.
      * refine (Ev_bind (fun n => values n (tl ++ TCloseParen :: rest)) l rest (fun _ l r => POk (e :: l) r) _ _ _).
        -- exact V.
        -- apply Ev_const; reflexivity.
    + intros e0 last La.
      assert (Nx : forall t, t = TCloseParen \/ t = TCloseBracket ->
         nextPrecedence (tl ++ last ++ t :: rest) <= 0 /\ follow (tl ++ last ++ t :: rest)).
      { intros t Ht. destruct Dl; destruct La as [-> | ->]; destruct Ht as [-> | ->];
          cbn; unfold MinPrecedence; split; auto. }
      destruct (M e last La) as [M1 M2]. split.
      * cbn [app elements_rest]. rewrite <- app_assoc.
        refine (Ev_bind (fun n => elements n (te ++ (tl ++ last ++ TCloseBracket :: rest))) (e :: l) rest
           (fun _ l r => POk (e0 :: l) r) _ _ _); [|apply Ev_const; reflexivity].
        apply (Ev_S _ (fun n => match expression n 0 (te ++ (tl ++ last ++ TCloseBracket :: rest)) with
           | POk e r => elements_rest n e r | PFail => PFail | PFuel => PFuel end)).
        { intro n. rewrite elements_more by (apply opening_nb; exact Op). reflexivity. }
        refine (Ev_bind (fun n => expression n 0 (te ++ (tl ++ last ++ TCloseBracket :: rest))) e
           (tl ++ last ++ TCloseBracket :: rest) _ _ _ M1).
        apply (Whole 0 e te IHe); apply Nx; auto.
      * intros k Lk. cbn [length] in Lk. cbn [app arguments_rest]. rewrite <- app_assoc.
        refine (Ev_bind (fun n => arguments n (S k) (te ++ (tl ++ last ++ TCloseParen :: rest))) (e :: l) rest
           (fun _ l r => POk (e0 :: l) r) _ _ _); [|apply Ev_const; reflexivity].
        apply (Ev_S _ (fun n => match expression n 0 (te ++ (tl ++ last ++ TCloseParen :: rest)) with
           | POk e r => arguments_rest n (S k) e r | PFail => PFail | PFuel => PFuel end)).
        { intro n. rewrite arguments_more by (apply opening_np; exact Op).
          destruct (3 <? S k) eqn:E; [apply Nat.ltb_lt in E; lia|]. reflexivity. }
        refine (Ev_bind (fun n => expression n 0 (te ++ (tl ++ last ++ TCloseParen :: rest))) e
           (tl ++ last ++ TCloseParen :: rest) _ _ _ _).
        -- apply (Whole 0 e te IHe); apply Nx; auto.
        -- apply M2. lia.
Qed.

Lemma mono_le n m p ts : n <= m -> expression n p ts <> PFuel -> expression m p ts = expression n p ts.
Proof.
  intros L. induction L as [|m L IH]; intro H; [reflexivity|].
  rewrite <- (IH H). apply (proj1 (mono fr m)). rewrite (IH H). exact H.
Qed.

Lemma parse_complete lax e ts rest :
  derives fr lax 0 e ts -> follow rest -> nextPrecedence rest = 0 ->
  parseTokens fr (ts ++ rest) = POk e rest.
Proof.
  intros D F N. destruct (complete lax) as (C & _).
  destruct (C _ _ _ D 0 rest (POk e rest)) as [M E]; [lia|lia|exact F|apply loop_stop; lia|].
  unfold parseTokens, MinPrecedence. set (k := S (3 * length (ts ++ rest))).
  assert (H : expression k 0 (ts ++ rest) <> PFuel).
  { destruct (enough fr k) as (G & _). apply G. unfold k. lia. }
  rewrite <- (mono_le k (Nat.max k M) 0 (ts ++ rest)); [apply E; lia|lia|exact H].
Qed.
End G.
