(** * C42, C43: expression strings *)
From Coq Require Import ZArith List Bool Ascii String Arith Lia.
From Verif Require Import Base Eval_Model Eval_Spec Eval_Char Eval_Parse Eval_Gram Eval_Lex Eval_Calc.
Import ListNotations.
Local Open Scope Z_scope.

(** ** C42: which text is which expression *)

(** However the tokens are written - any white space, names and keywords in
    any case - the lexer finds them. *)
Theorem c42_tokens : forall ts s, written ts s -> tokenize s = Some ts.
Proof. intros ts s W. unfold tokenize. apply tokenize_written; [exact W|lia]. Qed.

(** Every text of the documented grammar is parsed to its expression. *)
Theorem c42_parse : forall names s e,
  expression_text names s e -> parseEvalValue names s = Some e.
Proof.
  intros names s e (ts & W & D). unfold parseEvalValue.
  rewrite (c42_tokens _ _ W).
  pose proof (parse_complete names false e ts [] D I eq_refl) as P.
  rewrite app_nil_r in P. rewrite P. reflexivity.
Qed.

(** The grammar with its precedences is not ambiguous. *)
Theorem c42_unambiguous : forall names s e1 e2,
  expression_text names s e1 -> expression_text names s e2 -> e1 = e2.
Proof.
  intros names s e1 e2 H1 H2. apply c42_parse in H1. apply c42_parse in H2. congruence.
Qed.

(** What is accepted: the text begins with an expression of the lax grammar.
    Missing for the full property: that nothing follows it (see the
    refutations). *)
Theorem c42_accepts_partial : forall names s e,
  parseEvalValue names s = Some e ->
  exists ts rest, derives names true 0 e ts /\
   (written (ts ++ rest) s \/
    exists s1 q s2, s = s1 ++ q :: s2 /\ (q = "'"%char \/ q = """"%char) /\ ~ In q s2 /\
                    written (ts ++ rest) s1).
Proof.
  intros names s e H. unfold parseEvalValue in H.
  destruct (tokenize s) as [ts|] eqn:T; [|discriminate].
  destruct (parseTokens names ts) as [| |e' r] eqn:P; try discriminate.
  inversion H; subst e'. apply parse_sound in P. destruct P as (pre & -> & D).
  exists pre, r. split; [exact D|]. eapply tokenize_sound. exact T.
Qed.

(** The bound on the calls in the model of the parser is never reached: the
    parser ends on every input. *)
Theorem c42_ends : forall names ts, parseTokens names ts <> PFuel.
Proof. exact parse_ends. Qed.

(** a text that is not an expression *)
Lemma not_text names s ts :
  tokenize s = Some ts ->
  (forall e, parseTokens names ts <> POk e []) ->
  forall e, ~ expression_text names s e.
Proof.
  intros T N e (ts' & W & D). rewrite (c42_tokens _ _ W) in T. inversion T; subst ts'.
  apply (N e). pose proof (parse_complete names false e ts [] D I eq_refl) as P.
  rewrite app_nil_r in P. exact P.
Qed.

(** Anything may follow a complete expression; it is ignored. *)
Theorem c42_trailing_refuted :
  parseEvalValue false (txt "1 2") = Some (NInt 1) /\
  forall e, ~ expression_text false (txt "1 2") e.
Proof.
  split; [reflexivity|]. eapply not_text; [reflexivity|]. intro e. vm_compute. discriminate.
Qed.

(** A string that is never closed disappears. *)
Theorem c42_unclosed_refuted :
  parseEvalValue false (txt "1 'abc") = Some (NInt 1) /\
  forall ts, ~ written ts (txt "1 'abc").
Proof.
  split; [reflexivity|]. intros ts W.
  assert (Q : forall ts s, written ts s -> forall c, In c s ->
     space c \/ exists t w, In t ts /\ spelled t w /\ In c w).
  { clear. induction 1 as [ws F|ws t w ts rest F Sp En W IH]; intros c I.
    - left. rewrite Forall_forall in F. auto.
    - apply in_app_or in I. destruct I as [I|I]; [left; rewrite Forall_forall in F; auto|].
      apply in_app_or in I. destruct I as [I|I].
      + right. exists t, w. repeat split; [left; reflexivity|exact Sp|exact I].
      + destruct (IH c I) as [S|(t' & w' & It & Sp' & Iw)]; [left; exact S|].
        right. exists t', w'. repeat split; [right; exact It|exact Sp'|exact Iw]. }
  pose proof (c42_tokens _ _ W) as T. vm_compute in T. inversion T; subst ts.
  destruct (Q _ _ W "a"%char) as [S|(t & w & It & Sp & Iw)].
  - cbn. tauto.
  - destruct S as [S|[S|[S|S]]]; discriminate S.
  - destruct It as [<-|[]]. inversion Sp; subst.
    + apply number_value in H1. destruct H1 as [_ F]. rewrite Forall_forall in F.
      specialize (F _ Iw). unfold digit, within in F. cbn in F. lia.
    + inversion H.
Qed.

(** A comma behind the last element of a list is accepted. *)
Theorem c42_trailing_comma_refuted :
  parseEvalValue false (txt "[1,]") = Some (NList [NInt 1]) /\
  forall e, ~ expression_text false (txt "[1,]") e.
Proof.
  split; [reflexivity|]. intros e (ts & W & D).
  pose proof (c42_tokens _ _ W) as T. vm_compute in T. inversion T; subst ts. clear T W.
  assert (Ni : forall t q o l, infix t q o -> In t l ->
     Forall (fun t => infixRule t = None) l -> False).
  { clear. intros t q o l I M F. rewrite Forall_forall in F. specialize (F t M).
    apply infix_rule in I. congruence. }
  assert (D2 : forall p e, derives false false p e [TInt 1; TComma] -> False).
  { clear - Ni. intros p e D. remember [TInt 1; TComma] as l eqn:El.
    destruct D; try discriminate El.
    - match goal with R : reference _ _ _ _ |- _ => subst ts; inversion R end.
    - eapply Ni; [eassumption| |].
      + instantiate (1 := [TInt 1; TComma]). rewrite <- El. apply in_elt.
      + repeat constructor. }
  remember [TOpenBracket; TInt 1; TComma; TCloseBracket] as l eqn:El.
  destruct D; try discriminate El.
  - match goal with R : reference _ _ _ _ |- _ => subst ts; inversion R end.
  - eapply Ni; [eassumption| |].
    + instantiate (1 := [TOpenBracket; TInt 1; TComma; TCloseBracket]). rewrite <- El. apply in_elt.
    + repeat constructor.
  - assert (Et : ts = [TInt 1; TComma]).
    { apply (app_inj_tail ts [TInt 1; TComma] TCloseBracket TCloseBracket). injection El; auto. }
    match goal with It : items _ _ _ _ |- _ => rename It into HI end.
    clear El. destruct HI as [|e0 te l0 tl last De Dm La]; [discriminate Et|].
    destruct La as [->|[La _]]; [|discriminate]. rewrite app_nil_r in Et.
    destruct Dm as [|e1 te1 l1 tl1 De1 Dm1].
    + rewrite app_nil_r in Et. subst te. eapply D2. exact De.
    + pose proof (proj1 (opens false false) _ _ _ De) as O1.
      pose proof (proj1 (opens false false) _ _ _ De1) as O2.
      destruct O1 as (x & r & -> & _). destruct O2 as (x1 & r1 & -> & _).
      apply (f_equal (@List.length token)) in Et. repeat rewrite app_length in Et.
      cbn [List.length app] in Et. lia.
Qed.

(** Names that are keywords in any case - a property "Unit" or "If" - cannot
    be referred to. *)
Theorem c42_keyword_names_refuted : forall names s t k w,
  keyword t k -> cased w k ->
  parseEvalValue names s <> Some (NRef RValue w None (-1)) /\
  parseEvalValue names s <> Some (NRef RProperty w None (-1)).
Proof.
  intros names s t k w K C.
  assert (Id : forall ts s, written ts s -> ~ In (TIdent w) ts).
  { clear s. induction 1 as [ws F|ws t0 w0 ts rest F Sp En W IH]; [auto|].
    intros [E|I]; [|contradiction]. subst t0. remember (TIdent w) as ti eqn:Ei.
    destruct Sp as [ | | | | | | | | | | | | | | | | | | | | | | | | | | |t1 k1 w1 K1 C1|w1 A N];
      try discriminate Ei.
    - subst t1. inversion K1.
    - injection Ei as ->. apply (N t k K C). }
  assert (Der : forall kd ts i, derives names true 0 (NRef kd w i (-1)) ts -> In (TIdent w) ts).
  { intros kd ts i D. remember (NRef kd w i (-1)) as e eqn:Ee.
    revert Ee. induction D; intro Ee; inversion Ee; subst; try (cbn; auto; fail).
    - inversion H; subst; cbn; auto.
    - inversion H; subst; cbn; auto 10.
    - specialize (IHD eq_refl). right. apply in_or_app. auto. }
  assert (Main : forall kd, parseEvalValue names s <> Some (NRef kd w None (-1))).
  { intros kd H. apply c42_accepts_partial in H.
    destruct H as (ts & rest & D & [W|(s1 & q & s2 & _ & _ & _ & W)]).
    - apply Der in D. apply (Id _ _ W). apply in_or_app. auto.
    - apply Der in D. apply (Id _ _ W). apply in_or_app. auto. }
  split; apply Main.
Qed.

(** ** C43: the value of an expression *)

(** Integer expressions: the value is the mathematical one, as long as no
    step overflows or divides by zero. Missing: floating point values and
    conversions from and to strings. *)
Theorem c43_integers_partial : forall num cond s e,
  expression_text true s (itree e) -> isafe num cond e ->
  getResult (refs num cond) true s = Result (Val (VInt (inum num cond e))).
Proof.
  intros num cond s e T S. unfold getResult. rewrite (c42_parse _ _ _ T).
  rewrite (proj1 (exp_resolved num cond)). f_equal. apply (proj1 (exp_calc num cond)). exact S.
Qed.

Theorem c43_conditions_partial : forall num cond s e,
  expression_text true s (btree e) -> bsafe num cond e ->
  getResult (refs num cond) true s = Result (Val (VBool (btruth num cond e))).
Proof.
  intros num cond s e T S. unfold getResult. rewrite (c42_parse _ _ _ T).
  rewrite (proj2 (exp_resolved num cond)). f_equal. apply (proj2 (exp_calc num cond)). exact S.
Qed.

(** A switch gives the result of the first case with the selected number,
    else the default; without a default it fails. *)
Theorem c43_switch_partial : forall num cond v cases d,
  isafe num cond v ->
  Forall (fun c => isafe num cond (fst c) /\ isafe num cond (snd c)) cases ->
  isafe num cond d ->
  calc (refs num cond) (switch_tree v cases [d]) =
    Val (VInt (match case_for num cond (inum num cond v) cases with
               | Some z => z | None => inum num cond d end)) /\
  calc (refs num cond) (switch_tree v cases []) =
    match case_for num cond (inum num cond v) cases with
    | Some z => Val (VInt z) | None => CalcFailed end.
Proof.
  intros num cond v cases d Sv Sc Sd.
  assert (Cv : forall e, isafe num cond e -> calc (refs num cond) (itree e) = Val (VInt (inum num cond e)))
    by (intros e S; apply (proj1 (exp_calc num cond)); exact S).
  unfold switch_tree. cbn [calc]. rewrite (Cv v Sv). cbn [bind].
  rewrite !map_app. unfold case_for.
  induction Sc as [|c cases [S1 S2] _ IH].
  - cbn [flat_map app map switch find]. rewrite (Cv d Sd). split; reflexivity.
  - cbn [flat_map app map switch find]. rewrite (Cv _ S1). cbn [bind].
    rewrite (compare_int CEq). cbn [cmp_op bind cmp_holds]. rewrite Z.eqb_sym.
    destruct (inum num cond (fst c) =? inum num cond v).
    + rewrite (Cv _ S2). split; reflexivity.
    + exact IH.
Qed.

(** Lists of one length: element by element. *)
Theorem c43_lists_partial : forall ref o xs ys,
  List.length xs = List.length ys ->
  Forall small (map (fun p => arith_num o (fst p) (snd p)) (combine xs ys)) ->
  calc ref (NBin (arith_op o) (ilist xs) (ilist ys)) =
  Val (vlist (map (fun p => arith_num o (fst p) (snd p)) (combine xs ys))).
Proof.
  intros ref o xs ys L F. cbn [calc]. rewrite !calc_ilist. cbn [bind]. rewrite apply_arith.
  unfold binOp. unfold vlist at 1 2. cbn [depth binOpN].
  cbn [Nat.add]. apply two_lists; assumption.
Qed.

(** A list and a number: every element with the number. *)
Theorem c43_list_number_partial : forall ref o xs y,
  Forall small (map (fun x => arith_num o x y) xs) ->
  calc ref (NBin (arith_op o) (ilist xs) (NInt y)) =
  Val (vlist (map (fun x => arith_num o x y) xs)).
Proof.
  intros ref o xs y F. cbn [calc]. rewrite calc_ilist. cbn [bind calc]. rewrite apply_arith.
  unfold binOp. unfold vlist at 1. cbn [depth binOpN Nat.add]. apply list_scalar; exact F.
Qed.

Definition none : refkind -> text -> option Z -> Z -> option value := fun _ _ _ _ => None.

(** A number and a list: the operands are swapped. [10 - [1, 2]] is
    [[-9, -8]]. *)
Theorem c43_number_list_refuted :
  getResult none false (txt "10 - [1, 2]") = Result (Val (vlist [-9; -8])).
Proof. reflexivity. Qed.

(** Lists of different lengths: the rest of the longer right list is dropped,
    although the code means to reject them; the other way round fails. *)
Theorem c43_lengths_refuted :
  getResult none false (txt "[1] + [2, 3]") = Result (Val (vlist [3])) /\
  getResult none false (txt "[1, 2] + [3]") = Result CalcFailed.
Proof. split; reflexivity. Qed.

(** [5 == true] and [true == 5] differ. *)
Theorem c43_symmetric_refuted :
  getResult none false (txt "5 == true") = Result (Val (VBool false)) /\
  getResult none false (txt "true == 5") = Result (Val (VBool true)).
Proof. split; reflexivity. Qed.

(** For lists every comparison but [!=] is equality: [[1] < [1]] holds. *)
Theorem c43_list_less_refuted :
  getResult none false (txt "[1] < [1]") = Result (Val (VBool true)).
Proof. reflexivity. Qed.

(** Dividing by zero and overflow are undefined behaviour, not errors. *)
Theorem c43_undefined_refuted :
  getResult none false (txt "1 / 0") = Result Undefined /\
  getResult none false (txt "9223372036854775807 + 1") = Result Undefined.
Proof. split; reflexivity. Qed.

(** A reference in a branch that is not taken must still resolve. *)
Theorem c43_branch_refuted :
  getResult none false (txt "if(true, 1, $x)") = ResolveFailed.
Proof. reflexivity. Qed.

(** ** Examples *)

Example ex_precedence :
  parseEvalValue true (txt "a || b && !c == d + 1*2 - 3") =
  Some (NBin LogAnd
    (NBin LogOr (NRef RFunc (txt "a") None (-1)) (NRef RFunc (txt "b") None (-1)))
    (NBin Equals (NNot (NRef RFunc (txt "c") None (-1)))
       (NBin Sub (NBin Add (NRef RFunc (txt "d") None (-1)) (NBin Mul (NInt 1) (NInt 2))) (NInt 3)))).
Proof. reflexivity. Qed.

Example ex_refs :
  parseEvalValue false (txt "switch($Mode, 0, %Child.Gain:Value, 1, {2}.$x[3], [1.5e3, .5])") =
  Some (NSwitch (NRef RValue (txt "Mode") None (-1))
    [NInt 0; NRef RValue (txt "Child.Gain") None (-1); NInt 1; NRef RValue (txt "x") (Some 3) 2;
     NList [NFloat (txt "1.5e3"); NFloat (txt ".5")]]).
Proof. reflexivity. Qed.

(** the hypotheses of [c42_parse] and [c43_conditions_partial]:
    [1+ $x*2 >7&&!slow] *)
Definition ex_bexp : bexp :=
  BAnd (BCmp CGt (IAdd (ILit 1) (IMul (IRef (txt "x")) (ILit 2))) (ILit 7)) (BNot (BRef (txt "slow"))).

Lemma one_digit z c : c = ascii_of_nat (Z.to_nat z + 48) -> 0 <= z <= 9 -> spelled (TInt z) [c].
Proof.
  intros -> B.
  assert (N : nat_of_ascii (ascii_of_nat (Z.to_nat z + 48)) = (Z.to_nat z + 48)%nat)
    by (apply nat_ascii_embedding; lia).
  apply s_int; [discriminate| |lia].
  replace z with (10 * 0 + (Z.of_nat (nat_of_ascii (ascii_of_nat (Z.to_nat z + 48))) - 48)) at 2
    by (rewrite N; lia).
  change [ascii_of_nat (Z.to_nat z + 48)] with ([] ++ [ascii_of_nat (Z.to_nat z + 48)]).
  constructor; [constructor|]. unfold digit, within. rewrite N. lia.
Qed.

Lemma name_spelled w : a_name w -> (forall t k, keyword t k -> List.length w <> List.length k \/ hd Ascii.zero w <> hd Ascii.zero k /\ isupper (hd Ascii.zero w) = false) ->
  spelled (TIdent w) w.
Proof.
  intros A N. apply s_ident; [exact A|]. intros t k K C. destruct (N t k K) as [L|[H U]].
  - apply L. clear - C. induction C; cbn; congruence.
  - destruct C as [|a b l m S C]; [inversion K|]. cbn in H, U. destruct S as [S|[S _]]; [contradiction|].
    apply isupper_spec in S. congruence.
Qed.

Example ex_text : expression_text true (txt "1+ $x*2 >7&&!slow") (btree ex_bexp).
Proof.
  exists [TInt 1; TPlus; TDollar; TIdent (txt "x"); TStar; TInt 2; TGreater; TInt 7; TAndAnd;
          TExclamation; TIdent (txt "slow")].
  split.
  - change (txt "1+ $x*2 >7&&!slow") with
      ([] ++ ["1"%char] ++ [] ++ ["+"%char] ++ [" "%char] ++ ["$"%char] ++ [] ++ txt "x" ++ [] ++ ["*"%char]
       ++ [] ++ ["2"%char] ++ [" "%char] ++ [">"%char] ++ [] ++ ["7"%char] ++ [] ++ ["&"; "&"]%char
       ++ [] ++ ["!"%char] ++ [] ++ txt "slow" ++ []).
    assert (Nx : spelled (TIdent (txt "x")) (txt "x")).
    { apply name_spelled.
      - eexists _, _. split; [reflexivity|]. split; [left; unfold letter, within; cbn; lia|constructor].
      - intros t k K. left. destruct K; discriminate. }
    assert (Ns : spelled (TIdent (txt "slow")) (txt "slow")).
    { apply name_spelled.
      - eexists _, _. split; [reflexivity|]. split; [left; unfold letter, within; cbn; lia|].
        repeat constructor; unfold name_char, letter, within; cbn; lia.
      - intros t k K. destruct K; try (left; discriminate); (right; split; [discriminate|reflexivity]). }
    assert (Fn : forall (P : ascii -> Prop) c r, ~ P c -> first_not P (c :: r)).
    { intros P c r N d r' E. inversion E; subst. exact N. }
    assert (Sp : Forall space [" "%char]) by (constructor; [left; reflexivity|constructor]).
    repeat (apply w_tok;
      [first [exact Sp|constructor]
      |first [apply one_digit; [reflexivity|lia]|exact Nx|exact Ns|constructor]
      |cbn [ends app];
       first [exact Logic.I
             |apply Fn; unfold name_char, digit, e_or_E, letter, within; cbn;
              intuition (try lia; try discriminate)
             |intros d r' E; discriminate E]
      |]).
    constructor. constructor.
  - cbn [ex_bexp btree itree cmp_op].
    change [TInt 1; TPlus; TDollar; TIdent (txt "x"); TStar; TInt 2; TGreater; TInt 7; TAndAnd;
          TExclamation; TIdent (txt "slow")]
      with ((([TInt 1] ++ TPlus :: ([TDollar; TIdent (txt "x")] ++ TStar :: [TInt 2])) ++ TGreater :: [TInt 7])
            ++ TAndAnd :: (TExclamation :: [TIdent (txt "slow")])).
    eapply d_bin; [constructor|lia| |].
    + eapply d_bin; [constructor|lia| |].
      * eapply d_bin; [constructor|lia|constructor|].
        eapply d_bin; [constructor|lia| |constructor]. apply d_ref. constructor.
      * constructor.
    + apply d_not. apply d_name. reflexivity.
Qed.

Example ex_value :
  getResult (refs (fun _ => 5) (fun _ => false)) true (txt "1+ $x*2 >7&&!slow") =
  Result (Val (VBool true)).
Proof.
  rewrite (c43_conditions_partial _ _ _ ex_bexp ex_text); [reflexivity|].
  cbn. unfold small. lia.
Qed.

Example ex_switch :
  getResult (refs (fun _ => 5) (fun _ => false)) true (txt "switch($x, 4, 40, 2 + 3, 50, 5, 51, 60)") =
  Result (Val (VInt 50)).
Proof. reflexivity. Qed.

Example ex_lists :
  getResult none false (txt "[1, 2, 3] * [4, 5, 6] - 1") = Result (Val (vlist [3; 9; 17])).
Proof. reflexivity. Qed.

Print Assumptions c42_tokens.
Print Assumptions c42_parse.
Print Assumptions c42_unambiguous.
Print Assumptions c42_accepts_partial.
Print Assumptions c42_ends.
Print Assumptions c42_trailing_refuted.
Print Assumptions c42_unclosed_refuted.
Print Assumptions c42_trailing_comma_refuted.
Print Assumptions c42_keyword_names_refuted.
Print Assumptions c43_integers_partial.
Print Assumptions c43_conditions_partial.
Print Assumptions c43_switch_partial.
Print Assumptions c43_lists_partial.
Print Assumptions c43_list_number_partial.
Print Assumptions c43_number_list_refuted.
Print Assumptions c43_lengths_refuted.
Print Assumptions c43_symmetric_refuted.
Print Assumptions c43_list_less_refuted.
Print Assumptions c43_undefined_refuted.
Print Assumptions c43_branch_refuted.
