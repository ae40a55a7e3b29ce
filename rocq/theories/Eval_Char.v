(** * Character classes and keywords *)
From Coq Require Import ZArith List Bool Ascii Arith Lia.
From Verif Require Import Base Eval_Model Eval_Spec.
Import ListNotations.
Local Open Scope nat_scope.

Lemma code_lt c : code c < 256.
Proof. apply nat_ascii_bounded. Qed.

Lemma code_inj c d : code c = code d -> c = d.
Proof.
  unfold code. intro H. rewrite <- (ascii_nat_embedding c), <- (ascii_nat_embedding d). congruence.
Qed.

Lemma range lo hi c : ((lo <=? code c) && (code c <=? hi)) = true <-> within lo hi c.
Proof.
  unfold within, code. rewrite andb_true_iff, Nat.leb_le, Nat.leb_le. tauto.
Qed.

Lemma isdigit_spec c : isdigit c = true <-> digit c.
Proof. apply range. Qed.
Lemma isupper_spec c : isupper c = true <-> within 65 90 c.
Proof. apply range. Qed.
Lemma islower_spec c : islower c = true <-> within 97 122 c.
Proof. apply range. Qed.
Lemma isalpha_spec c : isalpha c = true <-> letter c.
Proof. unfold isalpha, letter. rewrite orb_true_iff, isupper_spec, islower_spec. tauto. Qed.

Lemma isch_spec n c : n < 256 -> isch n c = true <-> c = ascii_of_nat n.
Proof.
  intro L. unfold isch. rewrite Nat.eqb_eq. split.
  - intro H. apply code_inj. unfold code in *. rewrite nat_ascii_embedding by exact L. exact H.
  - intros ->. unfold code. apply nat_ascii_embedding. exact L.
Qed.

Lemma isIdentChar_spec c : isIdentChar c = true <-> name_char c.
Proof.
  unfold isIdentChar, name_char, isalnum.
  rewrite !orb_true_iff, isalpha_spec, isdigit_spec, !isch_spec by lia.
  change (ascii_of_nat 95) with "_"%char. change (ascii_of_nat 46) with "."%char. tauto.
Qed.

Lemma tolower_e c : isch 101 (tolower c) = true <-> e_or_E c.
Proof.
  unfold e_or_E, tolower. destruct (isupper c) eqn:U.
  - apply isupper_spec in U. unfold within in U. fold (code c) in U.
    unfold isch. rewrite Nat.eqb_eq. unfold code at 1. rewrite nat_ascii_embedding by lia. split.
    + intro H. right. apply code_inj. change (code "E"%char) with 69. lia.
    + intros [-> | ->]; [exfalso|reflexivity].
      change (code "e"%char) with 101 in U. lia.
  - rewrite isch_spec by lia. change (ascii_of_nat 101) with "e"%char. split; [tauto|].
    intros [H| ->]; [exact H|discriminate U].
Qed.

Lemma tolower_same c d : isupper d = false -> tolower c = d <-> same_letter c d.
Proof.
  intro D. unfold tolower, same_letter. fold (code c) (code d). destruct (isupper c) eqn:U.
  - pose proof U as U'. apply isupper_spec in U'. pose proof U' as U2. unfold within in U2. fold (code c) in U2. split.
    + intros <-. right. split; [exact U'|]. unfold code at 1. apply nat_ascii_embedding. lia.
    + intros [->|[_ H]]; [congruence|].
      apply code_inj. unfold code at 1. rewrite nat_ascii_embedding by lia. lia.
  - split; [auto|]. intros [H|[H _]]; [exact H|]. apply isupper_spec in H. congruence.
Qed.

Lemma canonical_cased w k :
  forallb (fun c => negb (isupper c)) k = true -> toCanonicalForm w = k <-> cased w k.
Proof.
  unfold toCanonicalForm, cased. revert k. induction w as [|c w IH]; intros k L.
  - split; [intros <-; constructor|]. intro H; inversion H; reflexivity.
  - destruct k as [|d k].
    + split; [discriminate|]. intro H; inversion H.
    + cbn in L. apply andb_true_iff in L. destruct L as [L1 L2].
      apply negb_true_iff in L1. cbn [map]. split.
      * intro H. injection H as H1 H2. constructor.
        -- apply tolower_same; assumption.
        -- apply IH; assumption.
      * intro H. inversion H; subst. f_equal.
        -- apply tolower_same; assumption.
        -- apply IH; assumption.
Qed.

Lemma text_eqb_spec a b : text_eqb a b = true <-> a = b.
Proof. unfold text_eqb. destruct (list_eq_dec ascii_dec a b); split; congruence. Qed.

Lemma item_spec w k : propertyItem w = Some k <-> exists i, item_name k i /\ cased w i.
Proof.
  unfold propertyItem.
  destruct (text_eqb (toCanonicalForm w) kw_value) eqn:E1.
  { apply text_eqb_spec in E1. pose proof E1 as E1'. apply canonical_cased in E1'; [|reflexivity]. split.
    - intro H; inversion H; subst. exists kw_value. split; [constructor|exact E1'].
    - intros (i & I & C). apply canonical_cased in C; [|destruct I; reflexivity].
      rewrite E1 in C. destruct I; [reflexivity|discriminate C|discriminate C]. }
  destruct (text_eqb (toCanonicalForm w) kw_selectedvalue) eqn:E2.
  { apply text_eqb_spec in E2. pose proof E2 as E2'. apply canonical_cased in E2'; [|reflexivity]. split.
    - intro H; inversion H; subst. exists kw_selectedvalue. split; [constructor|exact E2'].
    - intros (i & I & C). apply canonical_cased in C; [|destruct I; reflexivity].
      rewrite E2 in C. destruct I; [discriminate C|reflexivity|discriminate C]. }
  destruct (text_eqb (toCanonicalForm w) kw_propertynames) eqn:E3.
  { apply text_eqb_spec in E3. pose proof E3 as E3'. apply canonical_cased in E3'; [|reflexivity]. split.
    - intro H; inversion H; subst. exists kw_propertynames. split; [constructor|exact E3'].
    - intros (i & I & C). apply canonical_cased in C; [|destruct I; reflexivity].
      rewrite E3 in C. destruct I; [discriminate C|discriminate C|reflexivity]. }
  split; [discriminate|]. intros (i & I & C).
  apply canonical_cased in C; [|destruct I; reflexivity]. apply text_eqb_spec in C.
  destruct I; [change kw_value with (["v"; "a"; "l"; "u"; "e"]%char) in E1; congruence
    |unfold kw_selectedvalue in E2; congruence|unfold kw_propertynames in E3; congruence].
Qed.

Lemma word_kw t k w : keyword t k -> cased w k -> word w = t.
Proof.
  intros K C. apply canonical_cased in C; [|destruct K; reflexivity].
  unfold word. rewrite C. destruct K; reflexivity.
Qed.

Lemma word_spec w :
  (exists t k, word w = t /\ keyword t k /\ cased w k) \/
  (word w = TIdent w /\ forall t k, keyword t k -> ~ cased w k).
Proof.
  unfold word.
  destruct (text_eqb (toCanonicalForm w) kw_if) eqn:E1.
  { left. exists TIf, kw_if. apply text_eqb_spec in E1. apply canonical_cased in E1; [|reflexivity].
    repeat split; [constructor|exact E1]. }
  destruct (text_eqb (toCanonicalForm w) kw_switch) eqn:E2.
  { left. exists TSwitch, kw_switch. apply text_eqb_spec in E2. apply canonical_cased in E2; [|reflexivity].
    repeat split; [constructor|exact E2]. }
  destruct (text_eqb (toCanonicalForm w) kw_true) eqn:E3.
  { left. exists (TBool true), kw_true. apply text_eqb_spec in E3. apply canonical_cased in E3; [|reflexivity].
    repeat split; [constructor|exact E3]. }
  destruct (text_eqb (toCanonicalForm w) kw_false) eqn:E4.
  { left. exists (TBool false), kw_false. apply text_eqb_spec in E4. apply canonical_cased in E4; [|reflexivity].
    repeat split; [constructor|exact E4]. }
  destruct (text_eqb (toCanonicalForm w) kw_unit) eqn:E5.
  { left. exists TUnit, kw_unit. apply text_eqb_spec in E5. apply canonical_cased in E5; [|reflexivity].
    repeat split; [constructor|exact E5]. }
  right. split; [reflexivity|]. intros t k K C.
  apply canonical_cased in C; [|destruct K; reflexivity]. apply text_eqb_spec in C.
  destruct K; [unfold kw_if in *|unfold kw_switch in *|unfold kw_true in *
              |unfold kw_false in *|unfold kw_unit in *]; congruence.
Qed.

(** ** Operators *)
Lemma infix_rule t q o : infixRule t = Some (q, o) <-> infix t q o.
Proof.
  split.
  - destruct t; cbn; try discriminate; intro H; inversion H; subst; constructor.
  - intro H; destruct H; reflexivity.
Qed.

Lemma next_le4 ts : nextPrecedence ts <= 4.
Proof.
  unfold nextPrecedence, MinPrecedence. destruct ts as [|t ts]; [lia|].
  destruct t; cbn; unfold Equality, Logic, Term, Factor; lia.
Qed.
