(** Reading texts, keys and documents. *)
From Coq Require Import String Ascii.
From Verif Require Import Base Opts_Model Opts_Spec Opts_Proofs Opts_Acts.
Local Open Scope Z_scope.

(** ** Booleans *)
Lemma nat_ascii : forall n, (n < 256)%nat -> nat_of_ascii (ascii_of_nat n) = n. Proof. apply nat_ascii_embedding. Qed.
Lemma lower_letter : forall a, SameLetter a (lower a).
Proof.
  intros a. unfold lower. destruct ((65 <=? nat_of_ascii a) && (nat_of_ascii a <=? 90))%nat eqn:E; [ | left; reflexivity ].
  apply andb_prop in E. destruct E as [E1 E2]. apply Nat.leb_le in E1, E2. right. split; [ lia | ]. apply nat_ascii. lia.
Qed.
Lemma letter_lower : forall a b, SameLetter a b -> lower b = b -> lower a = b.
Proof.
  intros a b [ ->|[R E]] L; [ exact L | ]. unfold lower.
  assert (E1 : ((65 <=? nat_of_ascii a) && (nat_of_ascii a <=? 90))%nat = true) by (apply andb_true_intro; split; apply Nat.leb_le; lia).
  rewrite E1, <- E. apply ascii_nat_embedding.
Qed.
Lemma BoolText_lower : forall v b, BoolText v b <-> map lower v = t (if b then "true" else "false")%string.
Proof.
  intros v b. unfold BoolText, t. split.
  - intros H. assert (L : forall c, In c (list_ascii_of_string (if b then "true" else "false")) -> lower c = c).
    { destruct b; cbn [list_ascii_of_string In]; intros c HC; repeat (destruct HC as [ <-|HC]; [ reflexivity | ]); destruct HC. }
    revert L. induction H as [|a c v w HA H IH]; intros L; [ reflexivity | ]. cbn [map]. rewrite (letter_lower _ _ HA) by (apply L; left; reflexivity).
    f_equal. apply IH. intros d Hd. apply L. right. exact Hd.
  - intros <-. induction v; constructor; [ apply lower_letter | assumption ].
Qed.
Lemma tryBool_text : forall v b, BoolText v b -> tryBool v = Some (OBool b).
Proof. intros v b H. apply BoolText_lower in H. unfold tryBool. rewrite H. destruct b; reflexivity. Qed.
Lemma tryBool_none : forall v, NoBool v -> tryBool v = None.
Proof.
  intros v H. unfold tryBool. destruct (text_eqb (map lower v) (t "true")) eqn:E1.
  - apply teqP in E1. exfalso. apply (H true). apply BoolText_lower. exact E1.
  - destruct (text_eqb (map lower v) (t "false")) eqn:E2; [ | reflexivity ]. apply teqP in E2. exfalso. apply (H false). apply BoolText_lower. exact E2.
Qed.

(** ** Quotes *)
Lemma unquote_iff : forall v w, unquote v = Some w <-> Quoted v w.
Proof.
  intros v w. unfold unquote, Quoted. split.
  - destruct v as [|x r]; [ discriminate | ]. destruct (ascii_dec x """"%char) as [ ->|]; [ | discriminate ].
    destruct (rev r) as [|y r'] eqn:E; [ discriminate | ]. destruct (ascii_dec y """"%char) as [ ->|]; [ | discriminate ].
    intros H. inversion H. subst. rewrite <- (rev_involutive r), E. reflexivity.
  - intros ->. destruct (ascii_dec """"%char """"%char) as [_|N]; [ | congruence ]. rewrite rev_app_distr. cbn [rev app].
    destruct (ascii_dec """"%char """"%char) as [_|N]; [ rewrite rev_involutive; reflexivity | congruence ].
Qed.
Lemma unquote_none : forall v, NotQuoted v -> unquote v = None.
Proof. intros v H. destruct (unquote v) eqn:E; [ apply unquote_iff in E; exfalso; eapply H; eauto | reflexivity ]. Qed.
Definition inner (v : text) : text := match unquote v with Some w => w | None => v end.
Lemma inner_in : forall v c, In c (inner v) -> In c v.
Proof.
  intros v c. unfold inner. destruct (unquote v) as [w|] eqn:E; [ | tauto ]. apply unquote_iff in E. rewrite E. intros H. right. apply in_or_app. left. exact H.
Qed.

(** ** Numbers *)
Definition isDigit (c : ascii) : Prop := exists d, digit c = Some d.
Definition dv (c : ascii) : Z := match digit c with Some d => d | None => 0 end.
Definition value (l : text) (acc : Z) : Z := fold_left (fun a c => a * 10 + dv c) l acc.
Lemma digit_ascii : forall n, (n < 10)%nat -> digit (ascii_of_nat (48 + n)) = Some (Z.of_nat n).
Proof. intros n H. do 10 (destruct n as [|n]; [ reflexivity | ]). lia. Qed.
Lemma Digits_spec : forall l z, Digits l z -> Forall isDigit l /\ value l 0 = z.
Proof.
  induction 1 as [|l z n H [F V] N]; [ split; [ constructor | reflexivity ] | ]. split.
  - apply Forall_app. split; [ exact F | ]. constructor; [ | constructor ]. exists (Z.of_nat n). apply digit_ascii, N.
  - unfold value in *. rewrite fold_left_app. cbn [fold_left]. rewrite V. unfold dv. rewrite digit_ascii by exact N. lia.
Qed.
Lemma digits_all : forall l r acc n, Forall isDigit l -> digits (l ++ r) acc n = digits r (value l acc) (n + length l)%nat.
Proof.
  induction l as [|c l IH]; intros r acc n F; [ cbn [app length value fold_left]; rewrite Nat.add_0_r; reflexivity | ].
  inversion F as [|? ? [d D] F2]; subst. cbn [app digits length]. rewrite D. rewrite IH by exact F2.
  unfold value. cbn [fold_left]. unfold dv at 3. rewrite D. f_equal. lia.
Qed.
Lemma digit_none : forall c, ~ (48 <= nat_of_ascii c <= 57)%nat -> digit c = None.
Proof.
  intros c H. unfold digit. destruct ((48 <=? nat_of_ascii c) && (nat_of_ascii c <=? 57))%nat eqn:E; [ | reflexivity ].
  apply andb_prop in E. destruct E as [E1 E2]. apply Nat.leb_le in E1, E2. exfalso. apply H. lia.
Qed.
Lemma isDigit_range : forall c, isDigit c -> (48 <= nat_of_ascii c <= 57)%nat.
Proof.
  intros c [d D]. destruct (Nat.le_gt_cases 48 (nat_of_ascii c)); [ destruct (Nat.le_gt_cases (nat_of_ascii c) 57); [ lia | ] | ];
    rewrite digit_none in D by lia; discriminate.
Qed.
Lemma digit_space : forall c, isDigit c -> is_space c = false.
Proof.
  intros c H. apply isDigit_range in H. unfold is_space.
  destruct (Nat.eqb_spec (nat_of_ascii c) 32); [ lia | ]. cbn [orb]. destruct (Nat.leb_spec (nat_of_ascii c) 13); [ lia | ]. apply andb_false_r.
Qed.
Lemma digit_ne : forall c d, isDigit c -> ~ (48 <= nat_of_ascii d <= 57)%nat -> c <> d.
Proof. intros c d H N ->. apply isDigit_range in H. lia. Qed.
Lemma not_minus : ~ (48 <= nat_of_ascii "-" <= 57)%nat. Proof. vm_compute. lia. Qed.
Lemma not_plus : ~ (48 <= nat_of_ascii "+" <= 57)%nat. Proof. vm_compute. lia. Qed.
Lemma not_point : ~ (48 <= nat_of_ascii "." <= 57)%nat. Proof. vm_compute. lia. Qed.
Lemma not_quote : ~ (48 <= nat_of_ascii """" <= 57)%nat. Proof. vm_compute. lia. Qed.

(** the sign and what follows, when that begins with a digit or a point *)
Definition Starts (l : text) : Prop := exists c r, l = c :: r /\ (isDigit c \/ c = "."%char).
Lemma sign_plain : forall l, Starts l -> sign (skip_spaces l) = (1, l).
Proof.
  intros l (c & r & -> & H). cbn [skip_spaces].
  assert (NS : is_space c = false) by (destruct H as [H| ->]; [ apply digit_space, H | reflexivity ]). rewrite NS. cbn [sign].
  destruct (ascii_dec c "-"%char) as [E|_]; [ destruct H as [H| ->]; [ exfalso; eapply digit_ne; [ exact H | exact not_minus | exact E ] | discriminate ] | ].
  destruct (ascii_dec c "+"%char) as [E|_]; [ destruct H as [H| ->]; [ exfalso; eapply digit_ne; [ exact H | exact not_plus | exact E ] | discriminate ] | ].
  reflexivity.
Qed.
Lemma sign_minus : forall l, sign (skip_spaces ("-"%char :: l)) = (-1, l).
Proof. reflexivity. Qed.
Lemma in_int64_spec : forall z, Int64 z -> in_int64 z = true.
Proof. intros z [A B]. change (2 ^ 63) with 9223372036854775808 in *. unfold in_int64. apply andb_true_intro. split; apply Z.leb_le; lia. Qed.
Lemma digits_nil : forall l acc n, Forall isDigit l -> digits l acc n = (value l acc, (n + length l)%nat, []).
Proof. intros l acc n F. rewrite <- (app_nil_r l) at 1. rewrite digits_all by exact F. reflexivity. Qed.
Lemma Starts_digits : forall l, l <> [] -> Forall isDigit l -> Starts l.
Proof. intros [|c l] N F; [ congruence | ]. inversion F; subst. exists c, l. split; [ reflexivity | left; assumption ]. Qed.
Lemma tryInteger_text : forall v z, IntText v z -> tryInteger v = Some (OInt z).
Proof.
  intros v z (R & l & NE & [[ -> D]|[ -> D]]); apply Digits_spec in D; destruct D as [F V]; unfold tryInteger.
  - rewrite sign_plain by (apply Starts_digits; assumption). rewrite digits_nil by exact F. rewrite V.
    destruct l; [ congruence | ]. cbn [length Nat.add]. rewrite Z.mul_1_l, in_int64_spec by exact R. reflexivity.
  - rewrite sign_minus. rewrite digits_nil by exact F. rewrite V. destruct l; [ congruence | ]. cbn [length Nat.add].
    replace (-1 * - z) with z by lia. rewrite in_int64_spec by exact R. reflexivity.
Qed.
Lemma point_found : forall v, In "."%char v -> find "."%char v <> None.
Proof.
  induction v as [|c v IH]; intros H; [ destruct H | ]. cbn [find]. destruct (ascii_dec c "."%char); [ discriminate | ].
  destruct H as [H|H]; [ congruence | ]. specialize (IH H). destruct (find "."%char v); [ discriminate | congruence ].
Qed.
Lemma point_missing : forall v, ~ In "."%char v -> find "."%char v = None.
Proof.
  induction v as [|c v IH]; intros H; [ reflexivity | ]. cbn [find]. destruct (ascii_dec c "."%char) as [E|_]; [ exfalso; apply H; left; exact E | ].
  rewrite IH; [ reflexivity | intros K; apply H; right; exact K ].
Qed.
Lemma stod_text : forall s l a b v, sign (skip_spaces v) = (s, l) -> l = a ++ "."%char :: b -> a ++ b <> [] -> Forall isDigit (a ++ b) ->
  stod v = Some (s * value (a ++ b) 0, - Z.of_nat (length b)).
Proof.
  intros s l a b v SG -> NE F. apply Forall_app in F. destruct F as [FA FB]. unfold stod. rewrite SG. rewrite digits_all by exact FA.
  cbn [digits]. assert (DP : digit "."%char = None) by reflexivity. rewrite DP.
  destruct (ascii_dec "."%char "."%char) as [_|N]; [ | congruence ]. rewrite digits_nil by exact FB.
  destruct (0 + length a + (0 + length b) =? 0)%nat eqn:E.
  - apply Nat.eqb_eq in E. destruct a; [ destruct b; [ cbn [app] in NE; congruence | cbn [length] in E; lia ] | cbn [length] in E; lia ].
  - cbn [exponent]. replace (0 - Z.of_nat (0 + length b)) with (- Z.of_nat (length b)) by lia. unfold value. rewrite fold_left_app. reflexivity.
Qed.
Lemma Starts_float : forall a b, Forall isDigit a -> Starts (a ++ "."%char :: b).
Proof.
  intros [|c a] b F; cbn [app]; [ exists "."%char, b; split; [ reflexivity | right; reflexivity ] | ].
  inversion F; subst. exists c, (a ++ "."%char :: b). split; [ reflexivity | left; assumption ].
Qed.
Lemma tryFloat_text : forall v m e, FloatText v m e -> tryFloat v = Some (OFloat m e).
Proof.
  intros v m e (a & b & NE & -> & [[ -> D]|[ -> D]]); apply Digits_spec in D; destruct D as [F V]; unfold tryFloat.
  - destruct (find "."%char (a ++ "."%char :: b)) eqn:FD; [ | exfalso; eapply point_found; [ | exact FD ]; apply in_or_app; right; left; reflexivity ].
    rewrite (stod_text 1 (a ++ "."%char :: b) a b); [ rewrite V, Z.mul_1_l; reflexivity | | reflexivity | exact NE | exact F ].
    apply sign_plain, Starts_float. apply Forall_app in F. apply F.
  - destruct (find "."%char ("-"%char :: a ++ "."%char :: b)) eqn:FD; [ | exfalso; eapply point_found; [ | exact FD ]; right; apply in_or_app; right; left; reflexivity ].
    rewrite (stod_text (-1) (a ++ "."%char :: b) a b); [ rewrite V; do 2 f_equal; lia | apply sign_minus | reflexivity | exact NE | exact F ].
Qed.

Lemma skip_in : forall l c, In c (skip_spaces l) -> In c l.
Proof. induction l as [|x l IH]; intros c H; [ exact H | ]. cbn [skip_spaces] in H. destruct (is_space x); [ right; apply IH, H | exact H ]. Qed.
Lemma sign_in : forall l c, In c (snd (sign l)) -> In c l.
Proof.
  intros [|x l] c H; [ exact H | ]. cbn [sign] in H. destruct (ascii_dec x "-"%char); [ right; exact H | ].
  destruct (ascii_dec x "+"%char); [ right; exact H | exact H ].
Qed.
Lemma digits_none : forall l acc n, NoDigit l -> digits l acc n = (acc, n, l).
Proof. intros [|c l] acc n H; [ reflexivity | ]. cbn [digits]. rewrite digit_none; [ reflexivity | apply H; left; reflexivity ]. Qed.
Lemma NoDigit_sign : forall v, NoDigit v -> NoDigit (snd (sign (skip_spaces v))).
Proof. intros v H c HC. apply H. apply skip_in, sign_in, HC. Qed.
Lemma tryInteger_none : forall v, NoDigit v -> tryInteger v = None.
Proof.
  intros v H. unfold tryInteger. pose proof (NoDigit_sign v H) as N. destruct (sign (skip_spaces v)) as [s l]. cbn [snd] in N.
  rewrite digits_none by exact N. reflexivity.
Qed.
Lemma tryFloat_none : forall v, NoDigit v -> tryFloat v = None.
Proof.
  intros v H. unfold tryFloat. destruct (find "."%char v); [ | reflexivity ]. unfold stod. pose proof (NoDigit_sign v H) as N.
  destruct (sign (skip_spaces v)) as [s l]. cbn [snd] in N. rewrite digits_none by exact N.
  destruct l as [|x r]; [ reflexivity | ]. destruct (ascii_dec x "."%char); [ | reflexivity ].
  rewrite digits_none by (intros c HC; apply N; right; exact HC). reflexivity.
Qed.

(** ** What a text does *)
Lemma notquoted_head : forall c v, c <> """"%char -> unquote (c :: v) = None.
Proof. intros c v N. cbn [unquote]. destruct (ascii_dec c """"%char); [ contradiction | reflexivity ]. Qed.
Lemma unquote_int : forall v z, IntText v z -> unquote v = None.
Proof.
  intros v z (_ & l & NE & [[ -> D]|[ -> D]]); [ | apply notquoted_head; discriminate ]. apply Digits_spec in D. destruct D as [F _].
  destruct l as [|c l]; [ congruence | ]. inversion F; subst. apply notquoted_head. eapply digit_ne; [ eassumption | exact not_quote ].
Qed.
Lemma unquote_float : forall v m e, FloatText v m e -> unquote v = None.
Proof.
  intros v m e (a & b & NE & _ & [[ -> D]|[ -> D]]); [ | apply notquoted_head; discriminate ]. apply Digits_spec in D. destruct D as [F _].
  apply Forall_app in F. destruct F as [F _]. destruct a as [|c a]; [ apply notquoted_head; discriminate | ].
  inversion F; subst. apply notquoted_head. eapply digit_ne; [ eassumption | exact not_quote ].
Qed.
Lemma unquote_bool : forall v b, BoolText v b -> unquote v = None.
Proof.
  intros v b H. destruct v as [|c v]; [ reflexivity | ]. apply notquoted_head. intros ->. apply BoolText_lower in H. destruct b; discriminate.
Qed.
Lemma Reads_leaf : forall x v y, Reads x v y -> optionLeaf x v = Some y.
Proof.
  intros x v y H. unfold optionLeaf. destruct H as [a v b H|a v z H|a b v m e H|a v H|a v w H]; cbn [kindOf].
  - rewrite (unquote_bool _ _ H). apply tryBool_text, H.
  - rewrite (unquote_int _ _ H). apply tryInteger_text, H.
  - rewrite (unquote_float _ _ _ H). apply tryFloat_text, H.
  - rewrite (unquote_none _ H). reflexivity.
  - apply unquote_iff in H. rewrite H. reflexivity.
Qed.
Lemma Unreadable_leaf : forall x v, Unreadable x v -> optionLeaf x v = None.
Proof.
  intros x v H. unfold optionLeaf. fold (inner v).
  destruct H as [a v H Q|a v H|a b v H|a b v H|a v|a v|v]; cbn [kindOf]; try reflexivity.
  - unfold inner. rewrite (unquote_none _ Q). apply tryBool_none, H.
  - apply tryInteger_none. intros c HC. apply H, inner_in, HC.
  - unfold tryFloat. rewrite point_missing; [ reflexivity | ]. intros HC. apply H, inner_in, HC.
  - apply tryFloat_none. intros c HC. apply H, inner_in, HC.
Qed.
Lemma tryBool_odd : forall v c, In c v -> lower c = c -> ~ In c (t "truefalse") -> tryBool v = None.
Proof.
  intros v c H L N. apply tryBool_none. intros b B. apply BoolText_lower in B. apply (in_map lower) in H. rewrite L, B in H.
  apply N. destruct b; cbn in H |- *; tauto.
Qed.
Lemma digit_lower : forall c, isDigit c -> lower c = c /\ ~ In c (t "truefalse").
Proof.
  intros c H. apply isDigit_range in H. split.
  - unfold lower. destruct (Nat.leb_spec 65 (nat_of_ascii c)); [ lia | reflexivity ].
  - intros HI. unfold t in HI. cbn [list_ascii_of_string In] in HI.
    repeat (destruct HI as [ <-|HI]; [ revert H; vm_compute; lia | ]). destruct HI.
Qed.
Lemma Inferred_value : forall v y, Inferred v y -> undefinedValue v = y.
Proof.
  intros v y H. unfold undefinedValue. destruct H as [v w H|v b H|v m e H|v z H|v Q B D].
  - apply unquote_iff in H. rewrite H. reflexivity.
  - rewrite (unquote_bool _ _ H), (tryBool_text _ _ H). reflexivity.
  - rewrite (unquote_float _ _ _ H), (tryFloat_text _ _ _ H). rewrite (tryBool_odd v "."%char); [ reflexivity | | reflexivity | ].
    + destruct H as (a & b & _ & _ & [[ -> _]|[ -> _]]); [ | right ]; apply in_or_app; right; left; reflexivity.
    + intros HI. vm_compute in HI. repeat (destruct HI as [HI|HI]; [ discriminate | ]). destruct HI.
  - rewrite (unquote_int _ _ H), (tryInteger_text _ _ H).
    assert (FN : tryFloat v = None).
    { unfold tryFloat. rewrite point_missing; [ reflexivity | ]. intros HP.
      destruct H as (_ & l & _ & [[ -> D]|[ -> D]]); apply Digits_spec in D; destruct D as [F _]; rewrite Forall_forall in F.
      - apply F in HP. apply isDigit_range in HP. revert HP. vm_compute. lia.
      - destruct HP as [HP|HP]; [ discriminate | ]. apply F in HP. apply isDigit_range in HP. revert HP. vm_compute. lia. }
    rewrite FN. destruct H as (_ & l & NE & [[ -> D]|[ -> D]]); apply Digits_spec in D; destruct D as [F _]; (destruct l as [|c l]; [ congruence | ]); inversion F; subst.
    + rewrite (tryBool_odd _ c); [ reflexivity | left; reflexivity | apply digit_lower; assumption | apply digit_lower; assumption ].
    + rewrite (tryBool_odd _ c); [ reflexivity | right; left; reflexivity | apply digit_lower; assumption | apply digit_lower; assumption ].
  - rewrite (unquote_none _ Q), (tryBool_none _ B), (tryFloat_none _ D), (tryInteger_none _ D). reflexivity.
Qed.

(** ** Keys *)
Lemma find_none : forall c l, find c l = None <-> ~ In c l.
Proof.
  intros c. induction l as [|x l IH]; cbn [find In]; [ split; tauto | ]. destruct (ascii_dec x c) as [E|E].
  - split; [ discriminate | intros H; exfalso; apply H; left; exact E ].
  - destruct (find c l); cbn [option_map]; split; intros H; try discriminate.
    + exfalso. assert (~ In c l -> False) by (intros K; apply IH in K; discriminate). apply H0. tauto.
    + intros [K|K]; [ contradiction | ]. apply IH in K; [ exact K | reflexivity ].
    + reflexivity.
Qed.
Lemma find_some : forall c l n, find c l = Some n <-> exists r, l = firstn n l ++ c :: r /\ ~ In c (firstn n l) /\ (n < length l)%nat.
Proof.
  intros c. induction l as [|x l IH]; intros n; cbn [find].
  - split; [ discriminate | intros (r & E & _); rewrite firstn_nil in E; discriminate ].
  - destruct (ascii_dec x c) as [ ->|E].
    + split.
      * intros H. inversion H. subst. cbn [firstn app length]. exists l. split; [ reflexivity | split; [ tauto | lia ] ].
      * intros (r & EQ & N & L). destruct n as [|n]; [ reflexivity | ]. exfalso. apply N. cbn [firstn]. left. reflexivity.
    + destruct n as [|n].
      * split; [ destruct (find c l); discriminate | ]. intros (r & EQ & _). cbn [firstn app] in EQ. congruence.
      * cbn [firstn app length]. split.
        -- intros H. destruct (find c l) as [m|] eqn:Fm; [ | discriminate ]. cbn [option_map] in H. inversion H. subst.
           destruct (proj1 (IH n) eq_refl) as (r & EQ & N & L). exists r. split; [ rewrite EQ at 1; reflexivity | split; [ | lia ] ].
           intros [K|K]; [ contradiction | tauto ].
        -- intros (r & EQ & N & L). injection EQ as EQ'. assert (FN : find c l = Some n); [ apply IH | rewrite FN; reflexivity ].
           exists r. split; [ exact EQ' | split; [ | lia ] ]. intros K. apply N. right. exact K.
Qed.
Lemma find_at : forall c a b, ~ In c a -> find c (a ++ c :: b) = Some (length a).
Proof.
  intros c a b N. apply find_some. exists b. rewrite firstn_app, firstn_all, Nat.sub_diag. cbn [firstn]. rewrite app_nil_r.
  split; [ reflexivity | split; [ exact N | rewrite app_length; cbn [length]; lia ] ].
Qed.
Lemma keyValue_says : forall prefix key v, ~ In "="%char key -> keyValue prefix (prefix ++ key ++ "="%char :: v) = Some (prefix ++ key, v).
Proof.
  intros prefix key v N. unfold keyValue.
  assert (F1 : firstn (length prefix) (prefix ++ key ++ "="%char :: v) = prefix).
  { rewrite firstn_app, firstn_all, Nat.sub_diag. cbn [firstn]. apply app_nil_r. }
  rewrite F1, teq_refl.
  assert (S1 : skipn (length prefix) (prefix ++ key ++ "="%char :: v) = key ++ "="%char :: v).
  { rewrite skipn_app, skipn_all, Nat.sub_diag. reflexivity. }
  rewrite S1, find_at by exact N. do 2 f_equal.
  - rewrite firstn_app. rewrite firstn_all2 by lia. f_equal. replace (length prefix + length key - length prefix)%nat with (length key) by lia.
    rewrite firstn_app, firstn_all, Nat.sub_diag. cbn [firstn]. apply app_nil_r.
  - rewrite skipn_app. rewrite skipn_all2 by lia. cbn [app]. replace (length prefix + length key + 1 - length prefix)%nat with (length key + 1)%nat by lia.
    rewrite skipn_app. rewrite skipn_all2 by lia. cbn [app]. replace (length key + 1 - length key)%nat with 1%nat by lia. reflexivity.
Qed.
Lemma keyValue_inv : forall prefix a k v, keyValue prefix a = Some (k, v) ->
  exists key, k = prefix ++ key /\ a = prefix ++ key ++ "="%char :: v /\ ~ In "="%char key.
Proof.
  intros prefix a k v. unfold keyValue. destruct (text_eqb _ prefix) eqn:E; [ | discriminate ]. apply teqP in E.
  destruct (find "="%char (skipn (length prefix) a)) as [n|] eqn:Fd; [ | discriminate ]. intros H. inversion H. subst. clear H.
  apply find_some in Fd. destruct Fd as (r & EQ & N & L).
  set (key := firstn n (skipn (length prefix) a)) in *.
  assert (A : a = prefix ++ key ++ "="%char :: r).
  { rewrite <- (firstn_skipn (length prefix) a) at 1. rewrite E at 1. f_equal. exact EQ. }
  assert (LK : length key = n) by (unfold key; apply firstn_length_le; lia).
  assert (K : keyValue prefix (prefix ++ key ++ "="%char :: r) = Some (prefix ++ key, r)) by (apply keyValue_says, N).
  assert (K2 : keyValue prefix a = Some (firstn (length prefix + n) a, skipn (length prefix + n + 1) a)).
  { unfold keyValue. rewrite E, teq_refl. assert (Fd : find "="%char (skipn (length prefix) a) = Some n) by (apply find_some; exists r; split; [ exact EQ | split; [ exact N | exact L ] ]). rewrite Fd. reflexivity. }
  rewrite A in K2 at 1. rewrite K in K2. injection K2 as K3 K4. exists key. split; [ symmetry; exact K3 | ]. split; [ | exact N ]. rewrite <- K4. exact A.
Qed.

Lemma split_nonempty : forall d l, split d l <> [].
Proof. intros d [|x l]; cbn [split]; [ discriminate | ]. destruct (ascii_dec x d); [ discriminate | ]. destruct (split d l); discriminate. Qed.
Lemma split_joined : forall p, p <> [] -> Forall (fun k => ~ In "_"%char k) p -> split "_"%char (joined p) = p.
Proof.
  assert (W : forall k r, ~ In "_"%char k -> split "_"%char (k ++ "_"%char :: r) = k :: split "_"%char r).
  { induction k as [|x k IH]; intros r N; cbn [app split].
    - destruct (ascii_dec "_"%char "_"%char); [ reflexivity | congruence ].
    - destruct (ascii_dec x "_"%char) as [E|_]; [ exfalso; apply N; left; exact E | ]. rewrite IH by (intros K; apply N; right; exact K). reflexivity. }
  assert (W1 : forall k, ~ In "_"%char k -> split "_"%char k = [k]).
  { induction k as [|x k IH]; intros N; cbn [split]; [ reflexivity | ].
    destruct (ascii_dec x "_"%char) as [E|_]; [ exfalso; apply N; left; exact E | ]. rewrite IH by (intros K; apply N; right; exact K). reflexivity. }
  induction p as [|k p IH]; intros N F; [ congruence | ]. inversion F as [|? ? F1 F2]; subst. destruct p as [|k' p]; [ apply W1, F1 | ].
  change (joined (k :: k' :: p)) with (k ++ "_"%char :: joined (k' :: p)). rewrite W by exact F1. f_equal. apply IH; [ discriminate | exact F2 ].
Qed.
Lemma joined_cons : forall k p, p <> [] -> joined (k :: p) = k ++ "_"%char :: joined p.
Proof. intros k [|k' p] H; [ congruence | reflexivity ]. Qed.
Lemma split_path : forall l, KeyPath l (split "_"%char l).
Proof.
  induction l as [|x l (N & F & J)]; cbn [split].
  - split; [ discriminate | ]. split; [ constructor; [ tauto | constructor ] | reflexivity ].
  - destruct (ascii_dec x "_"%char) as [ ->|NE].
    + split; [ discriminate | ]. split; [ constructor; [ intros [] | exact F ] | ]. rewrite joined_cons by exact N. cbn [app]. congruence.
    + destruct (split "_"%char l) as [|w ws]; [ congruence | ]. pose proof (Forall_inv F) as F1. pose proof (Forall_inv_tail F) as F2. cbn beta in F1.
      split; [ discriminate | ]. split; [ constructor; [ intros [K|K]; [ congruence | tauto ] | exact F2 ] | ].
      destruct ws as [|w' ws]; [ cbn [joined] in *; congruence | ]. rewrite joined_cons by discriminate. cbn [app]. f_equal.
      rewrite joined_cons in J by discriminate. exact J.
Qed.
Lemma splitKey_iff : forall prefix key p, splitKey (prefix ++ key) prefix = p <-> KeyPath key p.
Proof.
  intros prefix key p. unfold splitKey. rewrite skipn_app, skipn_all, Nat.sub_diag. cbn [skipn app]. split.
  - intros <-. apply split_path.
  - intros (N & F & ->). apply split_joined; assumption.
Qed.

(** ** The arguments, gathered by key *)
Lemma set_text_in : forall l k v k' v', In (k', v') (set_text l k v) -> (k' = k /\ v' = v) \/ In (k', v') l.
Proof.
  induction l as [|[a b] l IH]; intros k v k' v'; cbn [set_text In]; [ intros [H|[]]; inversion H; left; split; reflexivity | ].
  destruct (text_eqb a k) eqn:E; cbn [In].
  - apply teqP in E. subst. intros [H|H]; [ inversion H; left; split; reflexivity | right; right; exact H ].
  - intros [H|H]; [ right; left; exact H | ]. destruct (IH _ _ _ _ H) as [A|A]; [ left; exact A | right; right; exact A ].
Qed.
Lemma set_text_has : forall l k v, In (k, v) (set_text l k v).
Proof.
  induction l as [|[a b] l IH]; intros k v; cbn [set_text]; [ left; reflexivity | ]. destruct (text_eqb a k) eqn:E; [ apply teqP in E; subst; left; reflexivity | right; apply IH ].
Qed.
Lemma set_text_other : forall l k v k' v', k' <> k -> In (k', v') l -> In (k', v') (set_text l k v).
Proof.
  induction l as [|[a b] l IH]; intros k v k' v' N; cbn [set_text In]; [ tauto | ].
  destruct (text_eqb a k) eqn:E; intros [H|H]; cbn [In].
  - apply teqP in E. inversion H. congruence.
  - right. exact H.
  - left. exact H.
  - right. apply IH; assumption.
Qed.
Lemma set_text_keys : forall l k v k', In k' (map fst (set_text l k v)) -> k' = k \/ In k' (map fst l).
Proof.
  intros l k v k' H. apply in_map_iff in H. destruct H as ([a b] & <- & H). apply set_text_in in H. cbn [fst].
  destruct H as [[ -> _]|H]; [ left; reflexivity | right; apply (in_map fst) in H; exact H ].
Qed.
Lemma set_text_nodup : forall l k v, NoDup (map fst l) -> NoDup (map fst (set_text l k v)).
Proof.
  induction l as [|[a b] l IH]; intros k v H; cbn [set_text map fst] in *; [ constructor; [ tauto | constructor ] | ].
  inversion H as [|? ? H1 H2]; subst. destruct (text_eqb a k) eqn:E; cbn [map fst]; [ constructor; assumption | ].
  constructor; [ | apply IH, H2 ]. intros K. apply set_text_keys in K. destruct K as [ ->|K]; [ rewrite teq_refl in E; discriminate | contradiction ].
Qed.
Definition gather (prefix : text) (acc : list (text * text)) (a : text) : list (text * text) :=
  match keyValue prefix a with Some (k, v) => set_text acc k v | None => acc end.
Lemma values_fold : forall args prefix, valuesStartingWith args prefix = fold_left (gather prefix) args []. Proof. reflexivity. Qed.
Lemma gather_from : forall prefix args acc k v, In (k, v) (fold_left (gather prefix) args acc) ->
  In (k, v) acc \/ exists a, In a args /\ keyValue prefix a = Some (k, v).
Proof.
  intros prefix. induction args as [|a args IH]; intros acc k v H; [ left; exact H | ]. cbn [fold_left] in H.
  destruct (IH _ _ _ H) as [K|(b & Hb & K)]; [ | right; exists b; split; [ right; exact Hb | exact K ] ].
  unfold gather in K. destruct (keyValue prefix a) as [[k0 v0]|] eqn:E; [ | left; exact K ].
  apply set_text_in in K. destruct K as [[ -> ->]|K]; [ right; exists a; split; [ left; reflexivity | exact E ] | left; exact K ].
Qed.
Lemma gather_nodup : forall prefix args acc, NoDup (map fst acc) -> NoDup (map fst (fold_left (gather prefix) args acc)).
Proof.
  intros prefix. induction args as [|a args IH]; intros acc H; [ exact H | ]. cbn [fold_left]. apply IH. unfold gather.
  destruct (keyValue prefix a) as [[k v]|]; [ apply set_text_nodup, H | exact H ].
Qed.
Lemma gather_stays : forall prefix args acc k v, In (k, v) acc -> (forall a w, In a args -> keyValue prefix a <> Some (k, w)) ->
  In (k, v) (fold_left (gather prefix) args acc).
Proof.
  intros prefix. induction args as [|a args IH]; intros acc k v H N; [ exact H | ]. cbn [fold_left]. apply IH; [ | intros b w Hb; apply N; right; exact Hb ].
  unfold gather. destruct (keyValue prefix a) as [[k0 v0]|] eqn:E; [ | exact H ]. apply set_text_other; [ | exact H ].
  intros <-. apply (N a v0); [ left; reflexivity | exact E ].
Qed.
