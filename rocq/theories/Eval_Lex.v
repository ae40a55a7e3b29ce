(** * The lexer reads exactly what is written *)
From Coq Require Import ZArith List Bool Ascii Arith Lia.
From Verif Require Import Base Eval_Model Eval_Spec Eval_Char.
Import ListNotations.
Local Open Scope nat_scope.

(** ** Spans *)
Lemma span_app p a r :
  Forall (fun c => p c = true) a -> (forall c r', r = c :: r' -> p c = false) ->
  spanWhile p (a ++ r) = (a, r).
Proof.
  intros F N. induction F as [|c a Pc F IH]; cbn [app spanWhile].
  - destruct r as [|c r]; [reflexivity|]. cbn [spanWhile]. rewrite (N c r eq_refl). reflexivity.
  - rewrite Pc, IH. reflexivity.
Qed.

Lemma span_sound p s a r :
  spanWhile p s = (a, r) ->
  s = a ++ r /\ Forall (fun c => p c = true) a /\ (forall c r', r = c :: r' -> p c = false).
Proof.
  revert a r. induction s as [|c s IH]; intros a r H; cbn [spanWhile] in H.
  - inversion H; subst. repeat split; [constructor|discriminate].
  - destruct (p c) eqn:Pc.
    + destruct (spanWhile p s) as [a' b'] eqn:E. inversion H; subst.
      destruct (IH _ _ eq_refl) as (-> & F & N). repeat split; auto.
    + inversion H; subst. repeat split; [constructor|]. intros c0 r' E; inversion E; subst; exact Pc.
Qed.

Lemma digits_true ds : Forall digit ds -> Forall (fun c => isdigit c = true) ds.
Proof. intro F. eapply Forall_impl; [|exact F]. intros c H. apply isdigit_spec, H. Qed.
Lemma true_digits ds : Forall (fun c => isdigit c = true) ds -> Forall digit ds.
Proof. intro F. eapply Forall_impl; [|exact F]. intros c H. apply isdigit_spec, H. Qed.

(** ** Numbers *)
Lemma digitsValue_snoc acc ds c :
  digitsValue acc (ds ++ [c]) = (digitsValue acc ds * 10 + (Z.of_nat (code c) - 48))%Z.
Proof. revert acc. induction ds as [|d ds IH]; intro acc; cbn [app digitsValue]; [reflexivity|apply IH]. Qed.

Lemma number_value ds z : number ds z -> digitsValue 0 ds = z /\ Forall digit ds.
Proof.
  induction 1 as [|ds z c N [IH F] D].
  - split; [reflexivity|constructor].
  - split.
    + rewrite digitsValue_snoc, IH. unfold code. lia.
    + apply Forall_app. auto.
Qed.

Lemma value_number ds : Forall digit ds -> number ds (digitsValue 0 ds).
Proof.
  induction ds as [|c ds IH] using rev_ind; intro F; [constructor|].
  apply Forall_app in F. destruct F as [F1 F2]. inversion F2; subst.
  rewrite digitsValue_snoc.
  replace (digitsValue 0 ds * 10 + (Z.of_nat (code c) - 48))%Z
    with (10 * digitsValue 0 ds + (Z.of_nat (nat_of_ascii c) - 48))%Z by (unfold code; lia).
  constructor; auto.
Qed.

(** ** Character facts *)
Lemma digit_not_e c : digit c -> ~ e_or_E c.
Proof. unfold digit, within. intros D [-> | ->]; cbn in D; lia. Qed.
Lemma dot_not_digit : ~ digit "."%char.
Proof. unfold digit, within. cbn. lia. Qed.
Lemma e_not_digit c : e_or_E c -> isdigit c = false.
Proof. intros [-> | ->]; reflexivity. Qed.

Lemma isch46 c : isch 46 c = true <-> c = "."%char.
Proof. rewrite isch_spec by lia. reflexivity. Qed.
Lemma isch61 c : isch 61 c = true <-> c = "="%char.
Proof. rewrite isch_spec by lia. reflexivity. Qed.

(** what [peek] sees of [rest] *)
Lemma peek_not (p : ascii -> bool) (P : ascii -> Prop) rest :
  (forall c, p c = true <-> P c) -> p Ascii.zero = false -> first_not P rest -> p (peek rest) = false.
Proof.
  intros S Z F. destruct rest as [|c r]; [exact Z|]. cbn [peek].
  destruct (p c) eqn:E; [|reflexivity]. exfalso. apply (F c r eq_refl). apply S, E.
Qed.

Lemma not_peek (p : ascii -> bool) (P : ascii -> Prop) rest :
  (forall c, p c = true <-> P c) -> p (peek rest) = false -> first_not P rest.
Proof. intros S E c r -> H. cbn [peek] in E. apply S in H. congruence. Qed.

(** ** Floating point literals *)
Definition frac_part (fp : text) : Prop :=
  fp = [] \/ exists f fs, fp = "."%char :: f :: fs /\ Forall digit (f :: fs).
Definition exp_part (ex : text) : Prop :=
  ex = [] \/ exists e sg d ds, ex = e :: sg ++ d :: ds /\ e_or_E e /\
     (sg = [] \/ sg = ["+"]%char \/ sg = ["-"]%char) /\ Forall digit (d :: ds).

Lemma float_no_e ip fp ex w :
  w = ip ++ fp ++ ex -> Forall digit ip -> frac_part fp -> exp_part ex ->
  Forall (fun d => ~ e_or_E d) w <-> ex = [].
Proof.
  intros -> Fi Ff Fe. split.
  - intro F. apply Forall_app in F. destruct F as [_ F]. apply Forall_app in F. destruct F as [_ F].
    destruct Fe as [->|(e & sg & d & ds & -> & He & _)]; [reflexivity|].
    inversion F; subst. contradiction.
  - intros ->. rewrite app_nil_r. apply Forall_app. split.
    + eapply Forall_impl; [|exact Fi]. intros; apply digit_not_e; assumption.
    + destruct Ff as [->|(f & fs & -> & F)]; [constructor|]. constructor.
      * intros [H|H]; discriminate.
      * eapply Forall_impl; [|exact F]. intros; apply digit_not_e; assumption.
Qed.

Lemma scanFloat_spec ip fp ex rest :
  Forall digit ip -> frac_part fp -> exp_part ex ->
  first_not (fun c => digit c \/ (e_or_E c /\ ex = [])) rest ->
  (fp = [] -> ex = [] -> first_not (fun c => c = "."%char) rest) ->
  scanFloat (ip ++ fp ++ ex ++ rest) = ScanTok (TFloat (ip ++ fp ++ ex)) rest.
Proof.
  intros Fi Ff Fe Nd Ndot. unfold scanFloat.
  assert (Ed : forall c r', rest = c :: r' -> isdigit c = false).
  { intros c r' E. destruct (isdigit c) eqn:I; [|reflexivity]. exfalso.
    apply (Nd c r' E). left. apply isdigit_spec, I. }
  assert (E1 : spanWhile isdigit (ip ++ fp ++ ex ++ rest) = (ip, fp ++ ex ++ rest)).
  { apply span_app; [apply digits_true, Fi|]. intros c r' E.
    destruct Ff as [->|(f & fs & -> & F)]; cbn [app] in E; [|inversion E; reflexivity].
    destruct Fe as [->|(e & sg & d & ds & -> & He & _)]; cbn [app] in E; [apply (Ed _ _ E)|].
    inversion E; subst. apply e_not_digit, He. }
  rewrite E1.
  (* the exponent *)
  assert (Ex : forall pre,
    (if isch 101 (tolower (peek (ex ++ rest)))
     then let e := peek (ex ++ rest) in
          let r4 := tl (ex ++ rest) in
          let (sign, r5) := if isch 43 (peek r4) || isch 45 (peek r4) then ([peek r4], tl r4) else ([], r4) in
          if isdigit (peek r5)
          then let (ep, r6) := spanWhile isdigit r5 in ScanTok (TFloat (ip ++ pre ++ e :: sign ++ ep)) r6
          else ScanFail
     else ScanTok (TFloat (ip ++ pre)) (ex ++ rest)) = ScanTok (TFloat (ip ++ pre ++ ex)) rest).
  { intro pre. destruct Fe as [->|(e & sg & d & ds & -> & He & Sg & Fd)].
    - cbn [app]. rewrite app_nil_r.
      rewrite (peek_not (fun c => isch 101 (tolower c)) e_or_E).
      + reflexivity.
      + intro c. apply tolower_e.
      + reflexivity.
      + intros c r E H. apply (Nd c r E). right. auto.
    - cbn [app peek tl]. rewrite (proj2 (tolower_e e) He). cbv zeta.
      assert (Sp : spanWhile isdigit ((d :: ds) ++ rest) = (d :: ds, rest))
        by (apply span_app; [apply digits_true, Fd|exact Ed]).
      assert (Dd : isdigit d = true) by (inversion Fd; subst; apply isdigit_spec; assumption).
      destruct Sg as [->|[->| ->]]; cbn [app peek tl].
      + assert (Q : isch 43 d || isch 45 d = false).
        { destruct (isch 43 d) eqn:Q1.
          - apply isch_spec in Q1; [|lia]. subst. discriminate Dd.
          - destruct (isch 45 d) eqn:Q2; [|reflexivity].
            apply isch_spec in Q2; [|lia]. subst. discriminate Dd. }
        rewrite Q. cbn [app] in Sp. cbv iota beta. cbn [peek]. rewrite Dd, Sp. reflexivity.
      + change (isch 43 "+"%char || isch 45 "+"%char) with true. cbv iota beta. cbn [peek tl].
        rewrite Dd. cbn [app] in Sp. rewrite Sp. reflexivity.
      + change (isch 43 "-"%char || isch 45 "-"%char) with true. cbv iota beta. cbn [peek tl].
        rewrite Dd. cbn [app] in Sp. rewrite Sp. reflexivity. }
  destruct Ff as [->|(f & fs & -> & F)].
  - cbn [app].
    assert (P : isch 46 (peek (ex ++ rest)) = false).
    { destruct Fe as [->|(e & sg & d & ds & -> & He & Sg & Fd)].
      - cbn [app]. apply (peek_not _ (fun c => c = "."%char)).
        + intro c. apply isch46.
        + reflexivity.
        + apply Ndot; reflexivity.
      - cbn [app peek]. destruct He as [-> | ->]; reflexivity. }
    rewrite P. cbv iota beta. specialize (Ex []). cbn [app] in Ex. exact Ex.
  - cbn [app peek tl]. change (isch 46 "."%char) with true. cbv iota beta zeta.
    assert (Df : isdigit f = true) by (inversion F; subst; apply isdigit_spec; assumption).
    cbn [peek]. rewrite Df.
    assert (Sp : spanWhile isdigit ((f :: fs) ++ ex ++ rest) = (f :: fs, ex ++ rest)).
    { apply span_app; [apply digits_true, F|]. intros c r' E.
      destruct Fe as [->|(e & sg & d & ds & -> & He & _)]; cbn [app] in E; [apply (Ed _ _ E)|].
      inversion E; subst. apply e_not_digit, He. }
    cbn [app] in Sp. rewrite Sp. cbv iota beta.
    specialize (Ex ("."%char :: f :: fs)). cbn [app] in Ex. exact Ex.
Qed.

(** ** [scanToken] *)
Definition scanDefault (c : ascii) (s : text) : scan :=
  if isdigit c then scanNumber (c :: s)
  else if isalpha c || isch 95 c then
    let (name, r) := spanWhile isIdentChar (c :: s) in ScanTok (word name) r
  else ScanFail.

Definition specials : list ascii :=
  [" "; "009"; "010"; "013"; "("; ")"; "["; "]"; "{"; "}"; "+"; "-"; "*"; "/"; ","; "$"; "%"; ":";
   "|"; "&"; "="; "!"; "<"; ">"; """"; "'"; "."]%char.

Lemma scan_cases c : (forall s, scanToken c s = scanDefault c s) \/ In c specials.
Proof.
  destruct c as [[|] [|] [|] [|] [|] [|] [|] [|]];
    first [left; reflexivity | right; cbn; tauto].
Qed.

Lemma digit_default c : isdigit c = true -> ~ In c specials.
Proof. intros D I. cbn in I. repeat destruct I as [<-|I]; try discriminate D; auto. Qed.

Lemma word_start_default c : isalpha c = true \/ c = "_"%char -> ~ In c specials.
Proof.
  intros D I. cbn in I.
  repeat (destruct I as [<-|I]; [destruct D as [D|D]; discriminate D|]). exact I.
Qed.

Lemma digit_scan c s : isdigit c = true -> scanToken c s = scanNumber (c :: s).
Proof.
  intro D. destruct (scan_cases c) as [E|I]; [|elim (digit_default c D I)].
  rewrite E. unfold scanDefault. rewrite D. reflexivity.
Qed.

Lemma letter_not_digit c : isalpha c = true \/ c = "_"%char -> isdigit c = false.
Proof.
  intros [A| ->]; [|reflexivity]. destruct (isdigit c) eqn:D; [|reflexivity].
  apply isalpha_spec in A. apply isdigit_spec in D.
  unfold letter, digit, within in *. lia.
Qed.

Lemma word_scan c s w r :
  isalpha c = true \/ c = "_"%char ->
  spanWhile isIdentChar (c :: s) = (w, r) -> scanToken c s = ScanTok (word w) r.
Proof.
  intros A Sp. destruct (scan_cases c) as [E|I]; [|elim (word_start_default c A I)].
  rewrite E. unfold scanDefault. rewrite (letter_not_digit c A), Sp.
  replace (isalpha c || isch 95 c) with true; [reflexivity|].
  destruct A as [->| ->]; [reflexivity|]. symmetry. apply orb_true_iff. right. reflexivity.
Qed.

Lemma cased_name t k w : keyword t k -> cased w k -> a_name w.
Proof.
  intros K C.
  assert (L : forall k w, cased w k -> Forall (within 97 122) k -> Forall letter w).
  { intros k0 w0 C0. induction C0 as [|a b l m S C0 IH]; intro F; constructor.
    - inversion F; subst. destruct S as [->|[S _]]; unfold letter; auto.
    - inversion F; subst. auto. }
  assert (Fk : Forall (within 97 122) k).
  { destruct K; repeat (constructor; [unfold within; cbn; lia|]); constructor. }
  specialize (L _ _ C Fk).
  assert (Ne : w <> []) by (intros ->; inversion C; subst; inversion K).
  destruct w as [|c w]; [contradiction|]. inversion L; subst.
  exists c, w. repeat split; [auto|]. eapply Forall_impl; [|eassumption].
  intros a Ha. unfold name_char. auto.
Qed.

Lemma name_scan w rest : a_name w -> first_not name_char rest ->
  exists c w', w = c :: w' /\ scanToken c (w' ++ rest) = ScanTok (word w) rest.
Proof.
  intros (c & r & -> & Hc & F) N. exists c, r. split; [reflexivity|].
  apply word_scan.
  - destruct Hc as [Hc|Hc]; [left; apply isalpha_spec, Hc|right; exact Hc].
  - change (c :: r ++ rest) with ((c :: r) ++ rest). apply span_app.
    + constructor.
      * apply isIdentChar_spec. unfold name_char. tauto.
      * eapply Forall_impl; [|exact F]. intros a H. apply isIdentChar_spec, H.
    + intros d r' E. destruct (isIdentChar d) eqn:I; [|reflexivity].
      exfalso. apply (N d r' E). apply isIdentChar_spec, I.
Qed.

Lemma string_body q w rest : ~ In q w -> scanStringBody q (w ++ q :: rest) = Some (w, rest).
Proof.
  intro N. induction w as [|c w IH]; cbn [app scanStringBody].
  - rewrite Ascii.eqb_refl. reflexivity.
  - destruct (Ascii.eqb c q) eqn:E.
    + apply Ascii.eqb_eq in E. exfalso. apply N. left. exact E.
    + rewrite IH; [reflexivity|]. intro H. apply N. right. exact H.
Qed.

Lemma string_body_sound q s w rest :
  scanStringBody q s = Some (w, rest) -> s = w ++ q :: rest /\ ~ In q w.
Proof.
  revert w. induction s as [|c s IH]; intros w H; cbn [scanStringBody] in H; [discriminate|].
  destruct (Ascii.eqb c q) eqn:E.
  - apply Ascii.eqb_eq in E. inversion H; subst. split; [reflexivity|auto].
  - destruct (scanStringBody q s) as [[v r]|]; [|discriminate]. inversion H; subst.
    destruct (IH v eq_refl) as [-> N]. split; [reflexivity|].
    intros [->|I]; [rewrite Ascii.eqb_refl in E; discriminate|contradiction].
Qed.

Lemma string_body_none q s : scanStringBody q s = None -> ~ In q s.
Proof.
  induction s as [|c s IH]; cbn [scanStringBody]; intro H; [auto|].
  destruct (Ascii.eqb c q) eqn:E; [discriminate|].
  destruct (scanStringBody q s) as [[v r]|]; [discriminate|].
  intros [->|I]; [rewrite Ascii.eqb_refl in E; discriminate|]. apply IH; auto.
Qed.

Lemma scan_spelled t w rest :
  spelled t w -> ends t rest ->
  exists c w', w = c :: w' /\ scanToken c (w' ++ rest) = ScanTok t rest.
Proof.
  intros Sp En.
  destruct Sp; try (eexists _, _; split; [reflexivity|reflexivity]).
  - (* ! *) eexists _, _; split; [reflexivity|]. cbn [app scanToken]. cbn [ends] in En.
    rewrite (peek_not (isch 61) (fun c => c = "="%char)); [reflexivity| |reflexivity|exact En].
    intro c. apply isch61.
  - (* . *) eexists _, _; split; [reflexivity|]. cbn [app scanToken]. cbn [ends] in En.
    rewrite (peek_not isdigit digit); [reflexivity|apply isdigit_spec|reflexivity|exact En].
  - (* < *) eexists _, _; split; [reflexivity|]. cbn [app scanToken]. cbn [ends] in En.
    rewrite (peek_not (isch 61) (fun c => c = "="%char)); [reflexivity| |reflexivity|exact En].
    intro c. apply isch61.
  - (* > *) eexists _, _; split; [reflexivity|]. cbn [app scanToken]. cbn [ends] in En.
    rewrite (peek_not (isch 61) (fun c => c = "="%char)); [reflexivity| |reflexivity|exact En].
    intro c. apply isch61.
  - (* int *) destruct ds as [|c ds]; [contradiction|]. apply number_value in H0.
    destruct H0 as [V F]. exists c, ds. split; [reflexivity|].
    rewrite digit_scan by (inversion F; subst; apply isdigit_spec; assumption).
    unfold scanNumber. cbn [ends] in En.
    change (c :: ds ++ rest) with ((c :: ds) ++ rest).
    rewrite span_app.
    + rewrite (peek_not (isch 46) (fun c => c = "."%char)).
      * rewrite (peek_not (fun c => isch 101 (tolower c)) e_or_E).
        -- cbn [negb andb]. rewrite V.
           destruct (z <=? int64_max)%Z eqn:L; [reflexivity|].
           apply Z.leb_gt in L. unfold int64_max in L. lia.
        -- apply tolower_e.
        -- reflexivity.
        -- intros d r E X. apply (En d r E). auto.
      * apply isch46.
      * reflexivity.
      * intros d r E X. apply (En d r E). auto.
    + apply digits_true, F.
    + intros d r E. destruct (isdigit d) eqn:I; [|reflexivity].
      exfalso. apply (En d r E). left. apply isdigit_spec, I.
  - (* float *) destruct H as (ip & fp & ex & Ew & Fi & Ff & Fe & N1 & N2).
    cbn [ends] in En.
    assert (En' : first_not (fun c => digit c \/ (e_or_E c /\ ex = [])) rest).
    { intros d r E X. apply (En d r E). destruct X as [X|[X1 X2]]; [auto|]. right. split; [exact X1|].
      apply (float_no_e ip fp ex w Ew Fi Ff Fe). exact X2. }
    assert (Sf : scanFloat (w ++ rest) = ScanTok (TFloat w) rest).
    { rewrite Ew. rewrite <- !app_assoc. apply scanFloat_spec; try assumption.
      intros -> ->. destruct N2 as [N2|N2]; contradiction. }
    destruct ip as [|c ip].
    + (* .5 *) destruct N1 as [N1|N1]; [contradiction|].
      destruct Ff as [->|(f & fs & -> & F)]; [contradiction|]. cbn [app] in Ew. subst w.
      exists "."%char, (f :: fs ++ ex). split; [reflexivity|].
      cbn [app scanToken peek].
      rewrite (proj2 (isdigit_spec f)) by (inversion F; subst; assumption).
      cbn [app] in Sf. exact Sf.
    + exists c, (ip ++ fp ++ ex). split; [exact Ew|].
      rewrite digit_scan by (inversion Fi; subst; apply isdigit_spec; assumption).
      subst w. cbn [app] in Sf |- *.
      unfold scanNumber.
      assert (Spn : spanWhile isdigit ((c :: ip) ++ (fp ++ ex ++ rest)) = (c :: ip, fp ++ ex ++ rest)).
      { apply span_app; [apply digits_true, Fi|]. intros d r E.
        destruct Ff as [->|(f & fs & -> & F)]; cbn [app] in E; [|inversion E; reflexivity].
        destruct Fe as [->|(e & sg & d' & ds & -> & He & _)]; cbn [app] in E.
        - destruct N2 as [N2|N2]; contradiction.
        - inversion E; subst. apply e_not_digit, He. }
      cbn [app] in Spn. rewrite <- !app_assoc in *. rewrite Spn.
      assert (Pk : negb (isch 46 (peek (fp ++ ex ++ rest))) && negb (isch 101 (tolower (peek (fp ++ ex ++ rest)))) = false).
      { destruct Ff as [->|(f & fs & -> & F)]; cbn [app].
        - destruct Fe as [->|(e & sg & d' & ds & -> & He & _)]; cbn [app].
          + destruct N2 as [N2|N2]; contradiction.
          + cbn [peek]. rewrite (proj2 (tolower_e e) He). apply andb_false_r.
        - reflexivity. }
      rewrite Pk. exact Sf.
  - (* string *) exists q, (w ++ [q]). split; [reflexivity|].
    rewrite <- app_assoc. cbn [app].
    assert (E : scanToken q (w ++ q :: rest) = scanString q (w ++ q :: rest))
      by (destruct H as [-> | ->]; reflexivity).
    rewrite E. unfold scanString. rewrite (string_body q w rest H0). reflexivity.
  - (* keyword *) pose proof (cased_name _ _ _ H H0) as A.
    assert (Nc : first_not name_char rest) by (destruct H; exact En).
    destruct (name_scan w rest A Nc) as (c & w' & E & Sc). exists c, w'. split; [exact E|].
    rewrite Sc. rewrite (word_kw t k w H H0). reflexivity.
  - (* name *) destruct (name_scan w rest H En) as (c & w' & E & Sc). exists c, w'. split; [exact E|].
    rewrite Sc. destruct (word_spec w) as [(t & k & _ & K & C)|[-> _]]; [|reflexivity].
    elim (H0 t k K C).
Qed.

Lemma tokenize_written ts s :
  written ts s -> forall n, length s <= n -> tokenizeN n s = Some ts.
Proof.
  assert (Ws : forall ws s ts, Forall space ws ->
     (forall n, length s <= n -> tokenizeN n s = Some ts) ->
     forall n, length (ws ++ s) <= n -> tokenizeN n (ws ++ s) = Some ts).
  { intros ws s0 ts0 F H. induction F as [|c ws Sc F IH]; intros n L; [apply H, L|].
    cbn [app length] in *. destruct n as [|n]; [lia|]. cbn [tokenizeN].
    assert (E : scanToken c (ws ++ s0) = ScanSkip (ws ++ s0))
      by (destruct Sc as [->|[->|[->| ->]]]; reflexivity).
    rewrite E. apply IH. lia. }
  induction 1 as [ws F|ws t w ts rest F Sp En W IH]; intros n L.
  - rewrite <- (app_nil_r ws) in L |- *. apply Ws; [exact F| |exact L]. intros m _. destruct m; reflexivity.
  - revert n L. apply Ws; [exact F|]. intros n L.
    destruct (scan_spelled t w rest Sp En) as (c & w' & -> & Sc).
    cbn [app] in *. destruct n as [|n]; [cbn in L; lia|]. cbn [tokenizeN]. rewrite Sc.
    rewrite IH; [reflexivity|]. cbn [length] in L. rewrite app_length in L. lia.
Qed.

(** ** The other direction *)
Lemma scanFloat_sound s t r :
  scanFloat s = ScanTok t r ->
  exists ip fp ex, s = (ip ++ fp ++ ex) ++ r /\ t = TFloat (ip ++ fp ++ ex) /\
    Forall digit ip /\ frac_part fp /\ exp_part ex /\
    first_not (fun c => digit c \/ (e_or_E c /\ ex = [])) r /\
    (fp = [] -> first_not (fun c => c = "."%char) (ex ++ r)).
Proof.
  unfold scanFloat. destruct (spanWhile isdigit s) as [ip r1] eqn:E1.
  apply span_sound in E1. destruct E1 as (-> & Fi & N1). apply true_digits in Fi.
  destruct (if isch 46 (peek r1) then _ else _) as [[fp r3]|] eqn:Ef; [|discriminate].
  assert (Hf : r1 = fp ++ r3 /\ frac_part fp /\ (forall c r', r3 = c :: r' -> isdigit c = false) /\
     (fp = [] -> first_not (fun c => c = "."%char) r3)).
  { destruct (isch 46 (peek r1)) eqn:P.
    - destruct r1 as [|c r1]; [discriminate P|]. cbn [peek tl] in *. apply isch46 in P. subst c.
      destruct (isdigit (peek r1)) eqn:D; [|discriminate].
      destruct (spanWhile isdigit r1) as [fd r2] eqn:E2. apply span_sound in E2.
      destruct E2 as (-> & Fd & N2). inversion Ef; subst. repeat split; [|exact N2|discriminate].
      right. destruct fd as [|f fd].
      + cbn [app] in D. destruct r3 as [|c r3]; [discriminate D|]. cbn [peek] in D.
        rewrite (N2 c r3 eq_refl) in D. discriminate.
      + exists f, fd. split; [reflexivity|]. apply true_digits, Fd.
    - inversion Ef; subst. repeat split; [left; reflexivity|exact N1|].
      intros _. apply (not_peek (isch 46)); [apply isch46|exact P]. }
  clear Ef. destruct Hf as (-> & Ff & N3 & Ndot).
  destruct (isch 101 (tolower (peek r3))) eqn:X.
  - destruct r3 as [|e r3]; [discriminate X|]. cbn [peek tl] in *. cbv zeta.
    pose proof X as He. apply tolower_e in He.
    destruct (if isch 43 (peek r3) || isch 45 (peek r3) then _ else _) as [sg r5] eqn:Eg.
    assert (Hg : r3 = sg ++ r5 /\ (sg = [] \/ sg = ["+"]%char \/ sg = ["-"]%char)).
    { destruct (isch 43 (peek r3) || isch 45 (peek r3)) eqn:P.
      - destruct r3 as [|g r3]; [discriminate P|]. cbn [peek tl] in *. inversion Eg; subst.
        split; [reflexivity|]. right. apply orb_true_iff in P. destruct P as [P|P].
        + apply isch_spec in P; [|lia]. subst. left. reflexivity.
        + apply isch_spec in P; [|lia]. subst. right. reflexivity.
      - inversion Eg; subst. split; [reflexivity|]. left. reflexivity. }
    clear Eg. destruct Hg as [-> Sg].
    destruct (isdigit (peek r5)) eqn:D; [|discriminate].
    destruct (spanWhile isdigit r5) as [ep r6] eqn:E5. apply span_sound in E5.
    destruct E5 as (-> & Fd & N6). intro H. inversion H; subst.
    exists ip, fp, (e :: sg ++ ep). repeat split.
    + rewrite <- !app_assoc. cbn [app]. rewrite <- !app_assoc. reflexivity.
    + exact Fi.
    + exact Ff.
    + right. destruct ep as [|d ep].
      * destruct r as [|c r]; [discriminate D|]. cbn in D. rewrite (N6 c r eq_refl) in D. discriminate.
      * exists e, sg, d, ep. repeat split; [exact He|exact Sg|apply true_digits, Fd].
    + intros c r' E [Dc|[_ Q]]; [|discriminate Q].
      apply isdigit_spec in Dc. rewrite (N6 c r' E) in Dc. discriminate.
    + intros _ c r' E ->. inversion E; subst. destruct He as [He|He]; discriminate He.
  - intro H. inversion H; subst. exists ip, fp, []. rewrite !app_nil_r.
    repeat split.
    + rewrite <- app_assoc. reflexivity.
    + exact Fi.
    + exact Ff.
    + left. reflexivity.
    + intros c r' E [Dc|[Ec _]].
      * apply isdigit_spec in Dc. rewrite (N3 c r' E) in Dc. discriminate.
      * subst. cbn [peek] in X. apply tolower_e in Ec. congruence.
    + cbn [app]. exact Ndot.
Qed.

Lemma float_token s t r ip fp ex :
  s = (ip ++ fp ++ ex) ++ r -> t = TFloat (ip ++ fp ++ ex) ->
  Forall digit ip -> frac_part fp -> exp_part ex ->
  first_not (fun c => digit c \/ (e_or_E c /\ ex = [])) r ->
  (ip <> [] \/ fp <> []) -> (fp <> [] \/ ex <> []) ->
  exists w, s = w ++ r /\ spelled t w /\ ends t r.
Proof.
  intros -> -> Fi Ff Fe Nr N1 N2. exists (ip ++ fp ++ ex). split; [reflexivity|]. split.
  - constructor. exists ip, fp, ex. repeat split; try assumption.
  - cbn [ends]. intros c r' E [D|[Ec F]]; apply (Nr c r' E); [auto|]. right. split; [exact Ec|].
    apply (float_no_e ip fp ex _ eq_refl Fi Ff Fe). exact F.
Qed.

Lemma scan_sound c s t r :
  scanToken c s = ScanTok t r -> exists w, c :: s = w ++ r /\ spelled t w /\ ends t r.
Proof.
  intro H. destruct (scan_cases c) as [E|I].
  - rewrite E in H. unfold scanDefault in H. destruct (isdigit c) eqn:D.
    + unfold scanNumber in H. destruct (spanWhile isdigit (c :: s)) as [ds r1] eqn:E1.
      pose proof E1 as Sp. apply span_sound in Sp. destruct Sp as (Es & Fd & N1).
      assert (Nd : ds <> []).
      { intros ->. cbn [app] in Es. specialize (N1 c s (eq_sym Es)). congruence. }
      destruct (negb (isch 46 (peek r1)) && negb (isch 101 (tolower (peek r1)))) eqn:P.
      * destruct (digitsValue 0 ds <=? int64_max)%Z eqn:L; [|discriminate].
        inversion H; subst. exists ds. split; [exact Es|]. split.
        -- apply s_int; [exact Nd|apply value_number, true_digits, Fd|].
           apply Z.leb_le in L. unfold int64_max in L. exact L.
        -- cbn [ends]. apply andb_true_iff in P. destruct P as [P1 P2].
           apply negb_true_iff in P1. apply negb_true_iff in P2.
           intros d r' -> [X|[X|X]].
           ++ apply isdigit_spec in X. rewrite (N1 d r' eq_refl) in X. discriminate.
           ++ cbn [peek] in P1. apply isch46 in X. congruence.
           ++ cbn [peek] in P2. apply tolower_e in X. congruence.
      * apply scanFloat_sound in H. destruct H as (ip & fp & ex & Es2 & -> & Fi & Ff & Fe & Nr & Ndot).
        assert (Eip : ip = ds /\ r1 = fp ++ ex ++ r).
        { assert (Sp2 : spanWhile isdigit (ip ++ (fp ++ ex ++ r)) = (ip, fp ++ ex ++ r)).
          { apply span_app; [apply digits_true, Fi|]. intros d r' Ed.
            destruct Ff as [->|(f & fs & -> & F)]; cbn [app] in Ed; [|inversion Ed; reflexivity].
            destruct Fe as [->|(e & sg & d' & ds' & -> & He & _)]; cbn [app] in Ed.
            - destruct (isdigit d) eqn:Dd; [|reflexivity]. exfalso. apply (Nr d r' Ed). left. apply isdigit_spec, Dd.
            - inversion Ed; subst. apply e_not_digit, He. }
          rewrite <- !app_assoc in Es2. rewrite <- Es2, E1 in Sp2. inversion Sp2; auto. }
        destruct Eip as [-> ->].
        eapply float_token; try eassumption; try reflexivity; [left; exact Nd|].
        destruct fp as [|f fp]; [|left; discriminate].
        destruct ex as [|x ex]; [|right; discriminate].
        exfalso. cbn [app] in P. specialize (Ndot eq_refl). cbn [app] in Ndot.
        rewrite (peek_not (isch 46) (fun c => c = "."%char) r isch46 eq_refl Ndot) in P.
        rewrite (peek_not (fun c => isch 101 (tolower c)) e_or_E r tolower_e eq_refl) in P; [discriminate P|].
        intros d r' Ed X. apply (Nr d r' Ed). right. auto.
    + destruct (isalpha c || isch 95 c) eqn:A; [|discriminate].
      destruct (spanWhile isIdentChar (c :: s)) as [w r1] eqn:E1. inversion H; subst.
      pose proof E1 as Sp. apply span_sound in Sp. destruct Sp as (Es & Fd & N1).
      assert (Nc : first_not name_char r).
      { intros d r' Ed X. apply isIdentChar_spec in X. rewrite (N1 d r' Ed) in X. discriminate. }
      assert (Nm : a_name w).
      { assert (Ic : isIdentChar c = true).
        { unfold isIdentChar, isalnum. apply orb_true_iff in A. destruct A as [-> | ->];
          rewrite ?orb_true_r; reflexivity. }
        destruct w as [|c' w].
        - cbn [app] in Es. rewrite (N1 c s (eq_sym Es)) in Ic. discriminate.
        - cbn [app] in Es. inversion Es; subst c'. exists c, w. split; [reflexivity|]. split.
          + apply orb_true_iff in A. destruct A as [A|A]; [left; apply isalpha_spec, A|right].
            apply isch_spec in A; [exact A|lia].
          + inversion Fd; subst. eapply Forall_impl; [|eassumption].
            intros a Ha. apply isIdentChar_spec, Ha. }
      exists w. split; [exact Es|].
      destruct (word_spec w) as [(t & k & -> & K & C)|[-> Nk]].
      * split; [eapply s_kw; eassumption|]. destruct K; exact Nc.
      * split; [apply s_ident; assumption|exact Nc].
  - assert (Two : forall (n : nat) (t1 t2 : token) (a : ascii) (b : option token),
        n < 256 -> 0 < n -> a = ascii_of_nat n ->
        (if isch n (peek s) then ScanTok t1 (tl s)
         else match b with Some t2 => ScanTok t2 s | None => ScanFail end) = ScanTok t r ->
        (exists r', s = a :: r' /\ t = t1 /\ r = r') \/
        (b = Some t /\ r = s /\ first_not (fun x => x = a) r)).
    { intros n t1 t2 a b L L0 Ea E. destruct (isch n (peek s)) eqn:P.
      - left. destruct s as [|d s]; [cbn [peek] in P|].
        + unfold isch in P. apply Nat.eqb_eq in P. change (code Ascii.zero) with 0 in P. lia.
        + cbn [peek tl] in *. apply isch_spec in P; [|exact L]. inversion E; subst.
          eexists. repeat split.
      - right. destruct b as [t3|]; [|discriminate]. inversion E; subst.
        repeat split. apply (not_peek (isch n)); [|exact P]. intro x. apply isch_spec, L. }
    cbn in I.
    repeat (destruct I as [<-|I];
      [first
        [ discriminate H
        | (inversion H; subst; eexists [_]; (split; [reflexivity|]); split; [constructor|exact Logic.I])
        | idtac ]|]); try contradiction I; cbn [scanToken] in H.
    + destruct (Two 124 TOrOr TDot "|"%char None) as [(r' & -> & -> & ->)|(X & _)];
        [lia|lia|reflexivity|exact H| |discriminate X].
      exists ["|"; "|"]%char. repeat split. constructor.
    + destruct (Two 38 TAndAnd TDot "&"%char None) as [(r' & -> & -> & ->)|(X & _)];
        [lia|lia|reflexivity|exact H| |discriminate X].
      exists ["&"; "&"]%char. repeat split. constructor.
    + destruct (Two 61 TEqEq TDot "="%char None) as [(r' & -> & -> & ->)|(X & _)];
        [lia|lia|reflexivity|exact H| |discriminate X].
      exists ["="; "="]%char. repeat split. constructor.
    + destruct (Two 61 TNotEq TDot "="%char (Some TExclamation)) as [(r' & -> & -> & ->)|(X & -> & N)];
        [lia|lia|reflexivity|exact H| |].
      * exists ["!"; "="]%char. repeat split. constructor.
      * inversion X; subst. exists ["!"]%char. repeat split; [constructor|exact N].
    + destruct (Two 61 TLessEq TDot "="%char (Some TLess)) as [(r' & -> & -> & ->)|(X & -> & N)];
        [lia|lia|reflexivity|exact H| |].
      * exists ["<"; "="]%char. repeat split. constructor.
      * inversion X; subst. exists ["<"]%char. repeat split; [constructor|exact N].
    + destruct (Two 61 TGreaterEq TDot "="%char (Some TGreater)) as [(r' & -> & -> & ->)|(X & -> & N)];
        [lia|lia|reflexivity|exact H| |].
      * exists [">"; "="]%char. repeat split. constructor.
      * inversion X; subst. exists [">"]%char. repeat split; [constructor|exact N].
    + unfold scanString in H. destruct (scanStringBody _ s) as [[v r']|] eqn:E; [|discriminate].
      inversion H; subst. apply string_body_sound in E. destruct E as [-> N].
      exists (""""%char :: v ++ [""""%char]). split; [cbn; rewrite <- app_assoc; reflexivity|].
      split; [|exact Logic.I]. constructor; auto.
    + unfold scanString in H. destruct (scanStringBody _ s) as [[v r']|] eqn:E; [|discriminate].
      inversion H; subst. apply string_body_sound in E. destruct E as [-> N].
      exists ("'"%char :: v ++ ["'"%char]). split; [cbn; rewrite <- app_assoc; reflexivity|].
      split; [|exact Logic.I]. constructor; auto.
    + destruct (isdigit (peek s)) eqn:D.
      * apply scanFloat_sound in H. destruct H as (ip & fp & ex & Es & -> & Fi & Ff & Fe & Nr & Ndot).
        assert (Eip : ip = []).
        { destruct ip as [|d ip]; [reflexivity|]. cbn [app] in Es. inversion Es; subst d.
          inversion Fi; subst. elim dot_not_digit; assumption. }
        subst ip. cbn [app] in *.
        assert (Nf : fp <> []).
        { intros ->. cbn [app] in *. apply (Ndot eq_refl "."%char s); [symmetry; exact Es|reflexivity]. }
        eapply (float_token _ _ r [] fp ex); try eassumption; try reflexivity; auto.
      * inversion H; subst. exists ["."]%char. repeat split; [constructor|].
        cbn [ends]. apply (not_peek isdigit); [apply isdigit_spec|exact D].
Qed.

Lemma scan_skip c s r :
  scanToken c s = ScanSkip r ->
  (space c /\ r = s) \/ ((c = "'"%char \/ c = """"%char) /\ ~ In c s /\ r = []).
Proof.
  intro H. destruct (scan_cases c) as [E|I].
  - rewrite E in H. unfold scanDefault, scanNumber, scanFloat in H.
    repeat match type of H with
    | (let (_, _) := ?x in _) = _ => destruct x
    | (if ?x then _ else _) = _ => destruct x
    | match ?x with _ => _ end = _ => destruct x
    end; discriminate H.
  - cbn in I.
    repeat (destruct I as [<-|I];
      [first
        [ discriminate H
        | (inversion H; subst; left; split; [unfold space; auto|reflexivity])
        | idtac ]|]); try contradiction I; cbn [scanToken] in H;
      try (destruct (isch _ (peek s)); discriminate H).
    + unfold scanString in H. destruct (scanStringBody _ s) as [[v r']|] eqn:E; [discriminate|].
      inversion H; subst. right. apply string_body_none in E. auto.
    + unfold scanString in H. destruct (scanStringBody _ s) as [[v r']|] eqn:E; [discriminate|].
      inversion H; subst. right. apply string_body_none in E. auto.
    + destruct (isdigit (peek s)); [|discriminate H]. unfold scanFloat in H.
      repeat match type of H with
      | (let (_, _) := ?x in _) = _ => destruct x
      | (if ?x then _ else _) = _ => destruct x
      | match ?x with _ => _ end = _ => destruct x
      end; discriminate H.
Qed.

(** what the lexer accepts beyond the written tokens: a string that is opened
    and never closed, at the end *)
Lemma tokenize_sound n s ts :
  tokenizeN n s = Some ts ->
  written ts s \/
  exists s1 q s2, s = s1 ++ q :: s2 /\ (q = "'"%char \/ q = """"%char) /\ ~ In q s2 /\ written ts s1.
Proof.
  revert s ts. induction n as [|n IH]; intros s ts H.
  - destruct s as [|c s]; cbn in H; [|discriminate]. inversion H; subst.
    left. constructor. constructor.
  - destruct s as [|c s]; cbn [tokenizeN] in H.
    { inversion H; subst. left. constructor. constructor. }
    destruct (scanToken c s) as [|r|t r] eqn:E; [discriminate| |].
    + apply scan_skip in E. destruct E as [[Sc ->]|(Q & N & ->)].
      * assert (Wc : forall s' ts', written ts' s' -> written ts' (c :: s')).
        { intros s' ts' W. destruct W as [ws F|ws t w ts0 rest F Sp En W].
          - constructor. constructor; assumption.
          - change (c :: ws ++ w ++ rest) with ((c :: ws) ++ w ++ rest).
            constructor; try assumption. constructor; assumption. }
        apply IH in H. destruct H as [W|(s1 & q & s2 & -> & Q & N & W)].
        -- left. apply Wc, W.
        -- right. exists (c :: s1), q, s2. repeat split; auto.
      * destruct n; cbn in H; inversion H; subst;
          right; exists [], c, s; (repeat split; auto); constructor; constructor.
    + destruct (tokenizeN n r) as [ts'|] eqn:Er; [|discriminate]. inversion H; subst.
      apply scan_sound in E. destruct E as (w & Es & Sp & En).
      apply IH in Er. destruct Er as [W|(s1 & q & s2 & Er & Q & N & W)].
      * left. rewrite Es. change (w ++ r) with ([] ++ w ++ r). constructor; auto.
      * right. exists (w ++ s1), q, s2. split; [rewrite Es, Er, app_assoc; reflexivity|].
        repeat split; auto. change (w ++ s1) with ([] ++ w ++ s1). constructor; auto.
        rewrite Er in En. clear - En Q.
        assert (G : forall P : ascii -> Prop, first_not P (s1 ++ q :: s2) -> first_not P s1).
        { intros P F d r' ->. apply (F d (r' ++ q :: s2)). reflexivity. }
        destruct t; cbn [ends] in *; auto.
Qed.
