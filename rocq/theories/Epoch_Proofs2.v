From Coq Require Import String Ascii List ZArith Bool Lia.
From Verif Require Import Epoch_Model Epoch_Spec Epoch_Proofs.
Import ListNotations.
Open Scope string_scope.
Open Scope Z_scope.

(** ** Digits *)

Ltac ten k H :=
  do 10 (destruct k as [|k]; [try (vm_compute; reflexivity)|]); exfalso; revert H; clear; lia.

Lemma digit_is : forall k, (k < 10)%nat -> isDigit (digit k) = true.
Proof. intros k H. ten k H. Qed.

Lemma digit_val : forall k, (k < 10)%nat -> digitVal (digit k) = Z.of_nat k.
Proof. intros k H. ten k H. Qed.

Lemma digit_T : forall k, (k < 10)%nat -> Ascii.eqb (digit k) "T" = false.
Proof. intros k H. ten k H. Qed.

Lemma digit_Z : forall k, (k < 10)%nat -> Ascii.eqb (digit k) "Z" = false.
Proof. intros k H. ten k H. Qed.

Lemma digit_plus : forall k, (k < 10)%nat -> Ascii.eqb (digit k) "+" = false.
Proof. intros k H. ten k H. Qed.

(** ** Strings *)

Lemma app_assoc_s : forall a b c : string, (a ++ b) ++ c = a ++ (b ++ c).
Proof. induction a as [|x a IH]; intros b c; [reflexivity|]. cbn [append]. rewrite IH. reflexivity. Qed.

Lemma app_nil_s : forall a : string, a ++ EmptyString = a.
Proof. induction a as [|x a IH]; [reflexivity|]. cbn [append]. rewrite IH. reflexivity. Qed.

Lemma has_app : forall c a b, has c (a ++ b) = has c a || has c b.
Proof.
  induction a as [|x a IH]; intros b; [reflexivity|].
  cbn [append has]. rewrite IH. apply orb_assoc.
Qed.

Lemma last_app : forall c a x b, lastIs c (a ++ String x b) = lastIs c (String x b).
Proof.
  induction a as [|y a IH]; intros x b; [reflexivity|].
  cbn [append]. destruct a as [|y2 a]; [reflexivity|].
  exact (IH x b).
Qed.

Lemma drop_app : forall a x, dropLast (a ++ String x EmptyString) = a.
Proof.
  induction a as [|y a IH]; intros x; [reflexivity|].
  cbn [append]. destruct a as [|y2 a]; [reflexivity|].
  change (dropLast (String y (String y2 a ++ String x EmptyString)))
    with (String y (dropLast (String y2 a ++ String x EmptyString))).
  rewrite IH. reflexivity.
Qed.

(** The first character is not a digit. *)
Definition noDigit (s : string) : Prop :=
  match s with EmptyString => True | String c _ => isDigit c = false end.

(** ** Numbers *)

Lemma small : forall n, (n < 100)%nat -> (n / 10 < 10)%nat /\ (n mod 10 < 10)%nat.
Proof.
  intros n H. split; [apply Nat.div_lt_upper_bound; lia | apply Nat.mod_upper_bound; lia].
Qed.

Lemma two_val : forall n, 10 * Z.of_nat (n / 10) + Z.of_nat (n mod 10) = Z.of_nat n.
Proof. intros n. pose proof (Nat.div_mod n 10). lia. Qed.

Lemma read_two : forall n rest, (n < 100)%nat -> readNum 2 (two n ++ rest) = Some (Z.of_nat n, rest).
Proof.
  intros n rest H. destruct (small n H) as [A B].
  unfold two. cbn [append]. unfold readNum. rewrite (digit_is _ A).
  cbn [readDigits]. rewrite (digit_is _ A), (digit_is _ B), (digit_val _ A), (digit_val _ B).
  replace (10 * (10 * 0 + Z.of_nat (n / 10)) + Z.of_nat (n mod 10)) with (Z.of_nat n)
    by (pose proof (two_val n); lia).
  reflexivity.
Qed.

Lemma read_four : forall n rest, Z.of_nat n < 10000 -> readNum 4 (four n ++ rest) = Some (Z.of_nat n, rest).
Proof.
  intros n rest H.
  assert (P : (n / 100 < 100)%nat).
  { apply Nat.div_lt_upper_bound; [lia|]. apply Nat2Z.inj_lt. 
    rewrite Nat2Z.inj_mul. change (Z.of_nat 100) with 100. lia. }
  assert (Q : (n mod 100 < 100)%nat) by (apply Nat.mod_upper_bound; lia).
  destruct (small _ P) as [A B]. destruct (small _ Q) as [C D].
  unfold four, two. cbn [append]. unfold readNum. rewrite (digit_is _ A).
  cbn [readDigits].
  rewrite (digit_is _ A), (digit_is _ B), (digit_is _ C), (digit_is _ D),
    (digit_val _ A), (digit_val _ B), (digit_val _ C), (digit_val _ D).
  pose proof (two_val (n / 100)) as E1. pose proof (two_val (n mod 100)) as E2.
  pose proof (Nat.div_mod n 100) as E3.
  match goal with |- Some (?x, _) = _ => replace x with (Z.of_nat n) by lia end.
  reflexivity.
Qed.

Lemma read_twelve : forall n rest, (n < 100)%nat -> noDigit rest ->
  readNum 12 (two n ++ rest) = Some (Z.of_nat n, rest).
Proof.
  intros n rest H N. destruct (small n H) as [A B].
  unfold two. cbn [append]. unfold readNum. rewrite (digit_is _ A).
  cbn [readDigits]. rewrite (digit_is _ A), (digit_is _ B), (digit_val _ A), (digit_val _ B).
  assert (E : 10 * (10 * 0 + Z.of_nat (n / 10)) + Z.of_nat (n mod 10) = Z.of_nat n)
    by (pose proof (two_val n); lia).
  rewrite E. destruct rest as [|c r]; [reflexivity|].
  cbn [noDigit] in N. rewrite N. reflexivity.
Qed.

Lemma read_fraction : forall f k rest, (length f <= k)%nat -> Forall (fun x => (x < 10)%nat) f ->
  noDigit rest -> readFraction k (digits f ++ rest) = (fraction k f, rest).
Proof.
  induction f as [|x f IH]; intros k rest L F N.
  - cbn [digits append fraction]. destruct k as [|k]; [reflexivity|].
    destruct rest as [|c r]; [reflexivity|]. cbn [noDigit] in N. cbn [readFraction]. rewrite N. reflexivity.
  - destruct k as [|k]; [cbn [length] in L; lia|].
    apply Forall_cons_iff in F. destruct F as [X F].
    cbn [digits append readFraction fraction]. rewrite (digit_is _ X), (digit_val _ X).
    rewrite IH; [reflexivity| cbn [length] in L; lia | exact F | exact N].
Qed.

Lemma expect_dot_no : forall c r, Ascii.eqb c "." = false -> expect "." (String c r) = None.
Proof. intros c r H. unfold expect. rewrite H. reflexivity. Qed.

(** What may follow the seconds. *)
Definition afterSeconds (z : string) : Prop :=
  match z with EmptyString => False | String c _ => isDigit c = false /\ Ascii.eqb c "." = false end.

Definition secondsText (s : nat) (f : list nat) : string :=
  two s ++ match f with [] => EmptyString | _ => "." ++ digits f end.

Lemma read_seconds : forall s f z, (s < 60)%nat -> (length f <= 9)%nat ->
  Forall (fun x => (x < 10)%nat) f -> afterSeconds z ->
  readSeconds (secondsText s f ++ z) = Some (Z.of_nat s * 1000000000 + fraction 9 f, z).
Proof.
  intros s f z S60 L F A. destruct z as [|c z]; [destruct A|].
  destruct A as [A1 A2]. unfold secondsText, readSeconds. rewrite app_assoc_s.
  assert (LT : (Z.of_nat s <? 60) = true) by (apply Z.ltb_lt; lia).
  destruct f as [|x f].
  - rewrite read_twelve by (cbn; try lia; exact A1). rewrite LT. cbn [append].
    rewrite (expect_dot_no _ _ A2). cbn [fraction]. rewrite Z.add_0_r. reflexivity.
  - rewrite read_twelve; [|lia|reflexivity]. rewrite LT.
    pose proof (read_fraction (x :: f) 9 (String c z) L F A1) as R.
    match goal with |- match ?e with _ => _ end = _ => change e with (Some (digits (x :: f) ++ String c z)) end.
    cbv iota. rewrite R. reflexivity.
Qed.

Lemma read_offset : forall neg h rest, (h < 24)%nat -> noDigit rest ->
  readOffset (String (if neg : bool then "-" else "+")%char (two h ++ rest))
  = Some ((if neg then -1 else 1) * (Z.of_nat h * 3600)).
Proof.
  intros neg h rest H N. destruct (small h) as [A B]; [lia|].
  unfold two. cbn [append]. unfold readOffset.
  rewrite !(digit_is _ A), !(digit_is _ B), !(digit_val _ A), !(digit_val _ B), two_val.
  destruct neg; destruct rest as [|c [|d r]]; try reflexivity; cbn [noDigit] in N; rewrite N; reflexivity.
Qed.

Lemma read_offset_full : forall neg h m rest, (h < 24)%nat -> (m < 60)%nat ->
  readOffset (String (if neg : bool then "-" else "+")%char (two h ++ two m ++ rest))
  = Some ((if neg then -1 else 1) * (Z.of_nat h * 3600 + Z.of_nat m * 60)).
Proof.
  intros neg h m rest H M. destruct (small h) as [A B]; [lia|]. destruct (small m) as [C D]; [lia|].
  unfold two. cbn [append]. unfold readOffset.
  rewrite !(digit_is _ A), !(digit_is _ B), !(digit_is _ C), !(digit_is _ D),
    !(digit_val _ A), !(digit_val _ B), !(digit_val _ C), !(digit_val _ D), !two_val.
  destruct neg; reflexivity.
Qed.

(** ** The whole text *)

Lemma month_last : forall y m, (1 <= m <= 12)%nat ->
  Z.of_nat (nth (m - 1) (months y) 0%nat) = lastDay (Z.of_nat y) (Z.of_nat m).
Proof.
  intros y m Hm. unfold months. rewrite leap_isLeap.
  assert (M : (m = 1 \/ m = 2 \/ m = 3 \/ m = 4 \/ m = 5 \/ m = 6 \/ m = 7 \/ m = 8 \/ m = 9 \/ m = 10 \/ m = 11 \/ m = 12)%nat) by lia.
  repeat (destruct M as [M|M]); subst m; unfold lastDay; destruct (isLeap (Z.of_nat y)); reflexivity.
Qed.

(** What the library decides on once all the numbers are read. *)
Definition decided (y m d h mi : nat) (ns o : Z) : option Z :=
  if (1 <=? Z.of_nat m) && (Z.of_nat m <=? 12) && (1 <=? Z.of_nat d)
     && (Z.of_nat d <=? lastDay (Z.of_nat y) (Z.of_nat m)) && (Z.of_nat h <? 24) && (Z.of_nat mi <? 60)
  then Some (ticks (toDays (Z.of_nat y) (Z.of_nat m) (Z.of_nat d)) (Z.of_nat h) (Z.of_nat mi) ns o)
  else None.

Lemma stream_parts : forall y m d h mi s f z o,
  Z.of_nat y < 10000 -> (m < 100)%nat -> (d < 100)%nat -> validTime h mi s f ->
  afterSeconds z -> readOffset z = Some o ->
  fromStream (dayText y m d ++ "T" ++ timeText h mi s f ++ z)
  = decided y m d h mi (Z.of_nat s * 1000000000 + fraction 9 f) o.
Proof.
  intros y m d h mi s f z o Y M D [H [MI [S60 [L F]]]] A O.
  unfold dayText, timeText.
  change (two h ++ ":" ++ two mi ++ ":" ++ two s ++ match f with [] => EmptyString | _ :: _ => "." ++ digits f end)
    with (two h ++ ":" ++ two mi ++ ":" ++ secondsText s f).
  rewrite !app_assoc_s. unfold fromStream.
  rewrite (read_four y _ Y). cbn [append expect Ascii.eqb Bool.eqb].
  rewrite (read_two m) by exact M. cbn [append expect Ascii.eqb Bool.eqb].
  rewrite (read_two d) by exact D. cbn [append expect Ascii.eqb Bool.eqb].
  rewrite (read_two h) by lia. cbn [append expect Ascii.eqb Bool.eqb].
  rewrite (read_two mi) by lia. cbn [append expect Ascii.eqb Bool.eqb].
  rewrite (read_seconds s f z S60 L F A), O. reflexivity.
Qed.

Lemma month_31 : forall y m, (nth (m - 1) (months y) 0 <= 31)%nat.
Proof.
  intros y m. unfold months.
  do 12 (destruct m as [|m]; [destruct (leap y); cbn [Nat.sub nth]; lia|]).
  destruct m as [|m]; [destruct (leap y); cbn [Nat.sub nth]; lia|].
  cbn [Nat.sub nth]. destruct m; cbn [nth]; lia.
Qed.

Lemma stream_read : forall y m d h mi s f z o,
  validDay y m d -> validTime h mi s f -> afterSeconds z -> readOffset z = Some o ->
  fromStream (dayText y m d ++ "T" ++ timeText h mi s f ++ z)
  = Some (wrap64 (instant y m d h mi s f - o * 1000000000)).
Proof.
  intros y m d h mi s f z o [Y [M D]] V A O. pose proof (month_31 y m) as B.
  rewrite (stream_parts y m d h mi s f z o) by (try assumption; lia).
  unfold decided. rewrite <- month_last by exact M. destruct V as [H [MI [S60 [L F]]]].
  replace ((1 <=? Z.of_nat m) && (Z.of_nat m <=? 12) && (1 <=? Z.of_nat d)
    && (Z.of_nat d <=? Z.of_nat (nth (m - 1) (months y) 0%nat)) && (Z.of_nat h <? 24) && (Z.of_nat mi <? 60)) with true.
  2:{ symmetry. repeat (apply andb_true_intro; split); first [apply Z.leb_le | apply Z.ltb_lt]; lia. }
  unfold ticks. rewrite (toDays_right y m d M). unfold instant. do 2 f_equal. lia.
Qed.

Lemma decided_bad : forall y m d h mi ns o, Z.of_nat y < 10000 -> ~ validDay y m d ->
  decided y m d h mi ns o = None.
Proof.
  intros y m d h mi ns o Y V. unfold decided.
  destruct ((1 <=? Z.of_nat m) && (Z.of_nat m <=? 12) && (1 <=? Z.of_nat d)
     && (Z.of_nat d <=? lastDay (Z.of_nat y) (Z.of_nat m)) && (Z.of_nat h <? 24) && (Z.of_nat mi <? 60)) eqn:E; [|reflexivity].
  exfalso. apply V. repeat (apply andb_prop in E; destruct E as [E ?]).
  repeat match goal with X : (_ <=? _) = true |- _ => apply Z.leb_le in X | X : (_ <? _) = true |- _ => apply Z.ltb_lt in X end.
  assert (M : (1 <= m <= 12)%nat) by lia.
  rewrite <- month_last in * by exact M. unfold validDay. lia.
Qed.

(** ** The coerced text *)

Lemma has_two : forall c n, (forall k, (k < 10)%nat -> Ascii.eqb (digit k) c = false) ->
  (n < 100)%nat -> has c (two n) = false.
Proof.
  intros c n K N. destruct (small n N) as [A B]. unfold two. cbn [has].
  rewrite (K _ A), (K _ B). reflexivity.
Qed.

Lemma has_four : forall c n, (forall k, (k < 10)%nat -> Ascii.eqb (digit k) c = false) ->
  Z.of_nat n < 10000 -> has c (four n) = false.
Proof.
  intros c n K N. unfold four. rewrite has_app, !has_two; try assumption; try reflexivity.
  - apply Nat.mod_upper_bound; lia.
  - apply Nat.div_lt_upper_bound; [lia|]. apply Nat2Z.inj_lt.
    rewrite Nat2Z.inj_mul. change (Z.of_nat 100) with 100. lia.
Qed.

Lemma has_digits : forall c f, (forall k, (k < 10)%nat -> Ascii.eqb (digit k) c = false) ->
  Forall (fun x => (x < 10)%nat) f -> has c (digits f) = false.
Proof.
  intros c f K. induction f as [|x f IH]; intros F; [reflexivity|].
  apply Forall_cons_iff in F. destruct F as [X F]. cbn [digits has]. rewrite (K _ X), (IH F). reflexivity.
Qed.

Lemma has_day : forall c y m d, (forall k, (k < 10)%nat -> Ascii.eqb (digit k) c = false) ->
  Ascii.eqb "-" c = false -> Z.of_nat y < 10000 -> (m < 100)%nat -> (d < 100)%nat ->
  has c (dayText y m d) = false.
Proof.
  intros c y m d K C Y M D. unfold dayText.
  rewrite !has_app, has_four, !has_two by assumption. cbn [has]. rewrite C. reflexivity.
Qed.

Lemma plus_time : forall h mi s f, validTime h mi s f -> has "+" (timeText h mi s f) = false.
Proof.
  intros h mi s f [H [MI [S60 [L F]]]]. unfold timeText.
  rewrite !has_app, !(has_two "+") by (try exact digit_plus; lia).
  destruct f as [|x f]; [reflexivity|].
  rewrite has_app, (has_digits "+" _ digit_plus F). reflexivity.
Qed.

Lemma last_two : forall a n, (n < 100)%nat -> lastIs "Z" (a ++ two n) = false.
Proof.
  intros a n N. destruct (small n N) as [A B]. unfold two. rewrite last_app.
  cbn [lastIs]. apply digit_Z, B.
Qed.

Lemma last_digits : forall f x, Forall (fun k => (k < 10)%nat) (x :: f) -> lastIs "Z" (digits (x :: f)) = false.
Proof.
  induction f as [|z f IH]; intros x F; apply Forall_cons_iff in F; destruct F as [X F].
  - cbn [digits lastIs]. apply digit_Z, X.
  - exact (IH z F).
Qed.

Lemma last_time : forall a h mi s f, validTime h mi s f -> lastIs "Z" (a ++ timeText h mi s f) = false.
Proof.
  intros a h mi s f [H [MI [S60 [L F]]]]. unfold timeText.
  destruct f as [|x f].
  - rewrite app_nil_s. rewrite <- !app_assoc_s. apply last_two. lia.
  - rewrite <- !app_assoc_s.
    change (digits (x :: f)) with (String (digit x) (digits f)). rewrite last_app.
    exact (last_digits f x F).
Qed.

Lemma stamp_T : forall y m d r, has "T" (dayText y m d ++ "T" ++ r) = true.
Proof. intros y m d r. rewrite has_app. cbn [append has]. apply orb_true_r. Qed.

Lemma fix_unsaid : forall y m d h mi s f, validDay y m d -> validTime h mi s f ->
  fixup (originText y m d h mi s f Unsaid) = dayText y m d ++ "T" ++ timeText h mi s f ++ "+00:00".
Proof.
  intros y m d h mi s f V T. unfold originText. cbn [zoneText]. rewrite app_nil_s. unfold fixup.
  rewrite stamp_T. cbn [negb].
  rewrite <- (app_assoc_s (dayText y m d) "T" (timeText h mi s f)), (last_time _ h mi s f T).
  pose proof V as [Y [M D]]. pose proof (month_31 y m).
  rewrite !has_app, (plus_time h mi s f T), (has_day "+" y m d digit_plus) by (try reflexivity; lia).
  cbn [has Ascii.eqb Bool.eqb orb negb]. rewrite !app_assoc_s. reflexivity.
Qed.

Lemma fix_zulu : forall y m d h mi s f,
  fixup (originText y m d h mi s f Zulu) = dayText y m d ++ "T" ++ timeText h mi s f ++ "+00:00".
Proof.
  intros y m d h mi s f. unfold originText. cbn [zoneText]. unfold fixup.
  rewrite stamp_T. cbn [negb].
  rewrite <- (app_assoc_s "T"), <- (app_assoc_s (dayText y m d)).
  rewrite last_app. cbn [lastIs]. rewrite Ascii.eqb_refl, drop_app, !app_assoc_s. reflexivity.
Qed.

Lemma fix_ahead : forall y m d h mi s f c zh zm, (zm < 60)%nat ->
  fixup (originText y m d h mi s f (Ahead c zh zm)) = originText y m d h mi s f (Ahead c zh zm).
Proof.
  intros y m d h mi s f c zh zm Z60. unfold fixup.
  assert (T : has "T" (originText y m d h mi s f (Ahead c zh zm)) = true) by apply stamp_T.
  assert (P : has "+" (originText y m d h mi s f (Ahead c zh zm)) = true).
  { unfold originText. rewrite !has_app. cbn [zoneText append has]. rewrite Ascii.eqb_refl.
    cbn [orb]. rewrite !orb_true_r. reflexivity. }
  assert (L : lastIs "Z" (originText y m d h mi s f (Ahead c zh zm)) = false).
  { unfold originText. cbn [zoneText]. rewrite <- !app_assoc_s. apply last_two. lia. }
  rewrite T, P, L. reflexivity.
Qed.

Lemma fix_behind : forall y m d h mi s f (c : bool) zh zm, validDay y m d -> validTime h mi s f ->
  (zh < 24)%nat -> (zm < 60)%nat ->
  fixup (originText y m d h mi s f (Behind c zh zm))
  = dayText y m d ++ "T" ++ timeText h mi s f
    ++ String "-" (two zh ++ (if c then ":" else EmptyString) ++ two zm ++ "+00:00").
Proof.
  intros y m d h mi s f c zh zm V T ZH Z60. unfold fixup.
  assert (HT : has "T" (originText y m d h mi s f (Behind c zh zm)) = true) by apply stamp_T.
  assert (P : has "+" (originText y m d h mi s f (Behind c zh zm)) = false).
  { pose proof V as [Y [M D]]. pose proof (month_31 y m).
    unfold originText. cbn [zoneText].
    rewrite !has_app, (plus_time h mi s f T), (has_day "+" y m d digit_plus), !(has_two "+")
      by (try exact digit_plus; try reflexivity; lia).
    destruct c; reflexivity. }
  assert (L : lastIs "Z" (originText y m d h mi s f (Behind c zh zm)) = false).
  { unfold originText. cbn [zoneText]. rewrite <- !app_assoc_s. apply last_two. lia. }
  rewrite HT, P, L. cbn [negb]. unfold originText. cbn [zoneText]. rewrite !app_assoc_s. reflexivity.
Qed.

Lemma fix_day : forall y m d, Z.of_nat y < 10000 -> (m < 100)%nat -> (d < 100)%nat ->
  fixup (dayText y m d) = dayText y m d ++ "T" ++ timeText 0 0 0 [] ++ "+00:00".
Proof.
  intros y m d Y M D. unfold fixup.
  rewrite (has_day "T" y m d digit_T) by (try reflexivity; assumption). reflexivity.
Qed.

Lemma wrap_id : forall t, holds64 t -> wrap64 t = t.
Proof.
  intros t [A B]. unfold wrap64. rewrite Z.mod_small; [lia|].
  change (2 ^ 64) with (2 * 2 ^ 63). lia.
Qed.

(** ** The origin that is read *)

(** The offset the library reads for a zone, in seconds. *)
Definition seenOffset (z : zone) : Z :=
  match z with
  | Unsaid | Zulu => 0
  | Ahead c h m => 1 * (Z.of_nat h * 3600 + if c then 0 else Z.of_nat m * 60)
  | Behind c h m => -1 * (Z.of_nat h * 3600 + if c then 0 else Z.of_nat m * 60)
  end.

Lemma origin_read : forall y m d h mi s f z, validDay y m d -> validTime h mi s f -> validZone z ->
  parseEpoch (originText y m d h mi s f z)
  = (wrap64 (instant y m d h mi s f - seenOffset z * 1000000000), true).
Proof.
  intros y m d h mi s f z V T Z. unfold parseEpoch.
  destruct z as [| |c zh zm|c zh zm]; cbn [seenOffset].
  - rewrite fix_unsaid by assumption.
    rewrite (stream_read y m d h mi s f _ 0 V T); [reflexivity | split; reflexivity | reflexivity].
  - rewrite fix_zulu.
    rewrite (stream_read y m d h mi s f _ 0 V T); [reflexivity | split; reflexivity | reflexivity].
  - destruct Z as [ZH ZM]. rewrite fix_ahead by exact ZM. unfold originText.
    erewrite (stream_read y m d h mi s f _ _ V T); [reflexivity | split; reflexivity |].
    cbn [zoneText]. destruct c.
    + pose proof (read_offset false zh (":" ++ two zm) ZH eq_refl) as R. rewrite Z.add_0_r. exact R.
    + pose proof (read_offset_full false zh zm "" ZH ZM) as R. rewrite app_nil_s in R. exact R.
  - destruct Z as [ZH ZM]. rewrite fix_behind by assumption.
    erewrite (stream_read y m d h mi s f _ _ V T); [reflexivity | split; reflexivity |].
    destruct c.
    + pose proof (read_offset true zh (":" ++ two zm ++ "+00:00") ZH eq_refl) as R. rewrite Z.add_0_r. exact R.
    + exact (read_offset_full true zh zm "+00:00" ZH ZM).
Qed.

Lemma seen_plain : forall z, plainZone z -> seenOffset z * 1000000000 = zoneOffset z.
Proof.
  intros [| |c h m|c h m] P; cbn [seenOffset zoneOffset]; try reflexivity;
    destruct P as [P|P]; subst; try destruct c; lia.
Qed.
