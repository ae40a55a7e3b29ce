(** C70: the origin of a domain means the instant its text says, and readers shift domains to a
    common origin by the true distance. *)
From Coq Require Import String Ascii List ZArith Bool Lia.
From Verif Require Import Epoch_Model Epoch_Spec Epoch_Proofs Epoch_Proofs2.
Import ListNotations.
Open Scope string_scope.
Open Scope Z_scope.

(** An origin with a day and a time that exist, in a zone written without a colon or with whole
    hours, is read as the instant it says, if the 64-bit clock can hold it. Missing: zones with
    minutes written with a colon, and instants outside the clock's range. *)
Theorem c70_origin_partial : forall y m d h mi s f z,
  validDay y m d -> validTime h mi s f -> validZone z -> plainZone z ->
  holds64 (instant y m d h mi s f - zoneOffset z) ->
  parseEpoch (originText y m d h mi s f z) = (instant y m d h mi s f - zoneOffset z, true).
Proof.
  intros y m d h mi s f z V T Z P R.
  rewrite (origin_read y m d h mi s f z V T Z), (seen_plain z P), wrap_id by exact R. reflexivity.
Qed.

(** An origin that is only a day means its midnight in UTC. *)
Theorem c70_day : forall y m d, validDay y m d -> holds64 (dayNumber y m d * 86400 * 1000000000) ->
  parseEpoch (dayText y m d) = (dayNumber y m d * 86400 * 1000000000, true).
Proof.
  intros y m d V R. pose proof V as [Y [M D]]. pose proof (month_31 y m).
  unfold parseEpoch. rewrite fix_day by lia.
  rewrite (stream_read y m d 0 0 0 [] "+00:00" 0 V); [| | split; reflexivity | reflexivity].
  2:{ unfold validTime. cbn [length]. repeat split; try lia. constructor. }
  replace (instant y m d 0 0 0 [] - 0 * 1000000000) with (dayNumber y m d * 86400 * 1000000000)
    by (unfold instant; cbn [fraction]; lia).
  rewrite wrap_id by exact R. reflexivity.
Qed.

(** The ways to say UTC mean the same. *)
Theorem c70_utc : forall y m d h mi s f z, validDay y m d -> validTime h mi s f ->
  In z [Zulu; Ahead true 0 0; Ahead false 0 0; Behind true 0 0; Behind false 0 0] ->
  parseEpoch (originText y m d h mi s f z) = parseEpoch (originText y m d h mi s f Unsaid).
Proof.
  intros y m d h mi s f z V T I.
  rewrite (origin_read y m d h mi s f Unsaid V T) by exact Coq.Init.Logic.I.
  repeat (destruct I as [I|I]; [subst z; rewrite origin_read by (try assumption; cbn; try exact Coq.Init.Logic.I; lia); reflexivity|]).
  destruct I.
Qed.

(** The minutes of a zone written with a colon are ignored. *)
Theorem c70_colon : forall y m d h mi s f zh zm (ahead : bool),
  validDay y m d -> validTime h mi s f -> (zh < 24)%nat -> (zm < 60)%nat ->
  let zone m := if ahead then Ahead true zh m else Behind true zh m in
  parseEpoch (originText y m d h mi s f (zone zm)) = parseEpoch (originText y m d h mi s f (zone 0%nat)).
Proof.
  intros y m d h mi s f zh zm ahead V T ZH ZM zone. unfold zone.
  destruct ahead; rewrite !origin_read by (try assumption; cbn; lia); reflexivity.
Qed.

(** So an origin in India is half an hour off, without any sign of trouble. *)
Theorem c70_origin_refuted : exists y m d h mi s f z t,
  validDay y m d /\ validTime h mi s f /\ validZone z /\
  holds64 (instant y m d h mi s f - zoneOffset z) /\
  originText y m d h mi s f z = "2024-01-01T00:00:00+05:30" /\
  parseEpoch (originText y m d h mi s f z) = (t, true) /\
  t - (instant y m d h mi s f - zoneOffset z) = 1800 * 1000000000.
Proof.
  exists 2024%nat, 1%nat, 1%nat, 0%nat, 0%nat, 0%nat, [], (Ahead true 5 30), 1704049200000000000.
  split. { unfold validDay. split; [reflexivity|]. vm_compute. lia. }
  split. { unfold validTime. cbn. repeat split; try lia. constructor. }
  split. { cbn. lia. }
  split. { vm_compute. split; [discriminate|reflexivity]. }
  split; [vm_compute; reflexivity|]. split; vm_compute; reflexivity.
Qed.

(** An instant the clock cannot hold is read as some other instant, without any sign of trouble. *)
Theorem c70_range_refuted : exists y m d t,
  validDay y m d /\ dayText y m d = "0001-01-01" /\
  parseEpoch (dayText y m d) = (t, true) /\ t <> dayNumber y m d * 86400 * 1000000000 /\ 0 < t - dayNumber 1700 1 1 * 86400 * 1000000000.
Proof.
  exists 1%nat, 1%nat, 1%nat, (fst (parseEpoch "0001-01-01")).
  split. { unfold validDay. split; [reflexivity|]. vm_compute. lia. }
  split; [vm_compute; reflexivity|]. split; [vm_compute; reflexivity|].
  split; vm_compute; [discriminate|reflexivity].
Qed.

(** A day that does not exist is not read ... *)
Theorem c70_no_such_day : forall y m d h mi s f z, Z.of_nat y < 10000 -> (m < 100)%nat -> (d < 100)%nat ->
  ~ validDay y m d -> validTime h mi s f -> In z [Zulu; Ahead true 0 0] ->
  snd (parseEpoch (dayText y m d)) = false /\
  snd (parseEpoch (originText y m d h mi s f z)) = false.
Proof.
  intros y m d h mi s f z Y M D V T I. unfold parseEpoch. split.
  - rewrite fix_day by assumption.
    rewrite (stream_parts y m d 0 0 0 [] "+00:00" 0 Y M D); [| | split; reflexivity | reflexivity].
    + rewrite decided_bad by assumption. reflexivity.
    + unfold validTime. cbn [length]. repeat split; try lia. constructor.
  - assert (E : fixup (originText y m d h mi s f z) = dayText y m d ++ "T" ++ timeText h mi s f ++ "+00:00").
    { destruct I as [I|[I|I]]; [| |destruct I]; subst z; [apply fix_zulu|].
      rewrite fix_ahead by lia. reflexivity. }
    rewrite E, (stream_parts y m d h mi s f "+00:00" 0 Y M D T); [| split; reflexivity | reflexivity].
    rewrite decided_bad by assumption. reflexivity.
Qed.

(** ... but readers take any origin that is not read for 1970-01-01. *)
Theorem c70_bad_origin : forall o, snd (parseEpoch o) = false ->
  readerEpoch o = readerEpoch "1970-01-01".
Proof.
  intros o H. unfold readerEpoch. replace (fst (parseEpoch "1970-01-01")) with 0 by (vm_compute; reflexivity).
  unfold parseEpoch in *. destruct (fromStream (fixup o)); [discriminate H|reflexivity].
Qed.

Theorem c70_bad_origin_refuted :
  snd (parseEpoch "2023-02-29") = false /\ snd (parseEpoch "") = false /\
  snd (parseEpoch "2023-03-01T08:00Z") = false /\
  readerEpoch "2023-03-01T08:00Z" = readerEpoch "1970-01-01".
Proof. cbv zeta. repeat (apply conj; [vm_compute; reflexivity|]). vm_compute. reflexivity. Qed.

(** A time reader goes by the origin of the latest descriptor, whatever it held before ... *)
Theorem c70_time_reader_partial : forall e y m d h mi s f z,
  validDay y m d -> validTime h mi s f -> validZone z -> plainZone z ->
  holds64 (instant y m d h mi s f - zoneOffset z) ->
  timeDescriptor e "time" "s" (originText y m d h mi s f z)
  = TimeOk (instant y m d h mi s f - zoneOffset z).
Proof.
  intros e y m d h mi s f z V T Z P R.
  pose proof (c70_origin_partial y m d h mi s f z V T Z P R) as H.
  unfold parseEpoch in H. unfold timeDescriptor. cbn [String.eqb Ascii.eqb Bool.eqb negb].
  destruct (fromStream (fixup (originText y m d h mi s f z))); [|discriminate H].
  injection H as H. rewrite H. reflexivity.
Qed.

(** ... refuses domains that are not time in seconds, keeping what it held ... *)
Theorem c70_time_reader_refuses : forall e q u o, q <> "time" \/ u <> "s" ->
  timeDescriptor e q u o = TimeThrows e.
Proof.
  intros e q u o H. unfold timeDescriptor.
  destruct (String.eqb q "time") eqn:Q; [|reflexivity]. cbn [negb].
  destruct (String.eqb u "s") eqn:U; [|reflexivity].
  apply String.eqb_eq in Q, U. destruct H; contradiction.
Qed.

(** ... but with an origin it cannot read it goes on with the origin of the previous one. *)
Theorem c70_time_reader_refuted : forall e o, snd (parseEpoch o) = false ->
  timeDescriptor e "time" "s" o = TimeOk e.
Proof.
  intros e o H. unfold parseEpoch in H. unfold timeDescriptor. cbn [String.eqb Ascii.eqb Bool.eqb negb].
  destruct (fromStream (fixup o)); [discriminate H|reflexivity].
Qed.

(** The shift to the common origin is the true distance in ticks of the common resolution, cut to
    whole ticks. Missing: distances whose product with the resolution passes 64 bits. *)
Theorem c70_shift_partial : forall e e0 num den,
  0 < num -> 0 < den -> holds64 den -> holds64 (1000000000 * num) ->
  holds64 (e - e0) -> holds64 ((e - e0) * den) ->
  Z.abs ((e - e0) * den - epochOffset e e0 num den * (1000000000 * num)) < 1000000000 * num /\
  (e0 <= e -> 0 <= epochOffset e e0 num den) /\
  ((1000000000 * num | (e - e0) * den) ->
   epochOffset e e0 num den * (1000000000 * num) = (e - e0) * den).
Proof.
  intros e e0 num den N D H1 H2 H3 H4. unfold epochOffset. rewrite (wrap_id (e - e0)) by exact H3.
  cbv zeta. rewrite Z.mul_1_l, (wrap_id den) by exact H1.
  rewrite (wrap_id ((e - e0) * den)) by exact H4. rewrite (wrap_id (1000000000 * num)) by exact H2.
  set (a := (e - e0) * den) in *. set (b := 1000000000 * num) in *. assert (B : 0 < b) by lia.
  destruct (e - e0 =? 0) eqn:E.
  - apply Z.eqb_eq in E. assert (A : a = 0) by (unfold a; rewrite E; reflexivity).
    rewrite A. repeat split; lia.
  - pose proof (Z.quot_rem' a b) as Q. pose proof (Z.rem_bound_abs a b) as RB.
    split; [|split].
    + replace (a - a ÷ b * b) with (Z.rem a b) by lia. lia.
    + intros L. apply Z.quot_pos; [|lia]. unfold a. nia.
    + intros [k K]. rewrite K. rewrite Z.quot_mul by lia. reflexivity.
Qed.

(** Two signals with ticks of a microsecond whose origins are three hours apart are aligned
    wrongly, though every number of the user fits in 64 bits. *)
Theorem c70_shift_refuted : exists e e0,
  parseEpoch "2024-01-01T03:00:00Z" = (e, true) /\ parseEpoch "2024-01-01T00:00:00Z" = (e0, true) /\
  e - e0 = 3 * 3600 * 1000000000 /\
  epochOffset e e0 1 1000000 <> 3 * 3600 * 1000000 /\
  epochOffset e e0 1 1000000 < 0.
Proof.
  exists (fst (parseEpoch "2024-01-01T03:00:00Z")), (fst (parseEpoch "2024-01-01T00:00:00Z")).
  split; [vm_compute; reflexivity|]. split; [vm_compute; reflexivity|]. split; [vm_compute; reflexivity|].
  split; vm_compute; [discriminate|reflexivity].
Qed.

(** ** The common origin and resolution of several signals *)

Lemma common_fold : forall l acc, 0 < snd (snd acc) -> Forall (fun s => 0 < sDen s) l ->
  let r := fold_left commonStep l acc in
  0 < snd (snd r) /\
  fst r <= fst acc /\ fst (snd r) * snd (snd acc) <= fst (snd acc) * snd (snd r) /\
  (forall s, In s l -> sUsed s = true -> fst r <= sEpoch s /\ fst (snd r) * sDen s <= sNum s * snd (snd r)) /\
  (fst r = fst acc \/ exists s, In s l /\ sUsed s = true /\ fst r = sEpoch s) /\
  (snd r = snd acc \/ exists s, In s l /\ sUsed s = true /\ snd r = (sNum s, sDen s)).
Proof.
  induction l as [|x l IH]; intros acc D F.
  - cbn [fold_left]. split; [exact D|]. split; [lia|]. split; [lia|]. split; [intros s []|]. split; left; reflexivity.
  - apply Forall_cons_iff in F. destruct F as [X F]. cbn [fold_left].
    destruct acc as [e [n d]]. cbn [fst snd] in *.
    set (acc' := commonStep (e, (n, d)) x).
    assert (D' : 0 < snd (snd acc')).
    { unfold acc', commonStep. destruct (sUsed x); [|exact D]. cbn [fst snd].
      destruct (finer (sNum x, sDen x) (n, d)); assumption. }
    assert (A1 : fst acc' <= e).
    { unfold acc', commonStep. destruct (sUsed x); cbn [fst snd]; [|lia].
      destruct (sEpoch x <? e) eqn:E; [apply Z.ltb_lt in E|]; lia. }
    assert (A2 : fst (snd acc') * d <= n * snd (snd acc')).
    { unfold acc', commonStep. destruct (sUsed x); cbn [fst snd]; [|lia].
      destruct (finer (sNum x, sDen x) (n, d)) eqn:E; cbn [fst snd]; [|lia].
      unfold finer in E. cbn [fst snd] in E. apply Z.ltb_lt in E. lia. }
    assert (A3 : sUsed x = true -> fst acc' <= sEpoch x /\ fst (snd acc') * sDen x <= sNum x * snd (snd acc')).
    { intros U. unfold acc', commonStep. rewrite U. cbn [fst snd]. split.
      - destruct (sEpoch x <? e) eqn:E; [|apply Z.ltb_ge in E]; lia.
      - destruct (finer (sNum x, sDen x) (n, d)) eqn:E; cbn [fst snd]; [lia|].
        unfold finer in E. cbn [fst snd] in E. apply Z.ltb_ge in E. lia. }
    assert (A4 : fst acc' = e \/ (sUsed x = true /\ fst acc' = sEpoch x)).
    { unfold acc', commonStep. destruct (sUsed x); cbn [fst snd]; [|left; reflexivity].
      destruct (sEpoch x <? e); [right; split; reflexivity | left; reflexivity]. }
    assert (A5 : snd acc' = (n, d) \/ (sUsed x = true /\ snd acc' = (sNum x, sDen x))).
    { unfold acc', commonStep. destruct (sUsed x); cbn [fst snd]; [|left; reflexivity].
      destruct (finer (sNum x, sDen x) (n, d)); [right; split; reflexivity | left; reflexivity]. }
    destruct (IH acc' D' F) as [R0 [R1 [R2 [R3 [R4 R5]]]]]. fold acc'.
    set (r := fold_left commonStep l acc') in *.
    destruct r as [re [rn rd]]. destruct acc' as [ae [an ad]]. cbn [fst snd] in *.
    assert (T : forall p q, 0 < q -> an * q <= p * ad -> rn * q <= p * rd) by (intros p q Q L; nia).
    split; [exact R0|]. split; [lia|]. split; [apply T; assumption|].
    split; [|split].
    + intros s [S1|S1] U; [subst s | exact (R3 s S1 U)].
      destruct (A3 U) as [B1 B2]. split; [lia|]. apply T; assumption.
    + destruct R4 as [R4|[s [S1 [S2 S3]]]].
      * destruct A4 as [A4|[U A4]]; [left; lia | right; exists x; split; [left; reflexivity|]; split; [exact U|lia]].
      * right. exists s. split; [right; exact S1|]. split; assumption.
    + destruct R5 as [R5|[s [S1 [S2 S3]]]].
      * destruct A5 as [A5|[U A5]]; [left; congruence | right; exists x; split; [left; reflexivity|]; split; [exact U|congruence]].
      * right. exists s. split; [right; exact S1|]. split; assumption.
Qed.

(** No signal that takes part has an earlier origin or a finer resolution than the common ones. *)
Theorem c70_common : forall l e num den, Forall (fun s => 0 < sDen s) l ->
  common l = Some (e, (num, den)) ->
  0 < den /\
  forall s, In s l -> sUsed s = true -> e <= sEpoch s /\ num * sDen s <= sNum s * den.
Proof.
  intros l e num den F C. unfold common in C. destruct l as [|x l]; [discriminate C|].
  pose proof F as F'. apply Forall_cons_iff in F'. destruct F' as [X _].
  injection C as C.
  destruct (common_fold (x :: l) (sEpoch x, (sNum x, sDen x)) X F) as [R0 [_ [_ [R3 _]]]].
  change (fold_left commonStep l (commonStep (sEpoch x, (sNum x, sDen x)) x))
    with (fold_left commonStep (x :: l) (sEpoch x, (sNum x, sDen x))) in C.
  rewrite C in R0, R3. cbn [fst snd] in R0, R3. split; [exact R0 | exact R3].
Qed.

(** Both belong to a signal that takes part, if the first one does. *)
Theorem c70_common_used_partial : forall x l e num den, Forall (fun s => 0 < sDen s) (x :: l) ->
  sUsed x = true -> common (x :: l) = Some (e, (num, den)) ->
  (exists s, In s (x :: l) /\ sUsed s = true /\ e = sEpoch s) /\
  (exists s, In s (x :: l) /\ sUsed s = true /\ num = sNum s /\ den = sDen s).
Proof.
  intros x l e num den F U C. unfold common in C.
  pose proof F as F'. apply Forall_cons_iff in F'. destruct F' as [X _].
  injection C as C.
  destruct (common_fold (x :: l) (sEpoch x, (sNum x, sDen x)) X F) as [_ [_ [_ [_ [R4 R5]]]]].
  change (fold_left commonStep l (commonStep (sEpoch x, (sNum x, sDen x)) x))
    with (fold_left commonStep (x :: l) (sEpoch x, (sNum x, sDen x))) in C.
  rewrite C in R4, R5. cbn [fst snd] in R4, R5. split.
  - destruct R4 as [R4|R4]; [|exact R4]. exists x. split; [left; reflexivity|]. split; assumption.
  - destruct R5 as [R5|[s [S1 [S2 S3]]]].
    + injection R5 as R5 R6. exists x. split; [left; reflexivity|]. repeat split; assumption.
    + injection S3 as S3 S4. exists s. repeat split; assumption.
Qed.

(** A first signal that takes no part still decides. *)
Theorem c70_common_used_refuted : exists x y,
  sUsed x = false /\ sUsed y = true /\ 0 < sDen x /\ 0 < sDen y /\
  common [x; y] = Some (sEpoch x, (sNum x, sDen x)) /\
  sEpoch x <> sEpoch y /\ sDen x <> sDen y.
Proof.
  exists (mkDomain false 0 1 1000000), (mkDomain true 5000000000 1 1000).
  repeat split; try reflexivity; discriminate.
Qed.

(** A tick of a signal becomes the common tick of the same instant, when that instant is a common
    tick and the numbers stay in range. Missing: larger numbers, and instants between ticks. *)
Theorem c70_common_tick_partial : forall s e0 num den tick,
  0 < num -> 0 < den -> 0 < sDen s -> holds64 den -> holds64 (1000000000 * num) ->
  holds64 (sEpoch s - e0) -> holds64 ((sEpoch s - e0) * den) ->
  Z.abs (tick * (sNum s * den)) <= 2 ^ 53 ->
  (sDen s * num | tick * (sNum s * den)) -> (1000000000 * num | (sEpoch s - e0) * den) ->
  sameInstant (sEpoch s) (sNum s) (sDen s) tick e0 num den (commonTick s e0 num den tick).
Proof.
  intros s e0 num den tick N D SD H1 H2 H3 H4 R [k K] Dv.
  destruct (c70_shift_partial (sEpoch s) e0 num den N D H1 H2 H3 H4) as [_ [_ E]].
  specialize (E Dv). unfold commonTick. cbv zeta.
  rewrite wrap_id by (unfold holds64; change (2 ^ 63) with (1024 * 2 ^ 53); lia).
  assert (P : 0 < sDen s * num) by nia.
  rewrite K, Z.quot_mul by lia.
  unfold sameInstant. set (o := epochOffset (sEpoch s) e0 num den) in *.
  assert (E2 : (k + o) * num * 1000000000 * sDen s
               = 1000000000 * (tick * (sNum s * den)) + (sEpoch s - e0) * den * sDen s)
    by (rewrite K, <- E; ring).
  replace ((e0 * den + (k + o) * num * 1000000000) * sDen s)
    with (e0 * den * sDen s + (k + o) * num * 1000000000 * sDen s) by ring.
  rewrite E2. ring.
Qed.

(** ** Concrete cases *)

Example c70_case_text :
  originText 2024 2 29 23 59 58 [1; 2; 5]%nat (Behind true 8 0) = "2024-02-29T23:59:58.125-08:00".
Proof. vm_compute. reflexivity. Qed.

Example c70_case_valid :
  validDay 2024 2 29 /\ validTime 23 59 58 [1; 2; 5]%nat /\ validZone (Behind true 8 0) /\
  plainZone (Behind true 8 0) /\
  holds64 (instant 2024 2 29 23 59 58 [1; 2; 5]%nat - zoneOffset (Behind true 8 0)).
Proof.
  split. { unfold validDay. split; [reflexivity|]. vm_compute. lia. }
  split. { unfold validTime. cbn. repeat split; try lia. repeat constructor; lia. }
  split. { cbn. lia. }
  split. { right. reflexivity. }
  vm_compute. split; [discriminate|reflexivity].
Qed.

Example c70_case_instant :
  parseEpoch "2024-02-29T23:59:58.125-08:00" = (1709279998125000000, true).
Proof. vm_compute. reflexivity. Qed.

Example c70_case_days :
  dayNumber 1970 1 1 = 0 /\ dayNumber 2000 3 1 = 11017 /\ dayNumber 1969 12 31 = -1 /\
  dayNumber 1900 3 1 = -25508.
Proof. cbv zeta. repeat (apply conj; [vm_compute; reflexivity|]). vm_compute. reflexivity. Qed.

Example c70_case_bad_day : ~ validDay 2023 2 29.
Proof. unfold validDay. intros [_ [_ H]]. vm_compute in H. lia. Qed.

Example c70_case_shift :
  holds64 (1000000000 * 1) /\ holds64 1000 /\ holds64 ((5000000000 - 0) * 1000) /\
  epochOffset 5000000000 0 1 1000 = 5000.
Proof.
  split. { vm_compute. split; [discriminate|reflexivity]. }
  split. { vm_compute. split; [discriminate|reflexivity]. }
  split. { vm_compute. split; [discriminate|reflexivity]. }
  vm_compute. reflexivity.
Qed.

Example c70_case_common :
  let a := mkDomain true 5000000000 1 1000 in
  let b := mkDomain true 3000000000 1 10000 in
  common [a; b] = Some (3000000000, (1, 10000)) /\
  commonTick a 3000000000 1 10000 7 = 20070 /\ commonTick b 3000000000 1 10000 20070 = 20070.
Proof. cbv zeta. repeat (apply conj; [vm_compute; reflexivity|]). vm_compute. reflexivity. Qed.

Example c70_case_common_range :
  (1000 * 1 | 7 * (1 * 10000)) /\ (1000000000 * 1 | (5000000000 - 3000000000) * 10000) /\
  holds64 ((5000000000 - 3000000000) * 10000).
Proof.
  split; [exists 70; reflexivity|]. split; [exists 20000; reflexivity|].
  vm_compute. split; [discriminate|reflexivity].
Qed.

Print Assumptions c70_origin_partial.
Print Assumptions c70_day.
Print Assumptions c70_utc.
Print Assumptions c70_colon.
Print Assumptions c70_origin_refuted.
Print Assumptions c70_range_refuted.
Print Assumptions c70_no_such_day.
Print Assumptions c70_bad_origin.
Print Assumptions c70_bad_origin_refuted.
Print Assumptions c70_time_reader_partial.
Print Assumptions c70_time_reader_refuses.
Print Assumptions c70_time_reader_refuted.
Print Assumptions c70_shift_partial.
Print Assumptions c70_shift_refuted.
Print Assumptions c70_common.
Print Assumptions c70_common_used_partial.
Print Assumptions c70_common_used_refuted.
Print Assumptions c70_common_tick_partial.
