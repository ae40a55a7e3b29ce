From Coq Require Import String Ascii List ZArith Bool Lia.
From Verif Require Import Epoch_Model Epoch_Spec.
Import ListNotations.
Open Scope string_scope.
Open Scope Z_scope.

(** ** The calendar *)

Lemma leap_isLeap : forall y, leap y = isLeap (Z.of_nat y).
Proof.
  intros y. unfold leap, isLeap.
  assert (E4 : Z.of_nat y mod 4 = Z.of_nat (y mod 4)) by (rewrite Nat2Z.inj_mod; reflexivity).
  assert (E100 : Z.of_nat y mod 100 = Z.of_nat (y mod 100)) by (rewrite Nat2Z.inj_mod; reflexivity).
  assert (E400 : Z.of_nat y mod 400 = Z.of_nat (y mod 400)) by (rewrite Nat2Z.inj_mod; reflexivity).
  rewrite E4, E100, E400.
  destruct (y mod 4)%nat as [|a] eqn:A; destruct (y mod 100)%nat as [|b] eqn:B; destruct (y mod 400)%nat as [|c] eqn:C;
    try reflexivity.
Qed.

Lemma year_days : forall y, Z.of_nat (list_sum (months y)) = if leap y then 366 else 365.
Proof. intros y. unfold months. destruct (leap y); reflexivity. Qed.

Definition closed (y : Z) : Z := 365 * y + (y + 3) / 4 - (y + 99) / 100 + (y + 399) / 400.

Lemma before_closed : forall y, daysBeforeYear y = closed (Z.of_nat y).
Proof.
  induction y as [|y IH]; [reflexivity|].
  cbn [daysBeforeYear]. rewrite IH, year_days, leap_isLeap, Nat2Z.inj_succ.
  unfold closed, isLeap. set (z := Z.of_nat y). assert (0 <= z) by (unfold z; lia).
  destruct (z mod 4 =? 0) eqn:A; destruct (z mod 100 =? 0) eqn:B; destruct (z mod 400 =? 0) eqn:C; cbn [andb orb negb];
    repeat match goal with H : (_ =? _) = true |- _ => apply Z.eqb_eq in H | H : (_ =? _) = false |- _ => apply Z.eqb_neq in H end;
    Z.to_euclidean_division_equations; lia.
Qed.

Lemma days_after_feb : forall y m d, 0 <= y -> 3 <= m <= 12 ->
  toDays y m d = closed y + (if isLeap y then 60 else 59) + (153 * (m - 3) + 2) / 5 + d - 1 - 719528.
Proof.
  intros y m d Hy Hm. unfold toDays.
  destruct (m <=? 2) eqn:E; [apply Z.leb_le in E; lia|].
  destruct (2 <? m) eqn:E2; [|apply Z.ltb_ge in E2; lia].
  cbv zeta. set (q := (153 * (m - 3) + 2) / 5).
  unfold closed, isLeap.
  destruct (y mod 4 =? 0) eqn:A; destruct (y mod 100 =? 0) eqn:B; destruct (y mod 400 =? 0) eqn:C; cbn [andb orb negb];
    repeat match goal with H : (_ =? _) = true |- _ => apply Z.eqb_eq in H | H : (_ =? _) = false |- _ => apply Z.eqb_neq in H end;
    clearbody q; Z.to_euclidean_division_equations; lia.
Qed.

Lemma days_before_march : forall y m d, 0 <= y -> 1 <= m <= 2 ->
  toDays y m d = closed y + (if m =? 2 then 31 else 0) + d - 1 - 719528.
Proof.
  intros y m d Hy Hm. unfold toDays.
  assert (M : m = 1 \/ m = 2) by lia.
  unfold closed.
  destruct M as [M|M]; subst m; cbn [Z.leb Z.ltb Z.compare Z.eqb Pos.compare Pos.compare_cont Pos.eqb];
    cbv zeta;
    [change ((153 * (1 + 9) + 2) / 5) with 306 | change ((153 * (2 + 9) + 2) / 5) with 337];
    Z.to_euclidean_division_equations; lia.
Qed.

Lemma toDays_right : forall y m d, (1 <= m <= 12)%nat ->
  toDays (Z.of_nat y) (Z.of_nat m) (Z.of_nat d) = dayNumber y m d.
Proof.
  intros y m d Hm. unfold dayNumber. rewrite !before_closed.
  replace (closed (Z.of_nat 1970)) with 719528 by reflexivity.
  unfold months. rewrite leap_isLeap.
  assert (M : (m = 1 \/ m = 2 \/ m = 3 \/ m = 4 \/ m = 5 \/ m = 6 \/ m = 7 \/ m = 8 \/ m = 9 \/ m = 10 \/ m = 11 \/ m = 12)%nat) by lia.
  repeat (destruct M as [M|M]); subst m;
    first [rewrite days_before_march by (cbn; lia) | rewrite days_after_feb by (cbn; lia)];
    destruct (isLeap (Z.of_nat y));
    cbn [Nat.sub firstn list_sum fold_right Nat.add];
    match goal with |- context [Z.of_nat ?a =? 2] => let v := eval vm_compute in (Z.of_nat a =? 2) in change (Z.of_nat a =? 2) with v; cbv iota | _ => idtac end;
    match goal with |- context [(?a + 2) / 5] => let v := eval vm_compute in ((a + 2) / 5) in change ((a + 2) / 5) with v | _ => idtac end;
    lia.
Qed.
