(** C31: ratios behave as rational numbers. *)
From Verif Require Import Base Ratio_Model Ratio_Spec Ratio_Proofs.
From Coq Require Import SpecFloat.
Local Open Scope Z_scope.

(** Simplifying keeps the value, reaches lowest terms and keeps the sign of
    the denominator (the property asks for a positive one, see below). *)
Theorem c31_simplify_partial : forall a r, proper r ->
  exists s, simplify a r = Val s /\ same_value r s /\ lowest_terms s /\ proper s /\ (0 < rden r <-> 0 < rden s).
Proof.
  intros a r P. destruct (simplify_ok a r P) as (s & E & V & PS & G & S). exists s. split; auto. split; auto.
  split; [now apply gcd_lowest|]. split; auto. destruct P as (_ & _ & P). destruct PS as (_ & _ & PS). lia.
Qed.

(** equals holds exactly for equal values with denominators of the same sign. *)
Theorem c31_equals_iff : forall x y, proper x -> proper y ->
  (equals x y = Val true \/ equals x y = Val false)
  /\ (equals x y = Val true <-> same_value x y /\ (0 < rden x <-> 0 < rden y)).
Proof.
  intros x y Px Py. destruct (equals_ok x y Px Py) as (b & E & K). rewrite E. split; [destruct b; auto|].
  destruct Px as (_ & _ & Dx). destruct Py as (_ & _ & Dy).
  assert (S : Z.sgn (rden x) = Z.sgn (rden y) <-> (0 < rden x <-> 0 < rden y)) by lia.
  rewrite <- S, <- K. split; [intros Q; now inversion Q|now intros ->].
Qed.

(** With positive denominators: exactly equal rational numbers. *)
Theorem c31_equals_partial : forall x y, proper x -> proper y -> 0 < rden x -> 0 < rden y ->
  (equals x y = Val true <-> same_value x y).
Proof. intros x y Px Py X Y. destruct (c31_equals_iff x y Px Py) as [_ ->]. intuition lia. Qed.

(** equals is an equivalence *)
Theorem c31_equals_equivalence : forall x y z, proper x -> proper y -> proper z ->
  equals x x = Val true
  /\ (equals x y = Val true -> equals y x = Val true)
  /\ (equals x y = Val true -> equals y z = Val true -> equals x z = Val true).
Proof.
  intros x y z Px Py Pz.
  destruct (c31_equals_iff x x Px Px) as [_ K1]. destruct (c31_equals_iff x y Px Py) as [_ K2]. destruct (c31_equals_iff y x Py Px) as [_ K3].
  destruct (c31_equals_iff y z Py Pz) as [_ K4]. destruct (c31_equals_iff x z Px Pz) as [_ K5].
  destruct Px as (_ & _ & Dx). destruct Py as (_ & _ & Dy). destruct Pz as (_ & _ & Dz).
  split; [apply K1; split; [reflexivity|tauto]|]. split.
  - intros H. apply K2 in H. destruct H as [A B]. apply K3. split; [now symmetry|tauto].
  - intros H G. apply K2 in H. apply K4 in G. destruct H as [A B]. destruct G as [C D]. apply K5. split; [eapply same_value_trans with (y := y); eauto|tauto].
Qed.

(** A ratio is equal to its simplification. *)
Theorem c31_simplify_equals : forall a r s, proper r -> simplify a r = Val s -> equals r s = Val true.
Proof.
  intros a r s P E. destruct (c31_simplify_partial a r P) as (s' & E' & V & _ & PS & SG). rewrite E in E'. inversion E'; subst s'.
  apply c31_equals_iff; auto.
Qed.

(** A zero denominator is refused, whatever produced it. *)
Theorem c31_zero_denominator : forall a n d,
  (create a n d = Throws <-> d = 0) /\ (d <> 0 -> create a n d = Val {| addr := a; rnum := n; rden := d |}).
Proof.
  intros a n d. split; [|apply create_ok]. unfold create. destruct (Z.eqb_spec d 0); split; intros; auto; try discriminate; tauto.
Qed.

(** Products and quotients, when defined, have the right value; simplified
    ones are in lowest terms as well. *)
Theorem c31_arithmetic : forall a x y z,
  (times a x y = Val z -> is_product x y z /\ rden z <> 0)
  /\ (over a x y = Val z -> is_quotient x y z /\ rden z <> 0)
  /\ (stimes a x y = Val z -> is_product x y z /\ rden z <> 0 /\ lowest_terms z)
  /\ (sover a x y = Val z -> is_quotient x y z /\ rden z <> 0 /\ lowest_terms z).
Proof.
  intros a x y z. split; [|split; [|split]].
  - unfold times. destruct (Z.eqb_spec (rden x) 0) as [|D1]; [discriminate|]. destruct (Z.eqb_spec (rden y) 0) as [|D2]; [discriminate|].
    destruct (mul64_cases (rnum x) (rnum y)) as [-> | ->]; [|discriminate]. destruct (mul64_cases (rden x) (rden y)) as [-> | ->]; [|discriminate].
    rewrite create_ok by nia. intros E. inversion E. unfold is_product. cbn [rnum rden]. split; nia.
  - unfold over. destruct (Z.eqb_spec (rden x) 0) as [|D1]; [discriminate|]. destruct (Z.eqb_spec (rnum y) 0) as [|D2]; [discriminate|].
    destruct (mul64_cases (rnum x) (rden y)) as [-> | ->]; [|discriminate]. destruct (mul64_cases (rden x) (rnum y)) as [-> | ->]; [|discriminate].
    rewrite create_ok by nia. intros E. inversion E. unfold is_quotient. cbn [rnum rden]. split; nia.
  - intros E. destruct (multiply_sound _ _ _ _ _ _ E) as (A & B & C & _). unfold is_product. split; auto. split; auto. now apply gcd_lowest.
  - intros E. destruct (multiply_sound _ _ _ _ _ _ E) as (A & B & C & _). unfold is_quotient. split; auto. split; auto. now apply gcd_lowest.
Qed.

(** Simplified multiplication of positive ratios overflows only when the
    result itself does not fit. *)
Theorem c31_no_spurious_overflow_partial : forall a x y z, proper x -> proper y -> proper z ->
  lowest_terms x -> lowest_terms y -> lowest_terms z ->
  0 < rnum x -> 0 < rden x -> 0 < rnum y -> 0 < rden y -> 0 < rden z ->
  is_product x y z -> stimes a x y = Val {| addr := a; rnum := rnum z; rden := rden z |}.
Proof.
  intros a x y z (A1 & A2 & A3) (B1 & B2 & B3) (C1 & C2 & C3) L1 L2 L3 P1 P2 P3 P4 P5 H.
  apply multiply_complete; auto using lowest_gcd.
Qed.

(** ** Where the property fails *)

(** A negative denominator stays negative, and the same number written with
    the sign in the denominator is not equal. *)
Theorem c31_negative_denominator_refuted : exists x y s,
  proper x /\ proper y /\ same_value x y /\ equals x y = Val false /\ simplify 3 x = Val s /\ rden s < 0.
Proof.
  exists {| addr := 1; rnum := 1; rden := -2 |}, {| addr := 2; rnum := -1; rden := 2 |}, {| addr := 3; rnum := 1; rden := -2 |}.
  unfold proper, ordinary, same_value. cbn [rnum rden]. repeat split; try lia; reflexivity.
Qed.

(** Equal ratios have different hash codes unless they are the same object. *)
Theorem c31_hash_refuted : forall x a, proper x -> a <> addr x ->
  exists y, create a (rnum x) (rden x) = Val y /\ equals x y = Val true /\ getHashCode x <> getHashCode y.
Proof.
  intros x a P H. pose proof P as (P1 & P2 & D). eexists. split; [now apply create_ok|]. split; [|unfold getHashCode; cbn [addr]; auto].
  apply c31_equals_iff; auto. split; [reflexivity|]. reflexivity.
Qed.

(** The smallest Int as numerator or denominator makes simplify undefined. *)
Theorem c31_smallest_int_refuted : forall a d b, simplify a {| addr := b; rnum := int_min; rden := d |} = Undefined
  /\ simplify a {| addr := b; rnum := d; rden := int_min |} = Undefined.
Proof. intros. unfold simplify, simplify64, gcd64. cbn [rnum rden]. rewrite Z.eqb_refl, orb_true_r. split; reflexivity. Qed.

(** == on ratio pointers compares doubles: different ratios, equal pointers. *)
Theorem c31_pointer_equality_refuted : exists x y, proper x /\ proper y /\ 0 < rden x /\ 0 < rden y
  /\ pointer_equal x y = true /\ equals x y = Val false.
Proof.
  exists {| addr := 1; rnum := 9007199254740992; rden := 1 |}, {| addr := 2; rnum := 9007199254740993; rden := 1 |}.
  unfold proper, ordinary. cbn [rnum rden]. repeat split; try lia; vm_compute; reflexivity.
Qed.

(** Simplified multiplication with a negative numerator overflows although
    the result is small. *)
Theorem c31_spurious_overflow_refuted : exists x y z, proper x /\ proper y /\ proper z /\ is_product x y z
  /\ lowest_terms x /\ lowest_terms y /\ stimes 3 x y = Undefined.
Proof.
  exists {| addr := 1; rnum := -1099511627776; rden := 1 |}, {| addr := 2; rnum := 1099511627777; rden := 1099511627776 |},
         {| addr := 3; rnum := -1099511627777; rden := 1 |}.
  unfold proper, ordinary, is_product. cbn [rnum rden]. repeat split; try lia; try reflexivity;
    apply gcd_lowest; reflexivity.
Qed.

(** ** Concrete cases *)
Example c31_ex : let x := {| addr := 1; rnum := 6; rden := 4 |} in let y := {| addr := 2; rnum := 9; rden := 6 |} in
  proper x /\ proper y /\ simplify 3 x = Val {| addr := 3; rnum := 3; rden := 2 |} /\ equals x y = Val true
  /\ stimes 4 x y = Val {| addr := 4; rnum := 9; rden := 4 |} /\ times 4 x y = Val {| addr := 4; rnum := 54; rden := 24 |}
  /\ sover 4 x y = Val {| addr := 4; rnum := 1; rden := 1 |} /\ pointer_equal x y = true.
Proof. unfold proper, ordinary. cbn [rnum rden]. repeat split; try lia; vm_compute; reflexivity. Qed.

Print Assumptions c31_simplify_partial.
Print Assumptions c31_equals_iff.
Print Assumptions c31_equals_partial.
Print Assumptions c31_equals_equivalence.
Print Assumptions c31_simplify_equals.
Print Assumptions c31_zero_denominator.
Print Assumptions c31_arithmetic.
Print Assumptions c31_no_spurious_overflow_partial.
Print Assumptions c31_negative_denominator_refuted.
Print Assumptions c31_hash_refuted.
Print Assumptions c31_smallest_int_refuted.
Print Assumptions c31_pointer_equality_refuted.
Print Assumptions c31_spurious_overflow_refuted.
