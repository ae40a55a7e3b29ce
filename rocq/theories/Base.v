(** Shared vocabulary of all model files: machine-integer wrap-around and
    a few list lemmas.  Nothing here models a particular source file. *)
From Coq Require Export List Arith ZArith NArith Bool Lia.
From Coq Require Export ZifyBool ZifyNat ZifyN.
Export ListNotations.

(** [SizeT] / [uint64_t] arithmetic wraps modulo 2^64. *)
Definition two64 : Z := 18446744073709551616%Z.
Definition w64 (z : Z) : Z := (z mod two64)%Z.

(** [int64_t]: results outside of this range are undefined behaviour in C++. *)
Definition in_i64 (z : Z) : bool :=
  ((-9223372036854775808 <=? z) && (z <=? 9223372036854775807))%Z.

Lemma w64_small : forall z, (0 <= z < two64)%Z -> w64 z = z.
Proof. intros z H. unfold w64. apply Z.mod_small. exact H. Qed.

Lemma w64_add_l : forall a b, w64 (w64 a + b) = w64 (a + b).
Proof. intros a b. unfold w64. apply Zplus_mod_idemp_l. Qed.

Lemma w64_sub_l : forall a b, w64 (w64 a - b) = w64 (a - b).
Proof. intros a b. unfold w64. apply Zminus_mod_idemp_l. Qed.

Lemma w64_idem : forall a, w64 (w64 a) = w64 a.
Proof. intros a. unfold w64. apply Z.mod_mod. unfold two64. lia. Qed.
