(** Byte strings, little-endian numbers and bounds-checked reads shared by
    the wire-format models (CfgPkt, Frame).  Bytes are [Z] in 0..255; a
    byte string is a list.  Nothing here models a particular source file,
    except that [rd] stands for a raw memory access. *)
From Verif Require Export Base.
Local Open Scope Z_scope.

(** Result of a call: a value, a refusal (exception / error code), or an
    access outside of the memory block (undefined behaviour). *)
Inductive res (A : Type) := Ok (a : A) | Err | Oob.
Arguments Ok {A} _.  Arguments Err {A}.  Arguments Oob {A}.

Definition bind {A B} (x : res A) (f : A -> res B) : res B :=
  match x with Ok a => f a | Err => Err | Oob => Oob end.
Notation "'do' x <- e ; f" := (bind e (fun x => f))
  (at level 60, x pattern, e at level 59, right associativity).

Definition is_byte (b : Z) : Prop := 0 <= b < 256.
Definition zlen {A} (l : list A) : Z := Z.of_nat (length l).

Definition w32 (z : Z) : Z := z mod 4294967296.
Definition w16 (z : Z) : Z := z mod 65536.

(** Little-endian encoding of [v] on [n] bytes, and its inverse. *)
Fixpoint le (n : nat) (v : Z) : list Z :=
  match n with O => [] | S n' => (v mod 256) :: le n' (v / 256) end.

Fixpoint unle (l : list Z) : Z :=
  match l with [] => 0 | b :: r => b + 256 * unle r end.

(** Raw read of [n] bytes at offset [off] of a memory block. *)
Definition rd (m : list Z) (off n : Z) : res (list Z) :=
  if (0 <=? off) && (0 <=? n) && (off + n <=? zlen m)
  then Ok (firstn (Z.to_nat n) (skipn (Z.to_nat off) m))
  else Oob.

Lemma zlen_app : forall {A} (a b : list A), zlen (a ++ b) = zlen a + zlen b.
Proof. intros; unfold zlen; rewrite app_length; lia. Qed.

Lemma zlen_cons : forall {A} (a : A) b, zlen (a :: b) = 1 + zlen b.
Proof. intros; unfold zlen; cbn [length]; lia. Qed.

Lemma zlen_nil : forall {A}, zlen (@nil A) = 0.
Proof. reflexivity. Qed.

Lemma zlen_nonneg : forall {A} (l : list A), 0 <= zlen l.
Proof. intros; unfold zlen; lia. Qed.

Lemma le_length : forall n v, length (le n v) = n.
Proof. induction n; intros; cbn [le length]; auto. Qed.

Lemma le_zlen : forall n v, zlen (le n v) = Z.of_nat n.
Proof. intros; unfold zlen; rewrite le_length; reflexivity. Qed.

Lemma unle_le : forall n v, 0 <= v < 256 ^ Z.of_nat n -> unle (le n v) = v.
Proof.
  induction n; intros v H.
  - cbn [le unle]. change (256 ^ Z.of_nat 0) with 1 in H. lia.
  - cbn [le unle]. rewrite IHn.
    + pose proof (Z.div_mod v 256). lia.
    + rewrite Nat2Z.inj_succ, Z.pow_succ_r in H by lia.
      split; [apply Z.div_pos; lia|].
      apply Z.div_lt_upper_bound; lia.
Qed.

Lemma le_bytes : forall n v, Forall is_byte (le n v).
Proof.
  induction n; intros; cbn [le]; constructor; auto.
  unfold is_byte. apply Z.mod_pos_bound. lia.
Qed.

Lemma unle_range : forall l, Forall is_byte l -> 0 <= unle l < 256 ^ zlen l.
Proof.
  induction l; intros H.
  - cbn [unle]. change (256 ^ zlen (@nil Z)) with 1. lia.
  - inversion H as [|x y Hb Hr]; subst. specialize (IHl Hr).
    cbn [unle]. rewrite zlen_cons, Z.pow_add_r by (pose proof (zlen_nonneg l); lia).
    change (256 ^ 1) with 256. unfold is_byte in Hb. nia.
Qed.

Lemma rd_prefix : forall a b, rd (a ++ b) 0 (zlen a) = Ok a.
Proof.
  intros. unfold rd. rewrite zlen_app.
  pose proof (zlen_nonneg a). pose proof (zlen_nonneg b).
  replace ((0 <=? 0) && (0 <=? zlen a) && (0 + zlen a <=? zlen a + zlen b)) with true by lia.
  cbn [Z.to_nat skipn]. unfold zlen. rewrite Nat2Z.id, firstn_app, Nat.sub_diag, firstn_all.
  cbn [firstn]. rewrite app_nil_r. reflexivity.
Qed.

Lemma rd_mid : forall a b c off n, off = zlen a -> n = zlen b ->
  rd (a ++ b ++ c) off n = Ok b.
Proof.
  intros a b c off n -> ->. unfold rd. rewrite !zlen_app.
  pose proof (zlen_nonneg a). pose proof (zlen_nonneg b). pose proof (zlen_nonneg c).
  replace ((0 <=? zlen a) && (0 <=? zlen b) && (zlen a + zlen b <=? zlen a + (zlen b + zlen c))) with true by lia.
  unfold zlen. rewrite !Nat2Z.id.
  rewrite skipn_app, skipn_all, Nat.sub_diag. cbn [skipn app].
  rewrite firstn_app, Nat.sub_diag, firstn_all. cbn [firstn]. rewrite app_nil_r. reflexivity.
Qed.

Lemma rd_end : forall a b off n, off = zlen a -> n = zlen b ->
  rd (a ++ b) off n = Ok b.
Proof.
  intros a b off n Ho Hn. rewrite <- (app_nil_r b) at 1. apply rd_mid; auto.
Qed.

Lemma rd_ok : forall m off n, 0 <= off -> 0 <= n -> off + n <= zlen m ->
  exists l, rd m off n = Ok l /\ zlen l = n /\
            exists p q, m = p ++ l ++ q /\ zlen p = off.
Proof.
  intros m off n H1 H2 H3. unfold rd.
  replace ((0 <=? off) && (0 <=? n) && (off + n <=? zlen m)) with true by lia.
  eexists; split; [reflexivity|]. unfold zlen in *. split.
  - rewrite firstn_length, skipn_length. lia.
  - exists (firstn (Z.to_nat off) m), (skipn (Z.to_nat n) (skipn (Z.to_nat off) m)).
    split.
    + rewrite firstn_skipn. rewrite firstn_skipn. reflexivity.
    + rewrite firstn_length. lia.
Qed.

Lemma rd_not_err : forall m off n, rd m off n <> Err.
Proof. intros; unfold rd; destruct (_ && _); discriminate. Qed.

Lemma Forall_mid : forall {A} (P : A -> Prop) p l q, Forall P (p ++ l ++ q) -> Forall P l.
Proof. intros A P p l q H. apply Forall_app in H. destruct H as [_ H]. apply Forall_app in H. tauto. Qed.
