(** Keys, dictionaries as maps, and equality of nested data. *)
From Verif Require Import Base Cont_Model Cont_Spec Cont_Proofs.
From Coq Require Import SpecFloat.
Local Open Scope Z_scope.

(** * Scalars *)

Lemma pcc_eq : forall p q, Pos.compare_cont Eq p q = Eq -> p = q.
Proof. intros p q H. apply Pos.compare_eq. exact H. Qed.

Lemma sfeqb_number : forall f g, SFeqb f g = true <-> number f = number g /\ g <> S754_nan.
Proof.
  intros f g. unfold SFeqb, SFcompare.
  destruct f as [s|s| |s m e], g as [s'|s'| |s' m' e']; try destruct s; try destruct s'; cbn [number];
    try (split; [discriminate|intros [A B]; first [discriminate|now elim B]]);
    try (split; [intros _; split; [reflexivity|discriminate]|reflexivity]).
  - split; [intros A|intros [A B]].
    + destruct (Z.compare e e') eqn:C; try discriminate.
      apply Z.compare_eq in C. subst e'.
      destruct (Pos.compare_cont Eq m m') eqn:D; cbn [CompOpp] in A; try discriminate.
      apply pcc_eq in D. subst m'. split; [reflexivity|discriminate].
    + injection A as -> ->. rewrite Z.compare_refl. change (Pos.compare_cont Eq m' m') with (Pos.compare m' m').
      now rewrite Pos.compare_refl.
  - split; [intros A|intros [A B]].
    + destruct (Z.compare e e') eqn:C; try discriminate.
      apply Z.compare_eq in C. subst e'.
      destruct (Pos.compare_cont Eq m m') eqn:D; try discriminate.
      apply pcc_eq in D. subst m'. split; [reflexivity|discriminate].
    + injection A as -> ->. rewrite Z.compare_refl. change (Pos.compare_cont Eq m' m') with (Pos.compare m' m').
      now rewrite Pos.compare_refl.
Qed.

Lemma bytes_eqb_iff : forall a b, bytes_eqb a b = true <-> a = b.
Proof.
  induction a as [|x a IH]; intros [|y b]; cbn [bytes_eqb]; split; intros H; try discriminate; try reflexivity.
  - apply andb_true_iff in H. destruct H as [A B]. apply Z.eqb_eq in A. apply IH in B. congruence.
  - injection H as -> ->. apply andb_true_iff. split; [apply Z.eqb_refl|now apply IH].
Qed.
Lemma c_str_id : forall s, ~ In 0 s -> c_str s = s.
Proof.
  induction s as [|b s IH]; intros N; [reflexivity|]. cbn [c_str].
  destruct (Z.eqb_spec b 0) as [->|_]; [exfalso; apply N; now left|].
  rewrite IH; [reflexivity|]. intros A. apply N. now right.
Qed.
Lemma str_equal_iff : forall s t, ~ In 0 s -> ~ In 0 t -> str_equal s t = true <-> s = t.
Proof.
  intros s t A B. unfold str_equal. rewrite (c_str_id s A), (c_str_id t B), andb_true_iff, bytes_eqb_iff.
  split; [now intros [_ H]|]. intros ->. split; [apply Z.eqb_refl|reflexivity].
Qed.

Lemma rat_equal_iff : forall n d n' d', 0 < d -> 0 < d' -> rat_equal n d n' d' = true <-> n * d' = n' * d.
Proof.
  intros n d n' d' P P'. unfold rat_equal.
  assert (E : forall n d, 0 < d -> exists g p q, simp n d = (p, q) /\ 0 < g /\ n = g * p /\ d = g * q /\ Z.gcd p q = 1 /\ 0 < q).
  { clear. intros n d P. unfold simp.
    assert (G : 0 < Z.gcd n d).
    { assert (0 <= Z.gcd n d) by apply Z.gcd_nonneg.
      assert (Z.gcd n d <> 0) by (intros A; apply Z.gcd_eq_0_r in A; lia). lia. }
    destruct (Z.gcd_divide_l n d) as [p Hp]. destruct (Z.gcd_divide_r n d) as [q Hq].
    set (g := Z.gcd n d) in *.
    assert (C : Z.gcd p q = 1).
    { assert (X : Z.gcd n d = g) by reflexivity.
      rewrite Hp, Hq, Z.gcd_mul_mono_r_nonneg in X by lia. nia. }
    assert (Q : 0 < q) by nia.
    destruct (Z.leb_spec g 1).
    - assert (g = 1) by lia. exists 1, n, d. replace n with p by nia. replace d with q by nia.
      repeat split; try lia.
    - exists g, p, q. rewrite Hp at 1. rewrite Hq at 1. rewrite !Z.quot_mul by lia.
      repeat split; try lia. }
  destruct (E n d P) as (g & p & q & E1 & G & N & D & C & Q).
  destruct (E n' d' P') as (g' & p' & q' & E1' & G' & N' & D' & C' & Q').
  rewrite E1, E1'. subst n d n' d'. rewrite andb_true_iff, !Z.eqb_eq. split.
  - intros [-> ->]. ring.
  - intros H. assert (H1 : p * q' = p' * q).
    { apply (Z.mul_reg_l _ _ (g * g')); [nia|]. transitivity (g * p * (g' * q')); [ring|]. rewrite H. ring. }
    assert (Dq : (q | q')).
    { apply (Z.gauss q p q'); [exists p'; lia|]. now rewrite Z.gcd_comm. }
    assert (Dq' : (q' | q)).
    { apply (Z.gauss q' p' q); [exists p; lia|]. now rewrite Z.gcd_comm. }
    assert (q = q') by (apply Z.divide_antisym_nonneg; lia || assumption). subst q'.
    split; [nia|reflexivity].
Qed.

(** * Keys *)

Lemma key_fun : forall k d d', key_is k d -> key_is k d' -> d = d'.
Proof. intros k d d' A B. destruct A; inversion B; reflexivity. Qed.
Lemma key_depth : forall k d, key_is k d -> depth k = 1%nat.
Proof. intros k d A. now destruct A. Qed.
Lemma is_key_refl : forall d, is_key d d = true.
Proof. intros d. unfold is_key. now destruct (kdata_dec d d). Qed.
Lemma is_key_iff : forall d d', is_key d d' = true <-> d = d'.
Proof. intros. unfold is_key. destruct (kdata_dec d d'); split; intros X; (assumption || reflexivity || discriminate || contradiction). Qed.
Lemma is_key_neq : forall d d', d <> d' -> is_key d d' = false.
Proof. intros. unfold is_key. now destruct (kdata_dec d d'). Qed.

Lemma b2e_bool : forall b c, (b = true <-> c = true) -> b2e b = b2e c.
Proof. intros [|] [|] H; try reflexivity; exfalso; destruct H as [A B]; (specialize (A eq_refl) || specialize (B eq_refl)); discriminate. Qed.

Lemma in_size_not_nan : forall f, in_size f -> f <> S754_nan.
Proof. intros f H ->. exact H. Qed.

Lemma scal_key : forall a s d k' d', key_is (OScal a s) d -> key_is k' d' ->
  scal_equal a s (Some k') = b2e (is_key d d').
Proof.
  intros a s d k' d' A B.
  inversion A; subst; inversion B; subst; cbn [scal_equal]; try (rewrite is_key_neq by discriminate; reflexivity);
    apply b2e_bool; rewrite is_key_iff.
  - rewrite Z.eqb_eq. split; [intros ->; reflexivity|]. intros X. now injection X.
  - rewrite sfeqb_number. split.
    + intros [X _]. now rewrite X.
    + intros X. injection X as X. split; [now symmetry|]. now apply in_size_not_nan.
  - rewrite Bool.eqb_true_iff. split; [intros ->; reflexivity|]. intros X. now injection X.
  - rewrite str_equal_iff by assumption. split; [intros ->; reflexivity|]. intros X. now injection X.
Qed.

(** the hash code is a function of the data *)
Lemma to_size_some : forall f, in_size f -> exists h, to_size f = Some h.
Proof.
  intros f H. destruct f as [s|s| |s m e]; cbn [in_size] in H; try contradiction; cbn [to_size]; [eauto|].
  destruct s; [contradiction|]. cbv zeta.
  assert (L : (if 0 <=? e then Z.pos m * 2 ^ e else Z.pos m / 2 ^ (- e)) < two64).
  { change two64 with (2 ^ 64). destruct H as [[E H]|[E H]]; destruct (Z.leb_spec 0 e); try lia.
    apply Z.div_lt_upper_bound; [apply Z.pow_pos_nonneg; lia|]. lia. }
  apply Z.ltb_lt in L. rewrite L. eauto.
Qed.
Lemma key_hash_ok : forall k d, key_is k d -> exists h, hash k = Some h /\ forall k', key_is k' d -> hash k' = Some h.
Proof.
  intros k d A. destruct A as [a i|a f H|a b|a s H].
  - eexists. split; [reflexivity|]. intros k' B. inversion B; subst. reflexivity.
  - destruct (to_size_some f H) as [h E]. exists h. split; [exact E|]. intros k' B. inversion B; subst.
    cbn [hash]. assert (X : to_size f = to_size f0).
    { destruct f, f0; cbn [number] in *; try congruence; try reflexivity. }
    now rewrite <- X.
  - eexists. split; [reflexivity|]. intros k' B. inversion B; subst. reflexivity.
  - eexists. split; [reflexivity|]. intros k' B. inversion B; subst. reflexivity.
Qed.

(** * The table *)
Section Table.
Variable eq : obj -> option obj -> eres.
Hypothesis eq_keys : forall k d k' d', key_is k d -> key_is k' d' -> eq k (Some k') = b2e (is_key d d').

Lemma find_from_ok : forall k d h es ds i,
  key_is k d -> hash k = Some h -> Forall2 key_is (map fst es) ds ->
  (exists j, find_from eq h (Some k) es i = FAt (i + j) /\ nth_error ds j = Some d) \/
  (find_from eq h (Some k) es i = FNone /\ ~ In d ds).
Proof.
  intros k d h es. induction es as [|[k' v] es IH]; intros ds i K Hh F; inversion F as [|? d' ? ds' K' F' E1 E2]; subst.
  - right. split; [reflexivity|]. intros [].
  - cbn [find_from]. destruct (key_hash_ok k d K) as (h0 & H0 & Hsame). rewrite Hh in H0. injection H0 as <-.
    destruct (key_hash_ok k' d' K') as (h' & H' & _). cbn [fst] in H'. rewrite H'.
    destruct (kdata_dec d d') as [->|N].
    + rewrite (Hsame k' K') in H'. injection H' as <-. rewrite Z.eqb_refl, (eq_keys k d' k' d' K K'), is_key_refl.
      cbn [b2e]. left. exists O. now rewrite Nat.add_0_r.
    + assert (X : (exists j, find_from eq h (Some k) es (S i) = FAt (i + S j) /\ nth_error ds' j = Some d) \/
                  (find_from eq h (Some k) es (S i) = FNone /\ ~ In d ds')).
      { destruct (IH ds' (S i) K Hh F') as [(j & A & B)|A]; [left; exists j|now right].
        split; [rewrite A; f_equal; lia|exact B]. }
      assert (Y : (if h' =? h then match eq k (Some k') with Yes => FAt i | No => find_from eq h (Some k) es (S i) | _ => FUndef end
                   else find_from eq h (Some k) es (S i)) = find_from eq h (Some k) es (S i)).
      { destruct (h' =? h); [|reflexivity]. now rewrite (eq_keys k d k' d' K K'), (is_key_neq d d' N). }
      rewrite Y. destruct X as [(j & A & B)|(A & B)].
      * left. exists (S j). split; [exact A|exact B].
      * right. split; [exact A|]. intros [<-|C]; [now apply N|now apply B].
Qed.

Lemma find_ok : forall k d es ds,
  key_is k d -> Forall2 key_is (map fst es) ds ->
  (exists j, find eq es (Some k) = FAt j /\ nth_error ds j = Some d) \/ (find eq es (Some k) = FNone /\ ~ In d ds).
Proof.
  intros k d es ds K F. destruct (key_hash_ok k d K) as (h & H & _).
  unfold find. cbn [key_hash]. rewrite H. exact (find_from_ok k d h es ds 0 K H F).
Qed.
End Table.

Lemma equals_keys : forall k d k' d', key_is k d -> key_is k' d' -> equals k (Some k') = b2e (is_key d d').
Proof.
  intros k d k' d' A B. unfold equals. rewrite (key_depth _ _ A), (key_depth _ _ B).
  assert (X : exists a s, k = OScal a s) by (destruct A; eauto). destruct X as (a & s & ->).
  cbn [Nat.add eqn]. exact (scal_key _ _ _ _ _ A B).
Qed.
Lemma eqn_keys : forall n k d k' d', key_is k d -> key_is k' d' -> eqn (S n) k (Some k') = b2e (is_key d d').
Proof.
  intros n k d k' d' A B.
  assert (X : exists a s, k = OScal a s) by (destruct A; eauto). destruct X as (a & s & ->).
  cbn [eqn]. exact (scal_key _ _ _ _ _ A B).
Qed.

(** * Dictionaries refine maps *)

Record R (d : dct) (m : amap) : Prop := {
  r_keys : Forall2 key_is (map fst (dents d)) (aorder m);
  r_nodup : NoDup (aorder m);
  r_vals : map (am m) (aorder m) = map Some (map snd (dents d));
  r_none : forall k, ~ In k (aorder m) -> am m k = None;
  r_frozen : afrozen m = dfrozen d }.

Lemma Forall2_nth : forall A B (P : A -> B -> Prop) l m i y, Forall2 P l m -> nth_error m i = Some y ->
  exists x, nth_error l i = Some x /\ P x y.
Proof.
  intros A B P l m i y F. revert i. induction F; intros [|i] E; try discriminate; cbn [nth_error] in *.
  - injection E as <-. eauto.
  - eauto.
Qed.

Lemma Forall2_len : forall A B (P : A -> B -> Prop) l m, Forall2 P l m -> length l = length m.
Proof. intros A B P l m F. induction F; cbn [length]; congruence. Qed.

Lemma entry_of : forall d m i k, R d m -> nth_error (aorder m) i = Some k ->
  exists k' v, nth_error (dents d) i = Some (k', v) /\ key_is k' k /\ am m k = Some v.
Proof.
  intros d m i k Rm E. destruct (Forall2_nth _ _ _ _ _ _ _ (r_keys _ _ Rm) E) as (k' & E' & K).
  rewrite nth_error_map in E'. destruct (nth_error (dents d) i) as [[k0 v]|] eqn:En; [|discriminate].
  injection E' as <-. exists k0, v. split; [reflexivity|]. split; [exact K|].
  assert (X : nth_error (map (am m) (aorder m)) i = nth_error (map Some (map snd (dents d))) i) by now rewrite (r_vals _ _ Rm).
  rewrite !nth_error_map, E, En in X. now injection X.
Qed.

Lemma map_vset : forall A B (f : A -> B) i x l, map f (vset i x l) = vset i (f x) (map f l).
Proof. induction i as [|i IH]; intros x [|y l]; cbn [vset map]; try reflexivity. now rewrite IH. Qed.
Lemma map_verase : forall A B (f : A -> B) i l, map f (verase i l) = verase i (map f l).
Proof. induction i as [|i IH]; intros [|y l]; cbn [verase map]; try reflexivity. now rewrite IH. Qed.
Lemma vset_same : forall A i (x : A) l, nth_error l i = Some x -> vset i x l = l.
Proof.
  induction i as [|i IH]; intros x [|y l] E; try discriminate; cbn [vset nth_error] in *; [congruence|].
  now rewrite IH.
Qed.
Lemma Forall2_verase : forall A B (P : A -> B -> Prop) i l m, Forall2 P l m -> Forall2 P (verase i l) (verase i m).
Proof.
  intros A B P i l m F. revert i. induction F; intros [|i]; cbn [verase]; auto.
Qed.
Lemma filter_verase : forall d ds i, NoDup ds -> nth_error ds i = Some d ->
  filter (fun k' => negb (is_key d k')) ds = verase i ds.
Proof.
  intros d ds. induction ds as [|x ds IH]; intros i N E; [now destruct i|].
  inversion N as [|? ? A B]; subst. destruct i as [|i]; cbn [nth_error verase filter] in *.
  - injection E as ->. rewrite is_key_refl. cbn [negb].
    assert (G : forall l, ~ In d l -> filter (fun k' => negb (is_key d k')) l = l).
    { clear. induction l as [|y l IH]; intros N; [reflexivity|]. cbn [filter].
      rewrite is_key_neq by (intros ->; apply N; now left). cbn [negb]. f_equal. apply IH. intros C. apply N. now right. }
    now apply G.
  - assert (x <> d) by (intros ->; apply A; now apply nth_error_In in E).
    rewrite is_key_neq by congruence. cbn [negb]. now rewrite (IH i B E).
Qed.
Lemma nodup_verase : forall A i (l : list A), NoDup l -> NoDup (verase i l).
Proof.
  intros A. induction i as [|i IH]; intros [|y l] N; cbn [verase]; try exact N.
  - now inversion N.
  - inversion N as [|? ? B C]; subst. constructor; [|now apply IH].
    intros X. apply B. clear -X. revert i X. induction l as [|z l IH]; intros [|i] X; cbn [verase] in X; try contradiction.
    + now right.
    + destruct X as [->|X]; [now left|right; now apply (IH i)].
Qed.
Lemma map_ext_vset : forall A (f g : kdata -> A) ds i d, NoDup ds -> nth_error ds i = Some d ->
  (forall k, k <> d -> g k = f k) -> map g ds = vset i (g d) (map f ds).
Proof.
  intros A f g ds. induction ds as [|x ds IH]; intros i d N E H; [now destruct i|].
  inversion N as [|? ? B C]; subst. destruct i as [|i]; cbn [nth_error map vset] in *.
  - injection E as ->. f_equal. apply map_ext_in. intros a Ia. apply H. intros ->. contradiction.
  - rewrite (IH i d C E H). f_equal. apply H. intros ->. apply B. now apply nth_error_In in E.
Qed.
Lemma vset_ext : forall A i (x : A) l l', (forall j, j <> i -> nth_error l j = nth_error l' j) -> length l = length l' ->
  vset i x l = vset i x l'.
Proof.
  induction i as [|i IH]; intros x [|y l] [|y' l'] H L; cbn [length vset] in *; try lia; try reflexivity.
  - f_equal. clear - H. revert l' H. induction l as [|z l IHl]; intros l' H.
    + destruct l'; [reflexivity|]. exfalso. specialize (H 1%nat ltac:(lia)). discriminate.
    + destruct l' as [|z' l']; [exfalso; specialize (H 1%nat ltac:(lia)); discriminate|].
      assert (z = z') by (specialize (H 1%nat ltac:(lia)); cbn [nth_error] in H; congruence). subst. f_equal.
      apply IHl. intros [|j] J; [congruence|]. specialize (H (S (S j)) ltac:(lia)). exact H.
  - f_equal; [specialize (H O ltac:(lia)); cbn [nth_error] in H; congruence|].
    apply IH; [|lia]. intros j J. exact (H (S j) ltac:(lia)).
Qed.

Lemma R_put_old : forall d m i k k' v old, R d m -> dfrozen d = false ->
  nth_error (aorder m) i = Some k -> nth_error (dents d) i = Some (k', old) -> am m k = Some old ->
  R (dput d (vset i (k', v) (dents d))) (put_key k v m).
Proof.
  intros d m i k k' v old Rm F E En Am. unfold put_key. rewrite Am. constructor; cbn [am aorder afrozen dents dput dfrozen].
  - rewrite map_vset. cbn [fst]. rewrite vset_same; [exact (r_keys _ _ Rm)|]. now rewrite nth_error_map, En.
  - exact (r_nodup _ _ Rm).
  - rewrite !map_vset. cbn [snd]. rewrite <- (r_vals _ _ Rm).
    rewrite (map_ext_vset _ (am m) (fun k'0 => if is_key k k'0 then Some v else am m k'0) _ i k (r_nodup _ _ Rm) E).
    + now rewrite is_key_refl.
    + intros k0 N. rewrite is_key_neq by congruence. reflexivity.
  - intros k0 N. destruct (kdata_dec k k0) as [<-|Ne].
    + exfalso. apply N. now apply nth_error_In in E.
    + rewrite is_key_neq by exact Ne. now apply (r_none _ _ Rm).
  - exact (r_frozen _ _ Rm).
Qed.

Lemma R_put_new : forall d m k k' v, R d m -> ~ In k (aorder m) -> key_is k' k ->
  R (dput d (dents d ++ [(k', v)])) (put_key k v m).
Proof.
  intros d m k k' v Rm N K. unfold put_key. rewrite (r_none _ _ Rm k N). constructor; cbn [am aorder afrozen dents dput dfrozen].
  - rewrite map_app. apply Forall2_app; [exact (r_keys _ _ Rm)|]. cbn [map fst]. constructor; [exact K|constructor].
  - assert (G : forall l, NoDup l -> ~ In k l -> NoDup (l ++ [k])).
    { clear. induction l as [|x l IH]; intros A B; cbn [app]; [repeat constructor; exact B|].
      inversion A as [|? ? C D]; subst. constructor.
      - intros X. apply in_app_or in X. destruct X as [X|[->|[]]]; [contradiction|]. apply B. now left.
      - apply IH; [exact D|]. intros X. apply B. now right. }
    apply G; [exact (r_nodup _ _ Rm)|exact N].
  - rewrite !map_app. cbn [map snd]. rewrite is_key_refl, <- (r_vals _ _ Rm). f_equal.
    apply map_ext_in. intros k0 I0. rewrite is_key_neq; [reflexivity|]. intros ->. contradiction.
  - intros k0 N0. rewrite is_key_neq; [apply (r_none _ _ Rm); intros A; apply N0; apply in_or_app; now left|].
    intros ->. apply N0. apply in_or_app. right. now left.
  - exact (r_frozen _ _ Rm).
Qed.

Lemma R_drop : forall d m i k, R d m -> nth_error (aorder m) i = Some k ->
  R (dput d (verase i (dents d))) (drop_key k m).
Proof.
  intros d m i k Rm E. unfold drop_key. constructor; cbn [am aorder afrozen dents dput dfrozen].
  - rewrite (filter_verase k _ i (r_nodup _ _ Rm) E), map_verase. apply Forall2_verase. exact (r_keys _ _ Rm).
  - rewrite (filter_verase k _ i (r_nodup _ _ Rm) E). apply nodup_verase. exact (r_nodup _ _ Rm).
  - rewrite !map_verase, <- (r_vals _ _ Rm), <- map_verase, <- (filter_verase k _ i (r_nodup _ _ Rm) E).
    apply map_ext_in. intros k0 I0. apply filter_In in I0. destruct I0 as [_ B].
    destruct (is_key k k0); [discriminate|reflexivity].
  - intros k0 N. destruct (is_key k k0) eqn:X; [reflexivity|]. apply (r_none _ _ Rm). intros A. apply N.
    apply filter_In. split; [exact A|]. now rewrite X.
  - exact (r_frozen _ _ Rm).
Qed.

Lemma R_drop_none : forall d m k, R d m -> ~ In k (aorder m) -> R d (drop_key k m).
Proof.
  intros d m k Rm N. unfold drop_key.
  assert (G : filter (fun k' => negb (is_key k k')) (aorder m) = aorder m).
  { clear Rm. induction (aorder m) as [|y l IH]; [reflexivity|]. cbn [filter].
    rewrite is_key_neq by (intros ->; apply N; now left). cbn [negb]. f_equal. apply IH. intros C. apply N. now right. }
  constructor; cbn [am aorder afrozen]; rewrite ?G.
  - exact (r_keys _ _ Rm).
  - exact (r_nodup _ _ Rm).
  - rewrite <- (r_vals _ _ Rm). apply map_ext_in. intros k0 I0. rewrite is_key_neq; [reflexivity|]. intros ->. contradiction.
  - intros k0 N0. destruct (is_key k k0); [reflexivity|]. now apply (r_none _ _ Rm).
  - exact (r_frozen _ _ Rm).
Qed.

Lemma answer_step : forall d m o a, R d m -> op_is o a ->
  answer m a (snd (fst (dstep d o))) /\ R (fst (fst (dstep d o))) (anext m a).
Proof.
  intros d m o a Rm O. pose proof (r_frozen _ _ Rm) as F. destruct O as [k x K|k x v K|k x K|k x K| | |k x K| | | |]; cbn [dstep answer]; unfold anext.
  - unfold d_get. destruct (find_ok equals equals_keys k x _ _ K (r_keys _ _ Rm)) as [(j & A & B)|(A & B)]; rewrite A.
    + destruct (entry_of _ _ _ _ Rm B) as (k' & v & E & _ & Am). rewrite E. cbn [fst snd]. rewrite Am.
      split; [reflexivity|]. now destruct (afrozen m).
    + cbn [fst snd]. rewrite (r_none _ _ Rm x B). split; [reflexivity|]. now destruct (afrozen m).
  - unfold d_set. rewrite F. destruct (dfrozen d) eqn:Fd; cbn [fst snd].
    { split; [reflexivity|exact Rm]. }
    destruct (find_ok equals equals_keys k x _ _ K (r_keys _ _ Rm)) as [(j & A & B)|(A & B)]; rewrite A.
    + destruct (entry_of _ _ _ _ Rm B) as (k' & old & E & _ & Am). rewrite E. cbn [fst snd].
      split; [reflexivity|]. exact (R_put_old _ _ _ _ _ _ _ Rm Fd B E Am).
    + cbn [fst snd]. split; [reflexivity|]. now apply R_put_new.
  - unfold d_take. rewrite F. destruct (dfrozen d) eqn:Fd; cbn [fst snd].
    { split; [reflexivity|exact Rm]. }
    destruct (find_ok equals equals_keys k x _ _ K (r_keys _ _ Rm)) as [(j & A & B)|(A & B)]; rewrite A.
    + destruct (entry_of _ _ _ _ Rm B) as (k' & old & E & _ & Am). rewrite E. cbn [fst snd]. rewrite Am.
      split; [reflexivity|]. now apply R_drop.
    + cbn [fst snd]. rewrite (r_none _ _ Rm x B). split; [reflexivity|]. now apply R_drop_none.
  - unfold d_take. rewrite F. destruct (dfrozen d) eqn:Fd; cbn [fst snd].
    { split; [reflexivity|exact Rm]. }
    destruct (find_ok equals equals_keys k x _ _ K (r_keys _ _ Rm)) as [(j & A & B)|(A & B)]; rewrite A.
    + destruct (entry_of _ _ _ _ Rm B) as (k' & old & E & _ & Am). rewrite E. cbn [fst snd]. rewrite Am.
      split; [reflexivity|]. now apply R_drop.
    + cbn [fst snd]. rewrite (r_none _ _ Rm x B). split; [reflexivity|]. now apply R_drop_none.
  - unfold d_clear. rewrite F. destruct (dfrozen d) eqn:Fd; cbn [fst snd].
    { split; [reflexivity|exact Rm]. }
    split; [reflexivity|]. constructor; cbn [am aorder afrozen dents dput dfrozen map]; try constructor; try reflexivity. now rewrite Fd.
  - cbn [fst snd]. split; [|now destruct (afrozen m)]. rewrite <- (Forall2_len _ _ _ _ _ (r_keys _ _ Rm)), map_length. reflexivity.
  - unfold d_has. cbn [fst snd]. split; [|now destruct (afrozen m)].
    destruct (find_ok equals equals_keys k x _ _ K (r_keys _ _ Rm)) as [(j & A & B)|(A & B)]; rewrite A.
    + destruct (entry_of _ _ _ _ Rm B) as (k' & old & E & _ & Am). now rewrite Am.
    + now rewrite (r_none _ _ Rm x B).
  - cbn [fst snd]. split; [|now destruct (afrozen m)]. exists (map fst (dents d)). split; [now rewrite map_map|exact (r_keys _ _ Rm)].
  - cbn [fst snd]. split; [|now destruct (afrozen m)]. exists (map snd (dents d)). split; [reflexivity|exact (r_vals _ _ Rm)].
  - unfold d_freeze. rewrite F. destruct (dfrozen d) eqn:Fd; cbn [fst snd].
    { split; [reflexivity|exact Rm]. }
    split; [reflexivity|]. destruct Rm. constructor; cbn [am aorder afrozen dents dfrozen]; assumption || reflexivity.
  - cbn [fst snd]. rewrite F. split; [reflexivity|]. now destruct (dfrozen d).
Qed.

Lemma answers_run : forall os aos d m, R d m -> Forall2 op_is os aos -> answers m aos (snd (fst (drun d os))).
Proof.
  intros os aos d m Rm F. revert d m Rm. induction F as [|o a os aos O F IH]; intros d m Rm; [exact I|].
  cbn [drun]. cbv zeta. cbn [fst snd answers].
  destruct (answer_step d m o a Rm O) as [A B]. split; [exact A|]. now apply IH.
Qed.

Lemma R_new : R dnew aempty.
Proof. constructor; cbn [dnew aempty dents aorder am afrozen dfrozen map]; try constructor; reflexivity. Qed.
