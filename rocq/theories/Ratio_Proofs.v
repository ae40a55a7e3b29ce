(** Proofs for C31. *)
From Verif Require Import Base Ratio_Model Ratio_Spec.
From Coq Require Import Znumtheory.
Local Open Scope Z_scope.

Lemma ordinary_not_min : forall z, ordinary z -> (z =? int_min) = false.
Proof. intros z [H _]. apply Z.eqb_neq. unfold int_min. change (2 ^ 63) with 9223372036854775808. lia. Qed.

Lemma simplify64_ok : forall n d, ordinary n -> ordinary d -> d <> 0 ->
  exists n' d' g, 0 < g /\ n = g * n' /\ d = g * d' /\ Z.gcd n' d' = 1 /\ simplify64 n d = Val (n', d').
Proof.
  intros n d Hn Hd D. unfold simplify64, gcd64. rewrite !ordinary_not_min by auto. cbn [orb].
  assert (G : 0 < Z.gcd n d).
  { destruct (Z.eq_dec (Z.gcd n d) 0) as [E|E]; [apply Z.gcd_eq_0 in E; tauto|]. pose proof (Z.gcd_nonneg n d). lia. }
  destruct (Z.gcd_divide_l n d) as [n' En]. destruct (Z.gcd_divide_r n d) as [d' Ed].
  destruct (Z.leb_spec (Z.gcd n d) 1).
  - exists n, d, 1. repeat split; try lia.
  - exists n', d', (Z.gcd n d). split; [lia|]. split; [lia|]. split; [lia|]. split.
    + assert (K : Z.gcd n d * Z.gcd n' d' = Z.gcd n d * 1).
      { rewrite <- Z.gcd_mul_mono_l_nonneg by lia. rewrite (Z.mul_comm _ n'), (Z.mul_comm _ d'), <- En, <- Ed. lia. }
      apply Z.mul_cancel_l in K; lia.
    + f_equal. f_equal.
      * rewrite En at 1. apply Z.quot_mul. lia.
      * rewrite Ed at 1. apply Z.quot_mul. lia.
Qed.

Lemma gauss : forall a b c, Z.gcd a b = 1 -> (a | b * c) -> (a | c).
Proof. intros a b c G D. apply (Z.gauss a b c); auto. Qed.

Lemma gcd1_unique : forall n d n' d', Z.gcd n d = 1 -> Z.gcd n' d' = 1 -> d <> 0 -> d' <> 0 ->
  n * d' = n' * d -> Z.sgn d = Z.sgn d' -> n = n' /\ d = d'.
Proof.
  intros n d n' d' G G' D D' E S.
  assert (A : (d | d')) by (apply (gauss d n d'); [now rewrite Z.gcd_comm|]; exists n'; lia).
  assert (B : (d' | d)) by (apply (gauss d' n' d); [now rewrite Z.gcd_comm|]; exists n; lia).
  assert (DD : d = d').
  { pose proof (Z.divide_antisym_abs _ _ A B). lia. }
  split; auto. subst d'. apply Z.mul_cancel_r in E; auto.
Qed.

Lemma gcd_lowest : forall r, Z.gcd (rnum r) (rden r) = 1 -> lowest_terms r.
Proof. intros r G k K A B. pose proof (Z.gcd_greatest _ _ _ A B) as H. rewrite G in H. apply Z.divide_1_r in H. lia. Qed.

Lemma lowest_gcd : forall r, lowest_terms r -> Z.gcd (rnum r) (rden r) = 1.
Proof. intros r H. apply H; [apply Z.gcd_nonneg|apply Z.gcd_divide_l|apply Z.gcd_divide_r]. Qed.

Lemma ordinary_smaller : forall g x, 0 < g -> ordinary (g * x) -> ordinary x.
Proof. intros g x G [A B]. unfold ordinary. nia. Qed.

Lemma create_ok : forall a n d, d <> 0 -> create a n d = Val {| addr := a; rnum := n; rden := d |}.
Proof. intros a n d D. unfold create. apply Z.eqb_neq in D. now rewrite D. Qed.

Lemma simplify_ok : forall a r, proper r ->
  exists s, simplify a r = Val s /\ same_value r s /\ proper s /\ Z.gcd (rnum s) (rden s) = 1 /\ Z.sgn (rden s) = Z.sgn (rden r).
Proof.
  intros a r (Hn & Hd & D). destruct (simplify64_ok _ _ Hn Hd D) as (n' & d' & g & G & En & Ed & C & E).
  assert (D' : d' <> 0) by (intros ->; lia).
  exists {| addr := a; rnum := n'; rden := d' |}. unfold simplify. rewrite E, create_ok by auto. split; auto. split.
  - unfold same_value. cbn [rnum rden]. rewrite En, Ed. ring.
  - split; [|split; [exact C|]].
    + unfold proper. cbn [rnum rden]. rewrite En in Hn. rewrite Ed in Hd. split; [|split]; auto; eapply ordinary_smaller; eauto.
    + cbn [rden]. rewrite Ed, Z.sgn_mul, (Z.sgn_pos g) by auto. lia.
Qed.

Lemma equals_ok : forall x y, proper x -> proper y ->
  exists b, equals x y = Val b /\ (b = true <-> same_value x y /\ Z.sgn (rden x) = Z.sgn (rden y)).
Proof.
  intros x y Px Py. destruct Px as (Hn & Hd & D). destruct (simplify64_ok _ _ Hn Hd D) as (n' & d' & g & G & En & Ed & C & E).
  destruct (simplify_ok 0 y Py) as (s & Es & SV & (_ & _ & DS) & CS & SG). unfold equals. rewrite E, Es.
  eexists. split; [reflexivity|].
  assert (D' : d' <> 0) by (intros ->; lia).
  assert (SX : Z.sgn (rden x) = Z.sgn d') by (rewrite Ed, Z.sgn_mul, (Z.sgn_pos g) by auto; lia).
  unfold same_value in *. destruct Py as (_ & _ & DY). split.
  - destruct (Z.eqb_spec n' (rnum s)) as [->|]; cbn [negb]; [|discriminate]. destruct (Z.eqb_spec d' (rden s)) as [->|]; cbn [negb]; [|discriminate].
    intros _. split; [|congruence]. rewrite En, Ed. rewrite <- Z.mul_assoc. replace (rnum y * (g * rden s)) with (g * (rnum y * rden s)) by ring. now rewrite SV.
  - intros [E1 E2]. destruct (gcd1_unique n' d' (rnum s) (rden s)) as [-> ->]; auto; try congruence.
    + apply (Z.mul_cancel_l _ _ (g * rden y)); [nia|].
      replace (g * rden y * (n' * rden s)) with (g * n' * rden y * rden s) by ring.
      replace (g * rden y * (rnum s * d')) with ((rnum s * rden y) * (g * d')) by ring.
      rewrite <- SV, <- En, <- Ed, E1. ring.
    + now rewrite !Z.eqb_refl.
Qed.

Lemma same_value_trans : forall x y z, rden x <> 0 -> rden y <> 0 -> rden z <> 0 -> same_value x y -> same_value y z -> same_value x z.
Proof.
  unfold same_value. intros x y z Dx Dy Dz A B. apply (Z.mul_cancel_r _ _ (rden y)); auto.
  replace (rnum x * rden z * rden y) with (rnum x * rden y * rden z) by ring. rewrite A.
  replace (rnum y * rden x * rden z) with (rnum y * rden z * rden x) by ring. rewrite B. ring.
Qed.

Lemma mul64_inv : forall a b r, mul64 a b = Val r -> r = a * b.
Proof. unfold mul64. intros a b r H. destruct (_ && _); [|discriminate]. now inversion H. Qed.

Lemma mul64_val : forall a b, int_min <= a * b <= int_max -> mul64 a b = Val (a * b).
Proof. intros a b H. unfold mul64. destruct (Z.leb_spec int_min (a * b)); [|lia]. destruct (Z.leb_spec (a * b) int_max); [|lia]. reflexivity. Qed.

Lemma mul64_cases : forall a b, mul64 a b = Val (a * b) \/ mul64 a b = Undefined.
Proof. intros a b. unfold mul64. destruct (_ && _); auto. Qed.

Lemma simplify64_inv : forall n d n' d', d <> 0 -> simplify64 n d = Val (n', d') ->
  exists g, 0 < g /\ n = g * n' /\ d = g * d' /\ Z.gcd n' d' = 1.
Proof.
  intros n d n' d' D H. unfold simplify64, gcd64 in H. destruct (_ || _); [discriminate|].
  assert (G : 0 < Z.gcd n d).
  { destruct (Z.eq_dec (Z.gcd n d) 0) as [E|E]; [apply Z.gcd_eq_0 in E; tauto|]. pose proof (Z.gcd_nonneg n d). lia. }
  destruct (Z.gcd_divide_l n d) as [n1 En]. destruct (Z.gcd_divide_r n d) as [d1 Ed].
  destruct (Z.leb_spec (Z.gcd n d) 1).
  - inversion H; subst. exists 1. repeat split; lia.
  - inversion H. exists (Z.gcd n d).
    assert (Q1 : n ÷ Z.gcd n d = n1) by (rewrite En at 1; apply Z.quot_mul; lia).
    assert (Q2 : d ÷ Z.gcd n d = d1) by (rewrite Ed at 1; apply Z.quot_mul; lia).
    rewrite Q1, Q2. repeat split; try lia.
    assert (K : Z.gcd n d * Z.gcd n1 d1 = Z.gcd n d * 1).
    { rewrite <- Z.gcd_mul_mono_l_nonneg by lia. rewrite (Z.mul_comm _ n1), (Z.mul_comm _ d1), <- En, <- Ed. lia. }
    apply Z.mul_cancel_l in K; lia.
Qed.

Lemma cross_inv : forall n d n' d', d <> 0 -> cross n d = Val (n', d') ->
  exists g, 0 < g /\ n = g * n' /\ d = g * d'.
Proof.
  intros n d n' d' D H. unfold cross in H. destruct ((1 <? n) && (1 <? d)).
  - destruct (simplify64_inv _ _ _ _ D H) as (g & A & B & C & _). exists g. auto.
  - inversion H; subst. exists 1. repeat split; lia.
Qed.

Lemma multiply_sound : forall a n1 d1 n2 d2 z, multiplySimplified a n1 d1 n2 d2 = Val z ->
  n1 * n2 * rden z = rnum z * (d1 * d2) /\ rden z <> 0 /\ Z.gcd (rnum z) (rden z) = 1 /\ addr z = a.
Proof.
  intros a n1 d1 n2 d2 z H. unfold multiplySimplified in H.
  destruct (Z.eqb_spec d1 0) as [|D1]; [discriminate|]. destruct (Z.eqb_spec d2 0) as [|D2]; [discriminate|].
  destruct (cross n1 d2) as [[n1' d2']| |] eqn:C1; try discriminate.
  destruct (cross n2 d1) as [[n2' d1']| |] eqn:C2; try discriminate.
  destruct (mul64 n1' n2') as [n| |] eqn:M1; try discriminate.
  destruct (mul64 d1' d2') as [d| |] eqn:M2; try discriminate.
  apply mul64_inv in M1. apply mul64_inv in M2.
  destruct (cross_inv _ _ _ _ D2 C1) as (g & G & E1 & E2). destruct (cross_inv _ _ _ _ D1 C2) as (k & K & E3 & E4).
  destruct (simplify64 n d) as [[n' d']| |] eqn:S; try discriminate.
  assert (DN : d <> 0) by (subst d; apply Z.neq_mul_0; split; nia).
  destruct (simplify64_inv _ _ _ _ DN S) as (f & F & E5 & E6 & C).
  assert (D' : d' <> 0) by (intros ->; nia). rewrite create_ok in H by auto. inversion H; subst z. cbn [rnum rden addr].
  split; [|auto]. rewrite E1, E2, E3, E4.
  replace (g * n1' * (k * n2') * d') with (g * k * (n1' * n2') * d') by ring. rewrite <- M1, E5.
  replace (n' * (k * d1' * (g * d2'))) with (g * k * (d1' * d2') * n') by ring. rewrite <- M2, E6. ring.
Qed.

Lemma gcd_mul_1 : forall a b c, Z.gcd a c = 1 -> Z.gcd b c = 1 -> Z.gcd (a * b) c = 1.
Proof.
  intros a b c A B. apply Zgcd_1_rel_prime. apply rel_prime_sym. apply rel_prime_mult; apply rel_prime_sym; now apply Zgcd_1_rel_prime.
Qed.

Lemma gcd_factor : forall a b g, Z.gcd (g * a) b = 1 -> Z.gcd a b = 1.
Proof.
  intros a b g H. apply Zgcd_1_rel_prime in H. apply Zgcd_1_rel_prime. apply (rel_prime_div (g * a)); auto. exists g. ring.
Qed.

Lemma cross_positive : forall n d, ordinary n -> ordinary d -> 0 < n -> 0 < d ->
  exists n' d' g, 0 < g /\ n = g * n' /\ d = g * d' /\ Z.gcd n' d' = 1 /\ cross n d = Val (n', d').
Proof.
  intros n d Hn Hd N D. unfold cross. destruct (Z.ltb_spec 1 n); [destruct (Z.ltb_spec 1 d)|]; cbn [andb].
  - apply simplify64_ok; auto. lia.
  - exists n, d, 1. repeat split; try lia. replace d with 1 by lia. apply Z.gcd_1_r.
  - exists n, d, 1. repeat split; try lia. replace n with 1 by lia. apply Z.gcd_1_l.
Qed.

Lemma multiply_complete : forall a n1 d1 n2 d2 n d,
  ordinary n1 -> ordinary d1 -> ordinary n2 -> ordinary d2 ->
  0 < n1 -> 0 < d1 -> 0 < n2 -> 0 < d2 -> Z.gcd n1 d1 = 1 -> Z.gcd n2 d2 = 1 ->
  ordinary n -> ordinary d -> 0 < d -> Z.gcd n d = 1 -> n1 * n2 * d = n * (d1 * d2) ->
  multiplySimplified a n1 d1 n2 d2 = Val {| addr := a; rnum := n; rden := d |}.
Proof.
  intros a n1 d1 n2 d2 n d O1 O2 O3 O4 P1 P2 P3 P4 G1 G2 On Od Pd G E. unfold multiplySimplified.
  destruct (Z.eqb_spec d1 0); [lia|]. destruct (Z.eqb_spec d2 0); [lia|].
  destruct (cross_positive n1 d2 O1 O4 P1 P4) as (n1' & d2' & g & Pg & E1 & E2 & C1 & ->).
  destruct (cross_positive n2 d1 O3 O2 P3 P2) as (n2' & d1' & k & Pk & E3 & E4 & C2 & ->).
  assert (Q1 : 0 < n1') by nia. assert (Q2 : 0 < n2') by nia. assert (Q3 : 0 < d1') by nia. assert (Q4 : 0 < d2') by nia.
  assert (GG : Z.gcd (n1' * n2') (d1' * d2') = 1).
  { rewrite E1, E4 in G1. rewrite E3, E2 in G2. apply gcd_factor in G1. rewrite Z.gcd_comm in G1. apply gcd_factor in G1.
    apply gcd_factor in G2. rewrite Z.gcd_comm in G2. apply gcd_factor in G2. rewrite Z.gcd_comm in C1, C2.
    apply gcd_mul_1; rewrite Z.gcd_comm; apply gcd_mul_1; auto. }
  assert (EE : n1' * n2' * d = n * (d1' * d2')).
  { apply (Z.mul_cancel_l _ _ (g * k)); [nia|]. replace (g * k * (n1' * n2' * d)) with (g * n1' * (k * n2') * d) by ring.
    rewrite <- E1, <- E3, E, E2, E4. ring. }
  assert (Q5 : 0 < d1' * d2') by nia.
  assert (Q6 : Z.sgn (d1' * d2') = Z.sgn d) by (rewrite !Z.sgn_pos; lia).
  destruct (gcd1_unique (n1' * n2') (d1' * d2') n d) as [<- <-]; auto; try lia.
  destruct On as [On1 On2]. destruct Od as [Od1 Od2].
  rewrite !mul64_val by (unfold int_min, int_max; change (2 ^ 63) with 9223372036854775808; lia).
  unfold simplify64, gcd64. rewrite !ordinary_not_min by (unfold ordinary; lia). cbn [orb]. rewrite GG. cbn [Z.leb Z.compare Pos.compare Pos.compare_cont].
  apply create_ok. nia.
Qed.
