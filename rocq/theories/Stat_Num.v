(** Proofs about the averages and root mean squares. *)
From Verif Require Import Base Stat_Model Stat_Spec.
Local Open Scope Z_scope.

Lemma convert_same : forall k z, in_type k z -> convert k z = z.
Proof.
  intros k z H. unfold in_type in H.
  assert (G : forall b, 0 < b -> signed k = true -> - 2 ^ (b - 1) <= z <= 2 ^ (b - 1) - 1 -> bits k = b -> convert k z = z).
  { intros b B Sg HH Eb. unfold convert. rewrite Eb, Sg. cbn [andb]. cbn zeta.
    assert (P : 2 ^ b = 2 * 2 ^ (b - 1)) by (replace b with (Z.succ (b - 1)) at 1 by lia; rewrite Z.pow_succ_r by lia; reflexivity).
    rewrite P. set (q := 2 ^ (b - 1)) in *. clearbody q. clear H P.
    destruct (Z.lt_ge_cases z 0) as [N|N].
    - replace (z mod (2 * q)) with (z + 2 * q) by (apply (Z.mod_unique_pos _ _ (-1)); lia).
      replace (q <=? z + 2 * q) with true by (symmetry; apply Z.leb_le; lia). lia.
    - rewrite Z.mod_small by lia. replace (q <=? z) with false by (symmetry; apply Z.leb_gt; lia). reflexivity. }
  destruct k; unfold lowest, highest in H; cbn [signed bits] in H;
    try (unfold convert; cbn [signed bits andb]; cbn zeta; apply Z.mod_small; lia).
  - apply (G 8); [lia | reflexivity | exact H | reflexivity].
  - apply (G 16); [lia | reflexivity | exact H | reflexivity].
  - apply (G 32); [lia | reflexivity | exact H | reflexivity].
  - apply (G 64); [lia | reflexivity | exact H | reflexivity].
Qed.

Lemma checked_same : forall k z, in_type k z -> checked k z = Some z.
Proof.
  intros k z [A B]. unfold checked, within. replace (lowest k <=? z) with true by (symmetry; apply Z.leb_le; exact A).
  replace (z <=? highest k) with true by (symmetry; apply Z.leb_le; exact B). reflexivity.
Qed.
Lemma add_same : forall k a x, in_type k (a + x) -> add k a x = Some (a + x).
Proof. intros k a x H. destruct k; unfold add; try (rewrite convert_same by exact H; reflexivity); apply checked_same; exact H. Qed.

Lemma signed_aggregate : forall k, signed (aggregate k) = signed k.
Proof. intros []; reflexivity. Qed.
Lemma highest_aggregate : forall k, highest (aggregate k) = largest_sum k.
Proof. intros []; reflexivity. Qed.
Lemma lowest_signed : forall k, lowest k = if signed k then - highest k - 1 else 0.
Proof. intros []; reflexivity. Qed.
Lemma highest_pos : forall k, 0 < highest k.
Proof. intros []; reflexivity. Qed.
Lemma fits : forall k z, (signed k = true \/ 0 <= z) -> Z.abs z <= highest k -> in_type k z.
Proof. intros k z A B. unfold in_type. rewrite lowest_signed. destruct (signed k); [lia|]. destruct A as [A|A]; [discriminate | lia]. Qed.

Lemma total_same : forall k f g l acc, Forall (fun v => f v = Some (g v) /\ (signed k = true \/ 0 <= g v)) l ->
  (signed k = true \/ 0 <= acc) -> Z.abs acc + sum (map (fun v => Z.abs (g v)) l) <= largest_sum k ->
  total k f l acc = Some (acc + sum (map g l)).
Proof.
  intros k f g l. induction l as [|v l IH]; intros acc H A B; unfold sum in *; cbn [total map fold_right] in *.
  - f_equal. lia.
  - inversion H as [|x y [H1 H2] H3]; subst. rewrite H1.
    assert (P : 0 <= fold_right Z.add 0 (map (fun v => Z.abs (g v)) l)) by (clear; induction l; cbn [map fold_right]; lia).
    assert (A' : signed k = true \/ 0 <= acc + g v) by (destruct A as [A|A], H2 as [H2|H2]; try (left; assumption); right; lia).
    rewrite add_same.
    + rewrite IH; [f_equal; lia | exact H3 | exact A' | lia].
    + apply fits; [rewrite signed_aggregate; exact A'|]. rewrite highest_aggregate. lia.
Qed.

Lemma quot_abs : forall s n, 1 <= n -> Z.abs (Z.quot s n) <= Z.abs s.
Proof. intros s n H. rewrite <- Z.quot_abs by lia. rewrite (Z.abs_eq n) by lia. rewrite Z.quot_div_nonneg by lia. apply Z.div_le_upper_bound; nia. Qed.
Lemma divide_same : forall k s n, in_type k s -> (signed k = true \/ 0 <= s) -> 1 <= Z.of_nat n <= highest k -> Z.abs s <= highest k ->
  divide k s n = Some (Z.quot s (Z.of_nat n)).
Proof.
  intros k s n H A B C. unfold divide. assert (L := highest_pos k).
  rewrite convert_same by (apply fits; [right; lia | lia]).
  replace (Z.of_nat n =? 0) with false by (symmetry; apply Z.eqb_neq; lia). apply checked_same.
  assert (Q := quot_abs s (Z.of_nat n) ltac:(lia)). apply fits; [|lia].
  destruct A as [A|A]; [left; exact A | right]. apply Z.quot_pos; lia.
Qed.

Lemma sum_between : forall l a b, Forall (fun v => a <= v <= b) l -> Z.of_nat (length l) * a <= sum l <= Z.of_nat (length l) * b.
Proof.
  intros l a b H. unfold sum. induction H as [|v l E H IH]; [cbn [length fold_right]; lia|]. cbn [length fold_right]. nia.
Qed.
Lemma quot_between : forall s n a b, 1 <= n -> n * a <= s <= n * b -> a <= Z.quot s n <= b.
Proof.
  intros s n a b N H. assert (E := Z.quot_rem' s n).
  destruct (Z.le_ge_cases 0 s) as [P|P].
  - assert (R := Z.rem_bound_pos s n P ltac:(lia)). nia.
  - assert (R := Z.rem_bound_pos (- s) n ltac:(lia) ltac:(lia)). rewrite Z.rem_opp_l in R by lia. nia.
Qed.
Lemma abs_sum : forall l, Z.abs (sum l) <= sizes l.
Proof. intros l. unfold sizes, sum. induction l as [|v l IH]; cbn [map fold_right]; lia. Qed.

Lemma average_right : forall k l, l <> [] -> Forall (in_type k) l -> sizes l <= largest_sum k -> Z.of_nat (length l) <= largest_sum k ->
  average k (length l) l = Some (Z.quot (sum l) (Z.of_nat (length l))).
Proof.
  intros k l N T B C. unfold average.
  assert (SG : Forall (fun v => signed k = true \/ 0 <= v) l).
  { eapply Forall_impl; [|exact T]. cbn beta. intros v [V _]. rewrite lowest_signed in V. destruct (signed k); [left; reflexivity | right; lia]. }
  assert (LN : 1 <= Z.of_nat (length l)) by (destruct l; [contradiction | cbn [length]; lia]).
  assert (A := abs_sum l).
  rewrite (total_same k _ (fun v => v)).
  - rewrite map_id. cbn [Z.add]. change (0 + sum l) with (sum l).
    assert (S0 : signed k = true \/ 0 <= sum l).
    { destruct (signed k) eqn:E; [left; reflexivity|]. right. clear -SG. unfold sum. induction SG as [|v l [H|H] _ IH]; cbn [fold_right]; try discriminate; lia. }
    rewrite <- (signed_aggregate k) in S0. rewrite <- highest_aggregate in B, C.
    rewrite divide_same; [| apply fits; [exact S0 | lia] | exact S0 | lia | lia].
    rewrite convert_same; [reflexivity|]. apply quot_between; [lia|]. apply sum_between. exact T.
  - eapply Forall_impl; [|exact SG]. cbn beta. intros v H. split; [reflexivity | exact H].
  - right. lia.
  - exact B.
Qed.

Lemma square_same : forall k v, v * v <= largest_square k -> square k v = Some (v * v).
Proof.
  intros k v H. assert (P : 0 <= v * v) by nia.
  destruct k; unfold square, largest_square in *;
    try (apply checked_same; unfold in_type, lowest, highest; cbn [signed bits]; lia);
    rewrite convert_same; try reflexivity; unfold in_type, lowest, highest; cbn [signed bits]; lia.
Qed.

Lemma rms_right : forall k l, l <> [] -> Forall (fun v => Z.abs v <= highest k /\ v * v <= largest_square k) l ->
  sum (squares l) <= largest_sum k -> Z.of_nat (length l) <= largest_sum k ->
  rootMeanSquare k (length l) l = Some (Z.sqrt (sum (squares l) / Z.of_nat (length l))).
Proof.
  intros k l N T B C. unfold rootMeanSquare, squares in *.
  assert (LN : 1 <= Z.of_nat (length l)) by (destruct l; [contradiction | cbn [length]; lia]).
  assert (P : 0 <= sum (map (fun v => v * v) l)).
  { clear. unfold sum. induction l as [|v l IH]; cbn [map fold_right]; nia. }
  rewrite (total_same k _ (fun v => v * v)).
  - set (s := sum (map (fun v => v * v) l)) in *. change (0 + s) with s.
    rewrite <- highest_aggregate in B, C.
    rewrite divide_same; [| apply fits; [right; exact P | lia] | right; exact P | lia | lia].
    rewrite Z.quot_div_nonneg by lia. assert (Q : 0 <= s / Z.of_nat (length l)) by (apply Z.div_pos; lia).
    replace (s / Z.of_nat (length l) <? 0) with false by (symmetry; apply Z.ltb_ge; exact Q).
    apply checked_same. assert (HH := highest_pos k). split.
    + rewrite lowest_signed. assert (X := Z.sqrt_nonneg (s / Z.of_nat (length l))). destruct (signed k); lia.
    + assert (M : s / Z.of_nat (length l) <= highest k * highest k).
      { apply Z.div_le_upper_bound; [lia|]. unfold s.
        assert (X : Forall (fun v => 0 <= v <= highest k * highest k) (map (fun v => v * v) l)).
        { apply Forall_map. eapply Forall_impl; [|exact T]. cbn beta. intros v [V _]. nia. }
        apply sum_between in X. rewrite map_length in X. lia. }
      apply Z.sqrt_le_mono in M. rewrite Z.sqrt_square in M by lia. exact M.
  - eapply Forall_impl; [|exact T]. cbn beta. intros v [_ V]. split; [apply square_same; exact V | right; nia].
  - right. lia.
  - replace (map (fun v => Z.abs (v * v)) l) with (map (fun v => v * v) l); [cbn [Z.abs]; lia|].
    apply map_ext. intros v. nia.
Qed.
