(** Proofs about the statistics block. *)
From Verif Require Import Base Stat_Model Stat_Spec.
Local Open Scope Z_scope.

(** ** Streams *)
Lemma timed_ticks : forall d l off, timed d off l = ticks d (off, l).
Proof.
  intros d l. induction l as [|v l IH]; intros off; [reflexivity|].
  cbn [timed]. rewrite IH. unfold ticks. cbn [fst snd length seq map nth]. f_equal.
  - f_equal. lia.
  - rewrite <- seq_shift, map_map. apply map_ext. intros i. cbn [nth]. f_equal. lia.
Qed.

Lemma timed_app : forall d l k off, timed d off (l ++ k) = timed d off l ++ timed d (off + Z.of_nat (length l) * d) k.
Proof.
  intros d l. induction l as [|v l IH]; intros k off; cbn [app timed length].
  - f_equal. lia.
  - rewrite IH. cbn [app]. do 3 f_equal. lia.
Qed.
Lemma map_snd_timed : forall d l off, map snd (timed d off l) = l.
Proof. intros d l. induction l as [|v l IH]; intros off; cbn [timed map snd]; [reflexivity|]. f_equal. apply IH. Qed.
Lemma timed_length : forall d l off, length (timed d off l) = length l.
Proof. intros d l. induction l as [|v l IH]; intros off; cbn [timed length]; [reflexivity|]. f_equal. apply IH. Qed.

(** [joined d gs off l]: the stretches after samples l at off *)
Definition joined (d : Z) (gs : list (Z * list Z)) (off : Z) (l : list Z) : list (Z * list Z) :=
  match rev gs with
  | (t, k) :: r => if off =? t + Z.of_nat (length k) * d then rev r ++ [(t, k ++ l)] else gs ++ [(off, l)]
  | [] => [(off, l)]
  end.

Lemma joined_cons : forall d g g' gs off l, joined d (g :: g' :: gs) off l = g :: joined d (g' :: gs) off l.
Proof.
  intros d g g' gs off l. unfold joined. cbn [rev]. destruct (rev gs ++ [g']) as [|[t k] r] eqn:E.
  - destruct (rev gs); discriminate.
  - cbn [app]. destruct (off =? _).
    + rewrite rev_app_distr. reflexivity.
    + reflexivity.
Qed.

Lemma stretches_one : forall d l off, l <> [] -> stretches d (timed d off l) = [(off, l)].
Proof.
  intros d l. induction l as [|v l IH]; intros off H; [contradiction|]. cbn [timed stretches].
  destruct l as [|w l]; [reflexivity|]. rewrite (IH (off + d)) by discriminate. rewrite Z.eqb_refl. reflexivity.
Qed.

Lemma joined_head : forall d gs off l, gs <> [] -> exists t k k' r r', gs = (t, k) :: r /\ joined d gs off l = (t, k') :: r'.
Proof.
  intros d gs off l H. destruct gs as [|[t k] [|g gs]]; [contradiction| |].
  - unfold joined. cbn [rev app]. exists t, k. destruct (off =? _).
    + exists (k ++ l), [], []. split; reflexivity.
    + exists k, [], [(off, l)]. split; reflexivity.
  - rewrite joined_cons. exists t, k, k. eexists _, _. split; reflexivity.
Qed.

Lemma stretches_app : forall d s off l, l <> [] -> stretches d (s ++ timed d off l) = joined d (stretches d s) off l.
Proof.
  intros d s off l H. induction s as [|[t v] s IH]; cbn [app stretches].
  - rewrite stretches_one by exact H. reflexivity.
  - rewrite IH. destruct (stretches d s) as [|[t1 k1] [|g gs]] eqn:E.
    + unfold joined. cbn [rev app length]. destruct (off =? t + d) eqn:Q.
      * replace (off =? t + Z.of_nat 1 * d) with true by (symmetry; apply Z.eqb_eq; apply Z.eqb_eq in Q; lia). reflexivity.
      * replace (off =? t + Z.of_nat 1 * d) with false; [reflexivity|]. symmetry. apply Z.eqb_neq. apply Z.eqb_neq in Q. lia.
    + unfold joined. cbn [rev app]. destruct (off =? t1 + Z.of_nat (length k1) * d) eqn:Q.
      * cbn [app]. destruct (t1 =? t + d) eqn:W; cbn [rev app length].
        -- replace (off =? t + Z.of_nat (Datatypes.S (length k1)) * d) with true; [reflexivity|].
           symmetry. apply Z.eqb_eq. apply Z.eqb_eq in Q. apply Z.eqb_eq in W. lia.
        -- rewrite Q. reflexivity.
      * destruct (t1 =? t + d) eqn:W; cbn [rev app length].
        -- replace (off =? t + Z.of_nat (Datatypes.S (length k1)) * d) with false; [reflexivity|].
           symmetry. apply Z.eqb_neq. apply Z.eqb_neq in Q. apply Z.eqb_eq in W. lia.
        -- rewrite Q. reflexivity.
    + rewrite joined_cons. destruct (t1 =? t + d).
      * rewrite joined_cons. reflexivity.
      * rewrite !joined_cons. reflexivity.
Qed.

(** ** Blocks of one stretch *)
Definition count (c : conf) (n : nat) : nat :=
  if (n <? blockSize c)%nat then 0 else ((n - blockSize c) / remainder c + 1)%nat.
Definition outs_of (c : conf) (g : Z * list Z) : list out := calc c (snd g) (fst g) (count c (length (snd g))).

Lemma count_spec : forall c n i, sensible c -> (i < count c n)%nat <-> (i * remainder c + blockSize c <= n)%nat.
Proof.
  intros c n i [[R1 R2] _]. unfold count. destruct (n <? blockSize c)%nat eqn:E.
  - apply Nat.ltb_lt in E. split; lia.
  - apply Nat.ltb_ge in E. split; intros H.
    + assert (i <= (n - blockSize c) / remainder c)%nat by lia.
      assert (Q := Nat.mul_div_le (n - blockSize c) (remainder c)). nia.
    + assert (i <= (n - blockSize c) / remainder c)%nat; [|lia]. apply Nat.div_le_lower_bound; nia.
Qed.

Lemma calc_nth : forall c data first n i, nth_error (calc c data first n) i =
  if (i <? n)%nat then Some (calc_one c data first i) else None.
Proof.
  intros c data first n i. unfold calc. rewrite nth_error_map. destruct (i <? n)%nat eqn:E.
  - apply Nat.ltb_lt in E. rewrite (nth_error_nth' (seq 0 n) 0%nat) by (rewrite seq_length; exact E).
    rewrite seq_nth by exact E. reflexivity.
  - apply Nat.ltb_ge in E. rewrite (proj2 (nth_error_None (seq 0 n) i)) by (rewrite seq_length; exact E). reflexivity.
Qed.

Lemma outs_of_results : forall c g, sensible c -> results_of c g (outs_of c g).
Proof.
  intros c [t l] H i. cbn [fst snd]. unfold outs_of. cbn [fst snd]. rewrite calc_nth.
  destruct (i <? count c (length l))%nat eqn:E.
  - apply Nat.ltb_lt in E. apply (count_spec c _ _ H) in E. split; [exact E|].
    unfold calc_one, slice. f_equal. f_equal. destruct H as [_ ->]. lia.
  - apply Nat.ltb_ge in E. destruct (Nat.lt_ge_cases (length l) (i * remainder c + blockSize c)) as [L|L]; [exact L|].
    apply (count_spec c _ _ H) in L. lia.
Qed.
Lemma all_results : forall c gs, sensible c -> results c gs (concat (map (outs_of c) gs)).
Proof.
  intros c gs H. exists (map (outs_of c) gs). split; [|reflexivity].
  induction gs as [|g gs IH]; constructor; [apply outs_of_results; exact H | exact IH].
Qed.

Lemma count_le : forall c n, sensible c -> (count c n * remainder c <= n)%nat.
Proof.
  intros c n H. destruct (count c n) as [|k] eqn:E; [lia|].
  assert (k < count c n)%nat as L by lia. apply (count_spec c n k H) in L. destruct H as [[R1 R2] _]. nia.
Qed.

Lemma count_more : forall c n m, sensible c -> 
  count c (n + m) = (count c n + count c (n - count c n * remainder c + m))%nat.
Proof.
  intros c n m H. assert (L := count_le c n H).
  assert (Q : forall i, (i < count c (n + m))%nat <-> (i < count c n + count c (n - count c n * remainder c + m))%nat).
  { intros i. rewrite (count_spec c _ i H).
    destruct (Nat.lt_ge_cases i (count c n)) as [A|A].
    - split; intros _; [lia|]. apply (count_spec c n i H) in A. lia.
    - assert (B : (i < count c n + count c (n - count c n * remainder c + m))%nat
                  <-> (i - count c n < count c (n - count c n * remainder c + m))%nat) by lia.
      rewrite B, (count_spec c _ _ H). nia. }
  destruct (Nat.lt_trichotomy (count c (n + m)) (count c n + count c (n - count c n * remainder c + m))) as [X|[X|X]]; [|exact X|].
  - apply Q in X. lia.
  - apply Q in X. lia.
Qed.

Lemma skipn_skipn_app : forall (A : Type) (l k : list A) n, (n <= length l)%nat -> skipn n (l ++ k) = skipn n l ++ k.
Proof.
  intros A l k n H. rewrite skipn_app. replace (n - length l)%nat with 0%nat by lia. reflexivity.
Qed.
Lemma skipn_skipn' : forall (A : Type) (l : list A) n m, skipn n (skipn m l) = skipn (m + n) l.
Proof. intros A l. induction l as [|x l IH]; intros n m; destruct m; cbn [skipn plus]; try reflexivity; [destruct n; reflexivity|]. apply IH. Qed.

Lemma calc_app : forall c data first n m, sensible c ->
  calc c data first (n + m) = calc c data first n ++ calc c (skipn (n * remainder c) data) (first + Z.of_nat (n * remainder c) * delta c) m.
Proof.
  intros c data first n m H. unfold calc. rewrite seq_app, map_app. f_equal. cbn [plus].
  rewrite <- (Nat.add_0_r n) at 1. generalize 0%nat as i. revert m.
  induction m as [|m IH]; intros i; [reflexivity|]. cbn [seq map]. rewrite <- IH.
  replace (Datatypes.S (n + i)) with (n + Datatypes.S i)%nat by lia. f_equal.
  unfold calc_one. rewrite skipn_skipn'. replace ((n + i) * remainder c)%nat with (n * remainder c + i * remainder c)%nat by lia.
  f_equal. f_equal. destruct H as [_ ->]. lia.
Qed.
Lemma calc_prefix : forall c l k first n, (forall i, (i < n)%nat -> (i * remainder c + blockSize c <= length l)%nat) ->
  calc c (l ++ k) first n = calc c l first n.
Proof.
  intros c l k first n H. unfold calc. apply map_ext_in. intros i Hi. apply in_seq in Hi. unfold calc_one.
  assert (B := H i (proj2 Hi)).
  assert (E : firstn (blockSize c) (skipn (i * remainder c) (l ++ k)) = firstn (blockSize c) (skipn (i * remainder c) l)).
  { rewrite skipn_skipn_app by lia. rewrite firstn_app. rewrite skipn_length.
    replace (blockSize c - (length l - i * remainder c))%nat with 0%nat by lia. cbn [firstn]. apply app_nil_r. }
  rewrite E. reflexivity.
Qed.

(** the buffer and the expected tick after the stretches *)
Definition holding (c : conf) (gs : list (Z * list Z)) (b : list Z) (n : option Z) : Prop :=
  match rev gs with
  | [] => b = [] /\ n = None
  | (t, l) :: _ => b = skipn (count c (length l) * remainder c) l /\ n = Some (t + Z.of_nat (length l) * delta c)
  end.

Lemma calculate_ok : forall c gs b n off l, sensible c -> holding c gs b n ->
  exists b' n' o, calculate c b n off l = Some (b', n', o) /\
    holding c (joined (delta c) gs off l) b' n' /\
    concat (map (outs_of c) (joined (delta c) gs off l)) = concat (map (outs_of c) gs) ++ o.
Proof.
  intros c gs b n off l H HB.
  (* one packet on top of k samples *)
  assert (one : forall t k, (off = t + Z.of_nat (length k) * delta c) ->
    let data := skipn (count c (length k) * remainder c) k ++ l in
    exists b' o, (if (length data <? blockSize c)%nat then Some (data, Some (off + Z.of_nat (length l) * delta c), [])
      else match remainder c with
       | O => None
       | r => Some (skipn (((length data - blockSize c) / r + 1) * r) data, Some (off + Z.of_nat (length l) * delta c),
                calc c data (t + Z.of_nat (count c (length k) * remainder c) * delta c) ((length data - blockSize c) / r + 1))
       end) = Some (b', Some (off + Z.of_nat (length l) * delta c), o) /\
      b' = skipn (count c (length (k ++ l)) * remainder c) (k ++ l) /\
      outs_of c (t, k ++ l) = outs_of c (t, k) ++ o).
  { intros t k E data. assert (LK := count_le c (length k) H).
    assert (LD : length data = (length k - count c (length k) * remainder c + length l)%nat).
    { unfold data. rewrite app_length, skipn_length. reflexivity. }
    assert (CM := count_more c (length k) (length l) H). rewrite <- LD in CM.
    assert (D : data = skipn (count c (length k) * remainder c) (k ++ l)) by (symmetry; apply skipn_skipn_app; exact LK).
    assert (G : exists o, o = calc c data (t + Z.of_nat (count c (length k) * remainder c) * delta c) (count c (length data)) /\
       outs_of c (t, k ++ l) = outs_of c (t, k) ++ o).
    { eexists. split; [reflexivity|]. unfold outs_of. cbn [fst snd]. rewrite app_length, CM, (calc_app c _ _ _ _ H), <- D.
      f_equal. apply calc_prefix. intros i Hi. apply (count_spec c _ _ H). exact Hi. }
    destruct G as [o [Eo G]].
    assert (SK : skipn (count c (length data) * remainder c) data = skipn (count c (length (k ++ l)) * remainder c) (k ++ l)).
    { rewrite D at 2. rewrite skipn_skipn'. f_equal. rewrite app_length, CM. lia. }
    exists (skipn (count c (length (k ++ l)) * remainder c) (k ++ l)), o. split; [|split; [reflexivity | exact G]].
    rewrite <- SK, Eo. clear SK Eo G CM.
    assert (CD : count c (length data) = if (length data <? blockSize c)%nat then 0%nat else ((length data - blockSize c) / remainder c + 1)%nat) by reflexivity.
    destruct (length data <? blockSize c)%nat eqn:B; rewrite CD.
    - cbn [Nat.mul skipn]. reflexivity.
    - destruct (remainder c) eqn:R; [destruct H as [[H1 _] _]; lia|]. reflexivity. }
  unfold holding in HB. unfold joined. unfold calculate, output_start.
  destruct (rev gs) as [|[t k] r] eqn:RG.
  - destruct HB as [-> ->]. cbn [fst snd app].
    assert (gs = []) as -> by (rewrite <- (rev_involutive gs), RG; reflexivity).
    destruct (one off [] ltac:(cbn [length]; lia)) as [b' [o [E1 [E2 E3]]]]. cbn [length] in E1.
    assert (Z0 : (count c 0 * remainder c)%nat = 0%nat) by (assert (X := count_le c 0 H); lia).
    rewrite Z0 in E1. cbn [skipn app] in E1. replace (off + Z.of_nat 0 * delta c) with off in E1 by lia.
    exists b', (Some (off + Z.of_nat (length l) * delta c)), o. split; [exact E1|]. split.
    + unfold holding. cbn [rev app]. split; [exact E2 | reflexivity].
    + cbn [map concat app]. rewrite app_nil_r. cbn [app] in E3. rewrite E3. unfold outs_of at 1. cbn [fst snd length].
      assert (C0 : count c 0 = 0%nat) by (destruct H as [[H1 H2] H3]; nia). rewrite C0. reflexivity.
  - destruct HB as [-> ->]. assert (GS : gs = rev r ++ [(t, k)]) by (rewrite <- (rev_involutive gs), RG; reflexivity).
    destruct (off =? t + Z.of_nat (length k) * delta c) eqn:Q; cbn [fst snd].
    + apply Z.eqb_eq in Q. destruct (one t k Q) as [b' [o [E1 [E2 E3]]]].
      assert (F : off + - Z.of_nat (length (skipn (count c (length k) * remainder c) k)) * delta c
                = t + Z.of_nat (count c (length k) * remainder c) * delta c).
      { rewrite skipn_length. assert (X := count_le c (length k) H). rewrite Nat2Z.inj_sub by exact X. rewrite Q. lia. }
      rewrite F. exists b', (Some (off + Z.of_nat (length l) * delta c)), o. split; [exact E1|]. split.
      * unfold holding. rewrite rev_app_distr. cbn [rev app]. split; [exact E2|]. rewrite app_length, Q. f_equal. lia.
      * rewrite GS, !map_app, !concat_app. cbn [map concat]. rewrite !app_nil_r, <- app_assoc, E3. reflexivity.
    + destruct (one off [] ltac:(cbn [length]; lia)) as [b' [o [E1 [E2 E3]]]]. cbn [length] in E1.
      assert (Z0 : (count c 0 * remainder c)%nat = 0%nat) by (assert (X := count_le c 0 H); lia).
      rewrite Z0 in E1. cbn [skipn app] in E1. replace (off + Z.of_nat 0 * delta c) with off in E1 by lia.
      cbn [app]. exists b', (Some (off + Z.of_nat (length l) * delta c)), o. split; [exact E1|]. split.
      * unfold holding. rewrite rev_app_distr. cbn [rev app]. split; [exact E2 | reflexivity].
      * rewrite map_app, concat_app. cbn [map concat]. rewrite app_nil_r. f_equal. cbn [app] in E3. rewrite E3.
        unfold outs_of at 1. cbn [fst snd length].
        assert (C0 : count c 0 = 0%nat) by (destruct H as [[H1 H2] H3]; nia). rewrite C0. reflexivity.
Qed.

(** ** Runs without a trigger *)
Lemma with_data_same : forall s b n, cf (with_data s b n) = cf s /\ valid (with_data s b n) = valid s /\
  nested (with_data s b n) = nested s /\ hist (with_data s b n) = hist s /\ buf (with_data s b n) = b /\ next (with_data s b n) = n.
Proof. intros s b n. repeat split; reflexivity. Qed.

Lemma untriggered : forall c ps s s0, sensible c -> valid s = true -> cf s = Some c -> nested s = false ->
  holding c (stretches (delta c) s0) (buf s) (next s) -> Forall (fun p => snd p <> []) ps ->
  let r := run s (map (fun p : packet => Input (fst p) (snd p)) ps) in
  crash r = false /\ past_end r = false /\
  concat (map (outs_of c) (stretches (delta c) (s0 ++ stream (delta c) ps)))
    = concat (map (outs_of c) (stretches (delta c) s0)) ++ outs r.
Proof.
  intros c ps. induction ps as [|[off l] ps IH]; intros s s0 H V C NE HB NN; cbn [map run fst snd].
  - unfold stream. cbn [map concat only crash past_end outs]. rewrite !app_nil_r. repeat split; reflexivity.
  - inversion NN as [|x y N1 N2]; subst. cbn [snd] in N1. cbn [step]. unfold input. rewrite V, C, NE.
    unfold calculate_and_send. destruct (calculate_ok c _ _ _ off l H HB) as [b' [n' [o [E1 [E2 E3]]]]].
    rewrite E1. cbn [crash after outs past_end].
    destruct (IH (with_data s b' n') (s0 ++ timed (delta c) off l) H V C NE) as [A [B D]].
    + rewrite stretches_app by exact N1. exact E2.
    + exact N2.
    + cbn zeta in A, B, D. split; [exact A|]. split; [exact B|].
      unfold stream in *. cbn [map concat]. rewrite <- timed_ticks, app_assoc, D.
      rewrite stretches_app by exact N1. rewrite E3, <- app_assoc. reflexivity.
Qed.
