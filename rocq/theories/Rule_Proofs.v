From Verif Require Import Base Rule_Model Rule_Spec.
Local Open Scope Z_scope.

(** wrapT *)
Lemma pow_half : forall b, 1 <= b -> 2 ^ b / 2 = 2 ^ (b - 1) /\ 2 ^ b = 2 * 2 ^ (b - 1) /\ 0 < 2 ^ (b - 1).
Proof.
  intros b Hb. assert (E : 2 ^ b = 2 * 2 ^ (b - 1)).
  { rewrite <- Z.pow_succ_r by lia. f_equal. lia. }
  split; [|split; [exact E|apply Z.pow_pos_nonneg; lia]].
  rewrite E. rewrite Z.mul_comm. apply Z.div_mul. lia.
Qed.
Lemma wrapT_cong : forall s b x, 1 <= b -> congruent b (wrapT s b x) x.
Proof.
  intros s b x Hb. destruct (pow_half b Hb) as (E1 & E2 & E3). unfold congruent, wrapT. destruct s.
  - exists (- ((x + 2 ^ b / 2) / 2 ^ b)). pose proof (Z.div_mod (x + 2 ^ b / 2) (2 ^ b) ltac:(lia)). lia.
  - exists (- (x / 2 ^ b)). pose proof (Z.div_mod x (2 ^ b) ltac:(lia)). lia.
Qed.
Lemma wrapT_range : forall s b x, 1 <= b -> in_range s b (wrapT s b x).
Proof.
  intros s b x Hb. destruct (pow_half b Hb) as (E1 & E2 & E3). unfold in_range, wrapT. destruct s.
  - pose proof (Z.mod_pos_bound (x + 2 ^ b / 2) (2 ^ b) ltac:(lia)). lia.
  - apply Z.mod_pos_bound. lia.
Qed.
Lemma congruent_range_eq : forall s b x y, 1 <= b -> in_range s b x -> in_range s b y -> congruent b x y -> x = y.
Proof.
  intros s b x y Hb Hx Hy [k Hk]. destruct (pow_half b Hb) as (E1 & E2 & E3). unfold in_range in *.
  assert (k = 0); [|subst k; lia].
  destruct s; rewrite ?E2 in *; nia.
Qed.

Lemma linear_closed : forall s b d st o i, 1 <= b ->
  in_range s b (linearAt (int_arith s b) d st o i) /\ congruent b (linearAt (int_arith s b) d st o i) (d * Z.of_nat i + st + o).
Proof.
  intros s b d st o i Hb. split; [apply wrapT_range; exact Hb|].
  unfold linearAt. cbn [int_arith a_of a_add a_mul].
  destruct (wrapT_cong s b d Hb) as [k1 E1]. destruct (wrapT_cong s b (Z.of_nat i) Hb) as [k2 E2].
  destruct (wrapT_cong s b o Hb) as [k3 E3]. destruct (wrapT_cong s b st Hb) as [k4 E4].
  set (D := wrapT s b d) in *. set (I := wrapT s b (Z.of_nat i)) in *. set (O := wrapT s b o) in *. set (S0 := wrapT s b st) in *.
  destruct (wrapT_cong s b (D * I) Hb) as [k5 E5]. destruct (wrapT_cong s b (O + S0) Hb) as [k6 E6].
  set (P := wrapT s b (D * I)) in *. set (Q := wrapT s b (O + S0)) in *.
  destruct (wrapT_cong s b (P + Q) Hb) as [k7 E7]. rewrite E7, E5, E6, E1, E2, E3, E4.
  exists (k7 + k5 + k6 + k3 + k4 + k1 * Z.of_nat i + d * k2 + k1 * k2 * 2 ^ b). ring.
Qed.

Lemma linear_array : forall T d s o n i, (i < n)%nat -> nth_error (calculateLinearRule T d s o n) i = Some (linearAt T d s o i).
Proof.
  intros T d s o n i Hi. unfold calculateLinearRule. apply map_nth_error.
  rewrite (nth_error_nth' _ 0%nat) by (rewrite seq_length; exact Hi). rewrite seq_nth by exact Hi. reflexivity.
Qed.
Lemma linear_array_length : forall T d s o n, length (calculateLinearRule T d s o n) = n.
Proof. intros. unfold calculateLinearRule. rewrite map_length, seq_length. reflexivity. Qed.

(** Any rule packet whose raw accessors agree with the full array gives agreeing values. *)
Lemma linear_raw : forall T b n d s o ref i, (i < n)%nat ->
  getRawValueByIndex (linear_packet T b n d s o ref) i = Ok (linearAt T d s o i).
Proof.
  intros. unfold getRawValueByIndex, hasRawDataOnly. cbn [linear_packet p_count p_scaling p_rule p_raw p_T].
  replace (n <=? i)%nat with false by lia.
  destruct (Nat.eqb_spec i (n - 1)); [|reflexivity].
  unfold calculateLastLinearSample. subst i. reflexivity.
Qed.

Lemma linear_values : forall T b n d s o ref l i, ref <> Some 0 ->
  getData (linear_packet T b n d s o ref) = Ok l -> (i < n)%nat ->
  value_agrees (linear_packet T b n d s o ref) l i.
Proof.
  intros T b n d s o ref l i Hz HD Hi. unfold value_agrees, getValueByIndex. rewrite linear_raw by exact Hi.
  unfold getData, hasRawDataOnly, rule_data, hasReferenceDomainOffset, addOffset in *.
  cbn [linear_packet p_count p_scaling p_rule p_raw p_refOff p_isInt p_T] in *.
  replace (n =? 0)%nat with false in HD by lia.
  destruct ref as [r|].
  - assert (r <> 0) by congruence. replace (r =? 0) with false in HD by lia. cbn [negb] in HD.
    destruct b; [|discriminate]. injection HD as <-.
    rewrite (map_nth_error _ _ _ (linear_array T d s o n i Hi)). cbn [map]. eauto.
  - injection HD as <-. rewrite (linear_array T d s o n i Hi). eauto.
Qed.

(** For integer types a zero reference offset is harmless as well. *)
Lemma wrapT_id : forall s b x, 1 <= b -> in_range s b x -> wrapT s b x = x.
Proof.
  intros s b x Hb H. apply (congruent_range_eq s b); auto; [apply wrapT_range; exact Hb|apply wrapT_cong; exact Hb].
Qed.
Lemma linear_values_int : forall sg w n d s o ref l i, 1 <= w ->
  getData (linear_packet (int_arith sg w) true n d s o ref) = Ok l -> (i < n)%nat ->
  value_agrees (linear_packet (int_arith sg w) true n d s o ref) l i.
Proof.
  intros sg w n d s o ref l i Hw HD Hi.
  destruct ref as [r|]; [|apply linear_values; auto; discriminate].
  destruct (Z.eq_dec r 0) as [->|Hr]; [|apply linear_values; auto; congruence].
  unfold value_agrees, getValueByIndex. rewrite linear_raw by exact Hi.
  unfold getData, hasRawDataOnly, rule_data, hasReferenceDomainOffset, addOffset in *.
  cbn [linear_packet p_count p_scaling p_rule p_raw p_refOff p_isInt p_T Z.eqb negb] in *.
  replace (n =? 0)%nat with false in HD by lia. injection HD as <-.
  rewrite (linear_array _ d s o n i Hi). eexists. split; [reflexivity|]. cbn [map].
  f_equal. cbn [int_arith a_add a_of].
  assert (Z0 : wrapT sg w 0 = 0).
  { apply wrapT_id; [exact Hw|]. destruct (pow_half w Hw) as (E1 & E2 & E3). unfold in_range. destruct sg; lia. }
  rewrite Z0, Z.add_0_r. apply wrapT_id; [exact Hw|]. apply (proj1 (linear_closed sg w d s o i Hw)).
Qed.

(** Constant rule, full array. *)
Lemma value_at_cons : forall init p v es i, ordered ((p, v) :: es) ->
  value_at init ((p, v) :: es) i = if (p <=? i)%nat then value_at v es i else init.
Proof.
  intros init p v es i [HO _]. unfold value_at. cbn [filter fst].
  destruct (Nat.leb_spec p i).
  - cbn [rev]. destruct (rev (filter (fun e => (fst e <=? i)%nat) es)) as [|e l]; reflexivity.
  - cbn [fst] in HO. assert (E : filter (fun e => (fst e <=? i)%nat) es = []).
    { clear - HO H. induction es as [|e es IH]; [reflexivity|]. inversion HO; subst. cbn [filter].
      destruct (Nat.leb_spec (fst e) i); [lia|]. apply IH; assumption. }
    rewrite E. reflexivity.
Qed.

Lemma constLoop_spec : forall n es written c, ordered es -> inside n es -> (length written <= n)%nat ->
  exists l, constLoop n written c es = Ok l /\ length l = n /\
    forall i, (i < n)%nat -> nth_error l i = if (i <? length written)%nat then nth_error written i else Some (value_at c es i).
Proof.
  intros n. induction es as [|[p v] es IH]; intros written c HO HI HL; cbn [constLoop].
  - destruct (Nat.ltb_spec (length written) n) as [H|H].
    + eexists. split; [reflexivity|]. split; [rewrite app_length, repeat_length; lia|]. intros i Hi.
      destruct (Nat.ltb_spec i (length written)).
      * apply nth_error_app1. lia.
      * rewrite nth_error_app2 by lia. rewrite (nth_error_repeat); [reflexivity|lia].
    + exists written. split; [reflexivity|]. split; [lia|]. intros i Hi. replace (i <? length written)%nat with true by lia. reflexivity.
  - destruct HO as [HO1 HO2]. inversion HI as [|? ? HI1 HI2]; subst. cbn [fst] in *.
    destruct (Nat.ltb_spec (length written) n) as [H|H].
    + replace (n <? p)%nat with false by lia.
      destruct (IH (written ++ repeat c (p - length written)) v HO2 HI2) as (l & E & L & N).
      { rewrite app_length, repeat_length. lia. }
      exists l. split; [exact E|]. split; [exact L|]. intros i Hi. rewrite (N i Hi). rewrite app_length, repeat_length.
      rewrite value_at_cons by (split; assumption).
      destruct (Nat.ltb_spec i (length written + (p - length written))), (Nat.ltb_spec i (length written)), (Nat.leb_spec p i); try lia.
      * apply nth_error_app1. lia.
      * apply nth_error_app1. lia.
      * rewrite nth_error_app2 by lia. apply nth_error_repeat. lia.
      * reflexivity.
    + exists written. split; [reflexivity|]. split; [lia|]. intros i Hi. replace (i <? length written)%nat with true by lia. reflexivity.
Qed.

Theorem const_array : forall n init es, ordered es -> inside n es ->
  exists l, calculateConstantRule n init es = Ok l /\ length l = n /\ forall i, (i < n)%nat -> nth_error l i = Some (value_at init es i).
Proof. intros n init es HO HI. apply (constLoop_spec n es [] init HO HI). cbn. lia. Qed.

Lemma constSample_spec : forall i es c, ordered es -> Forall (fun e => fst e <> i) es -> constSampleLoop i c es = value_at c es i.
Proof.
  intros i. induction es as [|[p v] es IH]; intros c HO HN; [reflexivity|].
  rewrite value_at_cons by exact HO. destruct HO as [HO1 HO2]. inversion HN; subst. cbn [fst constSampleLoop] in *.
  destruct (Nat.leb_spec i p), (Nat.leb_spec p i); try lia. apply IH; assumption.
Qed.

(** Exact description of the sample accessor, including the boundary: it ignores a change at [i]. *)
Lemma lastLoop_spec : forall n es c, (0 < n)%nat -> Forall (fun e => fst e <> (n - 1)%nat) es ->
  lastLoop n (rev es) c = value_at c es (n - 1).
Proof.
  intros n es c Hn. unfold value_at. induction es as [|[p v] es IH] using rev_ind; intros HN; [reflexivity|].
  rewrite rev_app_distr. cbn [rev app lastLoop]. rewrite filter_app, rev_app_distr. cbn [filter fst].
  apply Forall_app in HN. destruct HN as [HN1 HN2]. inversion HN2; subst. cbn [fst] in *.
  destruct (Nat.ltb_spec p (n - 1)), (Nat.leb_spec p (n - 1)); try lia; cbn [rev app snd]; try reflexivity. apply IH. exact HN1.
Qed.

Theorem constant_values : forall T n init es i l, ordered es -> inside n es -> (i < n)%nat -> Forall (fun e => fst e <> i) es ->
  getData (constant_packet T n init es) = Ok l -> value_agrees (constant_packet T n init es) l i.
Proof.
  intros T n init es i l HO HI Hi HN HD. unfold value_agrees, getValueByIndex, getRawValueByIndex, getData, hasRawDataOnly, rule_data, hasReferenceDomainOffset in *.
  cbn [constant_packet p_count p_scaling p_rule p_raw p_refOff p_isInt p_T] in *.
  replace (n =? 0)%nat with false in HD by lia. replace (n <=? i)%nat with false by lia.
  destruct (const_array n init es HO HI) as (l' & E & L & N). rewrite E in HD. injection HD as <-.
  rewrite (N i Hi). eexists. split; [reflexivity|]. f_equal.
  destruct (Nat.eqb_spec i (n - 1)) as [->|Hne].
  - apply lastLoop_spec; [lia|exact HN].
  - apply constSample_spec; assumption.
Qed.

(** Explicit packets. *)
Theorem explicit_values : forall p l i, explicit_ok p -> getData p = Ok l -> (i < p_count p)%nat -> value_agrees p l i.
Proof.
  intros p l i (HR & HL & HO) HD Hi. unfold value_agrees, getValueByIndex, getRawValueByIndex, getData in *.
  replace (p_count p =? 0)%nat with false in HD by lia. replace (p_count p <=? i)%nat with false by lia.
  destruct (nth_error (p_raw p) i) as [x|] eqn:Ex; [|apply nth_error_None in Ex; lia].
  unfold hasRawDataOnly in *. rewrite HR in *. unfold hasReferenceDomainOffset, addOffset in *.
  destruct HO as [HO|[[f HO] HO2]].
  - rewrite HO in *. cbn [negb] in *. destruct (p_scaling p) as [f|].
    + injection HD as <-. rewrite (map_nth_error f _ _ Ex). eauto.
    + injection HD as <-. eauto.
  - rewrite HO in *. destruct (p_refOff p) as [r|]; [|discriminate]. rewrite HO2 in HD. destruct (p_isInt p); [|discriminate].
    injection HD as <-. rewrite map_map. rewrite (map_nth_error _ _ _ Ex). cbn [map]. eauto.
Qed.
