(** Data descriptors: which builders are accepted, the sizes, copies. *)
From Verif Require Import Base Desc_Model Desc_Spec Desc_Proofs Desc_Step.
Local Open Scope Z_scope.

(** ** Dimensions *)
Lemma labels_ok : forall l, labelsValid l = true <-> SameKind l.
Proof.
  intros l; split.
  - destruct l as [|v r]; [intros _; apply Strings; constructor|]. unfold labelsValid. intros E. apply andb_prop in E; destruct E as [N E].
    rewrite forallb_forall in E.
    assert (A : forall k, label v = k -> Forall (fun w => label w = k) (v :: r))
      by (intros k L; apply Forall_forall; intros w IW; apply E in IW; apply Z.eqb_eq in IW; congruence).
    destruct v; cbn [label Z.eqb negb] in N; try discriminate.
    + apply Numbers. eapply Forall_impl; [|exact (A 2 eq_refl)]. intros [ ]; cbn [label]; try discriminate; eauto.
    + apply Strings. eapply Forall_impl; [|exact (A 1 eq_refl)]. intros [ ]; cbn [label]; try discriminate; eauto.
    + apply Ranges. eapply Forall_impl; [|exact (A 3 eq_refl)]. intros [ ]; cbn [label]; try discriminate; eauto.
  - intros K. destruct l as [|v r]; [reflexivity|]. unfold labelsValid.
    assert (A : forall k, k <> 0 -> Forall (fun w => label w = k) (v :: r) -> negb (label v =? 0) && forallb (fun w => label w =? label v) (v :: r) = true).
    { intros k NZ F. pose proof F as F'. inversion F' as [|? ? Lv Lr]; subst. apply andb_true_intro; split.
      - apply negb_true_iff, Z.eqb_neq. congruence.
      - apply forallb_forall. intros w IW. rewrite Forall_forall in F. apply Z.eqb_eq. rewrite (F w IW). reflexivity. }
    inversion K as [? F|? F|? F]; subst; [apply (A 1) | apply (A 2) | apply (A 3)]; try discriminate;
      (eapply Forall_impl; [|exact F]); intros w; [intros [z ->] | intros [z ->] | intros [x [y ->]]]; reflexivity.
Qed.
Lemma w64_mod : forall n, w64 n = n mod two_64.
Proof. reflexivity. Qed.

Lemma Entries_fun : forall h a l l', Entries h a l -> Entries h a l' -> l = l'.
Proof. intros h a l l' [b A] [b' B]. congruence. Qed.
Lemma Items_fun : forall h a l l', Items h a l -> Items h a l' -> l = l'.
Proof. intros h a l l' [b A] [b' B]. congruence. Qed.
Lemma Value_fun : forall l k v v', Value l k v -> Value l k v' -> v = v'.
Proof. intros l k v v' A B. apply lookup_Value in A, B. congruence. Qed.

Lemma dimSize_iff : forall h d n, good_dim h (dm_rule d) -> (dimSize h d = Ok n <-> DimLength h (VDim d) n).
Proof.
  intros h d n [l [C G]]. assert (E : Entries h (dr_params (dm_rule d)) l) by (exists true; exact C).
  assert (AD : asDict h (dr_params (dm_rule d)) = Some l) by (apply asDict_Entries; exact E).
  unfold dimSize. destruct (dr_type (dm_rule d)) eqn:T.
  - split; [discriminate|]. intros H; inversion H as [d0 l0 n0 [K|K] |d0 l0 b0 ls K]; subst; congruence.
  - unfold verifyDimRule; rewrite AD, G. split.
    + intros [= <-]. apply andb_prop in G; destruct G as [_ G]. apply andb_prop in G; destruct G as [_ G].
      rewrite w64_mod. eapply by_number; [left; exact T | exact E | apply isNumber_Value; exact G].
    + intros H; inversion H as [d0 l0 n0 K E0 V | d0 l0 b0 ls K E0 V It Sk]; subst; [|congruence].
      rewrite (Entries_fun _ _ _ _ E0 E) in V. rewrite (proj2 (Value_isNumber _ _ _ V)). reflexivity.
  - unfold verifyDimRule; rewrite AD, G. split.
    + intros [= <-]. apply andb_prop in G; destruct G as [_ G]. apply andb_prop in G; destruct G as [G _]. apply andb_prop in G; destruct G as [_ G].
      rewrite w64_mod. eapply by_number; [right; exact T | exact E | apply isNumber_Value; exact G].
    + intros H; inversion H as [d0 l0 n0 K E0 V | d0 l0 b0 ls K E0 V It Sk]; subst; [|congruence].
      rewrite (Entries_fun _ _ _ _ E0 E) in V. rewrite (proj2 (Value_isNumber _ _ _ V)). reflexivity.
  - unfold verifyDimRule; rewrite AD. split.
    + destruct (lookup l KList) as [[ | | |b| | | | ]|] eqn:L; try discriminate.
      destruct (asList h b) as [ls|] eqn:AL; [|discriminate]. destruct (labelsValid ls) eqn:LV; [|discriminate].
      intros [= <-]. eapply by_labels; [exact T | exact E | apply lookup_Value; exact L | apply asList_Items; exact AL | apply labels_ok; exact LV].
    + intros H; inversion H as [d0 l0 n0 [K|K] E0 V | d0 l0 b0 ls K E0 V It Sk]; subst; [congruence | congruence |].
      rewrite (Entries_fun _ _ _ _ E0 E) in V. apply lookup_Value in V. rewrite V. apply asList_Items in It. rewrite It.
      apply labels_ok in Sk. rewrite Sk. reflexivity.
Qed.

(** the number of elements *)
Lemma count_ok : forall h l acc, Forall (good_val h) l ->
  ((exists n, elementCount h l acc = Ok n) <-> Forall (fun v => exists n, DimLength h v n) l).
Proof.
  induction l as [|v r IH]; intros acc G; cbn [elementCount].
  - split; [constructor | intros _; eexists; reflexivity].
  - inversion G as [|? ? Gv Gr]; subst.
    destruct v; try (split; [intros [n H]; discriminate | intros F; inversion F as [|? ? [n H] _]; subst; inversion H]).
    cbn [good_val] in Gv. destruct (dimSize h d) as [n|e] eqn:D.
    + rewrite (IH _ Gr). split; intros H.
      * constructor; [exists n; apply dimSize_iff; assumption | exact H].
      * inversion H; assumption.
    + split; [intros [n H]; discriminate|]. intros F; inversion F as [|? ? [n H] _]; subst. apply (dimSize_iff h d n Gv) in H. congruence.
Qed.
Lemma DimLength_range : forall h v n, DimLength h v n -> 0 <= n.
Proof. intros h v n H; inversion H; subst; [apply Z.mod_pos_bound; reflexivity | lia]. Qed.
Lemma product_pos : forall l, Forall (fun n => 0 < n) l -> 1 <= product l.
Proof. induction l as [|n r IH]; intros F; cbn [product]; [lia|]. inversion F; subst. specialize (IH H2). nia. Qed.
Lemma count_product : forall h l ns acc, Forall (good_val h) l -> Forall2 (DimLength h) l ns -> Forall (fun n => 0 < n) ns ->
  0 < acc -> acc * product ns < two_64 -> elementCount h l acc = Ok (acc * product ns).
Proof.
  induction l as [|v r IH]; intros ns acc G F P A B; inversion F as [|? n ? ns' Dv Dr]; subst; cbn [elementCount product] in *.
  - destruct (acc =? 0) eqn:Z0; [apply Z.eqb_eq in Z0; lia|]. f_equal; lia.
  - inversion G as [|? ? Gv Gr]; subst. inversion P as [|? ? Pn Pr]; subst.
    destruct v; try solve [inversion Dv]. cbn [good_val] in Gv. apply (dimSize_iff h d n Gv) in Dv. rewrite Dv.
    pose proof (product_pos _ Pr) as PP.
    assert (W : w64 (acc * n) = acc * n) by (rewrite w64_mod; apply Z.mod_small; split; nia).
    rewrite W, (IH ns' (acc * n) Gr Dr Pr); [f_equal; ring | nia | rewrite <- Z.mul_assoc; exact B].
Qed.
Lemma count_pos : forall h l acc n, 0 <= acc -> elementCount h l acc = Ok n -> 1 <= n.
Proof.
  induction l as [|v r IH]; intros acc n A E; cbn [elementCount] in E.
  - injection E as <-. destruct (acc =? 0) eqn:Z0; [lia | apply Z.eqb_neq in Z0; lia].
  - destruct v; try discriminate. destruct (dimSize h d) as [m|]; [|discriminate]. eapply IH; [|exact E]. apply w64_pos.
Qed.

(** the parts of a struct *)
Lemma fieldSizes_ok : forall l a b, (exists p, fieldSizes l a b = Ok p) <-> Forall (fun v => exists d, v = VDesc d) l.
Proof.
  induction l as [|v r IH]; intros a b; cbn [fieldSizes].
  - split; [constructor | intros _; eexists; reflexivity].
  - destruct v; try (split; [intros [p H]; discriminate | intros F; inversion F as [|? ? [d' H] _]; subst; discriminate]).
    rewrite IH. split; intros H; [constructor; eauto | inversion H; assumption].
Qed.
Lemma sum_pos : forall l, Forall (fun n => 0 <= n) l -> 0 <= sum l.
Proof. induction l as [|n r IH]; intros F; cbn [sum]; [lia|]. inversion F; subst. specialize (IH H2). lia. Qed.
Lemma fieldSizes_sum : forall parts a b,
  Forall (fun n => 0 <= n) (map sampleSize parts) -> Forall (fun n => 0 <= n) (map rawSampleSize parts) -> 0 <= a -> 0 <= b ->
  a + sum (map sampleSize parts) < two_64 -> b + sum (map rawSampleSize parts) < two_64 ->
  fieldSizes (map VDesc parts) a b = Ok (a + sum (map sampleSize parts), b + sum (map rawSampleSize parts)).
Proof.
  induction parts as [|d r IH]; intros a b P Q A B X Y; cbn [map fieldSizes sum] in *.
  - f_equal; f_equal; lia.
  - inversion P as [|? ? P1 P2]; inversion Q as [|? ? Q1 Q2]; subst.
    pose proof (sum_pos _ P2) as S1. pose proof (sum_pos _ Q2) as S2.
    assert (W1 : w64 (a + sampleSize d) = a + sampleSize d) by (rewrite w64_mod; apply Z.mod_small; lia).
    assert (W2 : w64 (b + rawSampleSize d) = b + rawSampleSize d) by (rewrite w64_mod; apply Z.mod_small; lia).
    rewrite W1, W2, IH by (assumption || lia). f_equal; f_equal; lia.
Qed.

(** ** Acceptance *)
Lemma structValid_ok : forall f fs, fs <> [] ->
  (structValid f = true /\ Forall (fun v => exists d, v = VDesc d) fs <-> ConsistentStruct f fs).
Proof.
  intros f fs NE; unfold structValid, ConsistentStruct, has_rule. split.
  - intros [V F]. repeat (apply andb_prop in V; destruct V as [V ?]).
    split; [destruct (kind f); try discriminate; reflexivity|].
    split. { destruct (rule f) as [r|]; [|discriminate]. exists r; split; [reflexivity|]. destruct (ru_type r); try discriminate; reflexivity. }
    split; [destruct (unit_ f); [discriminate | reflexivity]|].
    split; [destruct (scale f); [discriminate | reflexivity]|].
    split; [destruct (range f); [discriminate | reflexivity]|].
    split; [destruct (resolution f); [discriminate | reflexivity]|].
    split; [destruct (origin f) as [[|]|]; try discriminate; reflexivity|].
    split; [|exact F]. destruct (name f) as [[|c t]|]; try discriminate. eauto.
  - intros [K [[r [R T]] [U [SC [RG [RS [O [[c [t N]] F]]]]]]]]. split; [|exact F].
    rewrite K, R, T, U, SC, RG, RS, O, N. reflexivity.
Qed.

Lemma ruleCalcType_ok : forall k, ruleCalcType k = true <-> Real k \/ k = RangeInt64.
Proof.
  intros k; destruct k; (split; [try (intros; discriminate) | intros [H|H]; try (inversion H; fail); try reflexivity; try discriminate]);
    intros _; try (right; reflexivity); left; constructor.
Qed.
Lemma scalingCalcType_ok : forall s, scalingCalcType s = true <-> Real (sc_in s) /\ sc_out s <> SInvalid.
Proof.
  intros s; unfold scalingCalcType. split.
  - intros H. apply andb_prop in H; destruct H as [H O]. split; [|destruct (sc_out s); congruence].
    destruct (sc_in s); try discriminate; constructor.
  - intros [R O]. destruct (sc_out s); [congruence | |]; inversion R; reflexivity.
Qed.
Lemma Real_rank : forall k, (rank RangeInt64 <=? rank k) = false <-> Real k \/ k = Undefined.
Proof.
  intros k; destruct k; (split; [try (intros; discriminate) | intros [H|H]; try (inversion H; fail); try reflexivity; try discriminate]);
    intros _; try (right; reflexivity); left; constructor.
Qed.
Lemma kind_eqb : forall a b, sample_eqb a b = true <-> a = b.
Proof. intros a b; destruct a, b; split; intros H; try discriminate; reflexivity. Qed.

(** everything a plain descriptor is asked for before its dimensions *)
Definition plain_accepted (h : heap) (f : fields) (dl : list val) : Prop :=
  exists r rc sc, rule f = Some r /\ plainValid f (length dl) = None /\ plainValid2 f r = None /\
                  makeRuleCalc h f = Ok rc /\ makeScaleCalc h f = Ok sc.
Lemma plain_ok : forall h f dl, good_fields h f -> (plain_accepted h f dl <-> ConsistentPlain h f dl).
Proof.
  intros h f dl [_ [_ [_ GR]]]. unfold plain_accepted, ConsistentPlain, has_rule. split.
  - intros [r [rc [sc [R [P [P2 [C1 C2]]]]]]]. unfold plainValid in P. unfold plainValid2 in P2. unfold makeRuleCalc in C1. unfold makeScaleCalc in C2.
    rewrite R in P, C1 |- *.
    destruct (match ru_type r with RLinear => rank RangeInt64 <? rank (kind f) | _ => false end) eqn:B1; [discriminate|].
    destruct (match reference f with Some i => match in_offset i with Some z => negb (z =? 0) && (rank RangeInt64 <=? rank (kind f)) | None => false end
              | None => false end) eqn:B2; [discriminate|].
    destruct (match ru_type r with RConstant => negb (none (reference f)) | _ => false end) eqn:B3; [discriminate|].
    destruct (negb (none (scale f)) && negb (none (reference f))) eqn:B4; [discriminate|].
    split; [discriminate|].
    split. { intros [r' [[= <-] T]]. rewrite T in C1. destruct (ruleCalcType (kind f)) eqn:RC; [|discriminate]. apply ruleCalcType_ok; exact RC. }
    split. { intros [r' [[= <-] T]]. rewrite T in C1, B3. destruct (ruleCalcType (kind f)) eqn:RC; [|discriminate].
             split; [apply ruleCalcType_ok; exact RC|]. destruct (reference f); [discriminate | reflexivity]. }
    split. { intros i z RI OI NZ. rewrite RI, OI in B2. apply Real_rank. destruct (z =? 0) eqn:Z0; [apply Z.eqb_eq in Z0; contradiction | exact B2]. }
    intros s SS. rewrite SS in P, B4, C2.
    destruct (sample_eqb (kind f) (convertScaled (sc_out s))) eqn:K; cbn [negb] in P; [|discriminate]. apply kind_eqb in K.
    destruct (is_explicit (ru_type r)) eqn:X; [|discriminate]. destruct (none (resolution f)) eqn:RS; [|discriminate].
    destruct (is_empty (origin f)) eqn:O; [|discriminate]. cbn [negb orb] in P.
    destruct (0 <? length dl)%nat eqn:L; [discriminate|].
    destruct (scalingCalcType s) eqn:SCT; [|discriminate]. apply scalingCalcType_ok in SCT. destruct SCT as [SR SO].
    split. { exists r; split; [reflexivity|]. destruct (ru_type r); try discriminate; reflexivity. }
    split; [destruct (resolution f); [discriminate | reflexivity]|].
    split; [destruct (origin f) as [[|]|]; try discriminate; reflexivity|].
    split; [destruct dl; [reflexivity | discriminate]|].
    split; [destruct (reference f); [discriminate | reflexivity]|].
    split; [destruct (sc_out s); [congruence | left; auto | right; auto]|].
    split; [exact SR|]. intros T. rewrite T in C2. destruct (asDict h (sc_params s)) as [l|] eqn:AD; [|discriminate].
    destruct (isNumber l KScale) eqn:N1; [|discriminate]. destruct (isNumber l KOffset) eqn:N2; [|discriminate].
    exists l, (numberAt l KScale), (numberAt l KOffset).
    split; [apply asDict_Entries; exact AD|]. split; apply isNumber_Value; assumption.
  - intros [NR [CL [CC [CO CS]]]]. destruct (rule f) as [r|] eqn:R; [|congruence].
    assert (C1 : exists rc, makeRuleCalc h f = Ok rc).
    { unfold makeRuleCalc. rewrite R. destruct (ru_type r) eqn:T; try (eexists; reflexivity).
      - rewrite (proj2 (ruleCalcType_ok _) (CL (ex_intro _ r (conj eq_refl T)))).
        pose proof (GR r eq_refl) as G. unfold good_rule in G. destruct (ru_params r) as [a|]; [|congruence].
        destruct G as [l [E _]]. rewrite (proj2 (asDict_Entries h a l)) by (exists true; exact E). eexists; reflexivity.
      - rewrite (proj2 (ruleCalcType_ok _) (proj1 (CC (ex_intro _ r (conj eq_refl T))))). eexists; reflexivity. }
    destruct C1 as [rc C1].
    assert (C2 : exists sc, makeScaleCalc h f = Ok sc).
    { unfold makeScaleCalc. destruct (scale f) as [s|] eqn:SS; [|eexists; reflexivity].
      destruct (CS s eq_refl) as [_ [_ [_ [_ [_ [O [SR LN]]]]]]].
      rewrite (proj2 (scalingCalcType_ok s)) by (split; [exact SR | destruct O as [[-> _]|[-> _]]; discriminate]).
      destruct (sc_type s); [eexists; reflexivity|]. destruct (LN eq_refl) as [l [a [b [E [V1 V2]]]]].
      rewrite (proj2 (asDict_Entries _ _ _) E). rewrite (proj1 (Value_isNumber _ _ _ V1)), (proj1 (Value_isNumber _ _ _ V2)). eexists; reflexivity. }
    destruct C2 as [sc C2]. exists r, rc, sc. split; [reflexivity|].
    split. { unfold plainValid. rewrite R. destruct (scale f) as [s|] eqn:SS; [|reflexivity].
             destruct (CS s eq_refl) as [[r' [[= <-] X]] [RS [O [L [_ [KO _]]]]]].
             assert (K : kind f = convertScaled (sc_out s)) by (destruct KO as [[-> ->]|[-> ->]]; reflexivity).
             rewrite (proj2 (kind_eqb _ _) K), X, RS, O, L. reflexivity. }
    split; [|split; [exact C1 | exact C2]].
    unfold plainValid2.
    assert (B1 : match ru_type r with RLinear => rank RangeInt64 <? rank (kind f) | _ => false end = false).
    { destruct (ru_type r) eqn:T; try reflexivity. destruct (CL (ex_intro _ r (conj eq_refl T))) as [K|K]; [inversion K; reflexivity | rewrite K; reflexivity]. }
    assert (B2 : match reference f with Some i => match in_offset i with Some z => negb (z =? 0) && (rank RangeInt64 <=? rank (kind f)) | None => false end
              | None => false end = false).
    { destruct (reference f) as [i|] eqn:RF; [|reflexivity]. destruct (in_offset i) as [z|] eqn:OI; [|reflexivity].
      destruct (z =? 0) eqn:Z0; [reflexivity|]. apply Z.eqb_neq in Z0. cbn [negb andb]. apply Real_rank. apply (CO i z); auto. }
    assert (B3 : match ru_type r with RConstant => negb (none (reference f)) | _ => false end = false).
    { destruct (ru_type r) eqn:T; try reflexivity. rewrite (proj2 (CC (ex_intro _ r (conj eq_refl T)))). reflexivity. }
    assert (B4 : negb (none (scale f)) && negb (none (reference f)) = false).
    { destruct (scale f) as [s|] eqn:SS; [|reflexivity]. destruct (CS s eq_refl) as [_ [_ [_ [_ [RN _]]]]]. rewrite RN. reflexivity. }
    rewrite B1, B2, B3, B4. reflexivity.
Qed.

Lemma outcome_iff : forall h f dl fs, good_fields h f -> Forall (good_val h) dl ->
  ((exists d, outcome h f dl fs = Ok d) <-> Consistent h f dl fs).
Proof.
  intros h f dl fs GF GD. unfold Consistent. rewrite <- (count_ok h dl 1 GD). unfold outcome.
  destruct fs as [|x fs].
  - rewrite <- (plain_ok h f dl GF). unfold sizes. split.
    + intros [d H]. destruct (plainValid f (length dl)) eqn:P; [discriminate|]. destruct (rule f) as [r|] eqn:R; [|discriminate].
      destruct (plainValid2 f r) eqn:P2; [discriminate|].
      destruct (makeRuleCalc h f) as [rc|] eqn:C1; [|discriminate]. destruct (makeScaleCalc h f) as [sc|] eqn:C2; [|discriminate].
      destruct (elementCount h dl 1) as [n|]; [|discriminate]. split; [|eexists; reflexivity].
      right. split; [reflexivity|]. exists r, rc, sc. rewrite R; auto 6.
    + intros [[[N _]|[_ [r [rc [sc [R [P [P2 [C1 C2]]]]]]]]] [n E]]; [congruence|].
      rewrite P, R, P2, C1, C2, E. eexists; reflexivity.
  - assert (NE : x :: fs <> []) by discriminate. pose proof (structValid_ok f (x :: fs) NE) as SV. unfold sizes. split.
    + intros [d H]. destruct (structValid f) eqn:V; [|discriminate].
      destruct (elementCount h dl 1) as [n|]; [|discriminate]. split; [|eexists; reflexivity]. left. split; [exact NE|].
      apply SV. split; [reflexivity|]. apply (fieldSizes_ok (x :: fs) 0 0).
      destruct (fieldSizes (x :: fs) 0 0) as [p|]; [eexists; reflexivity | discriminate].
    + intros [[[_ C]|[N _]] [n E]]; [|discriminate]. apply SV in C. destruct C as [V F]. rewrite V, E.
      apply (fieldSizes_ok (x :: fs) 0 0) in F. destruct F as [[a b] F]. rewrite F. eexists; reflexivity.
Qed.

(** ** Sizes *)
Lemma Bytes_size : forall k b, Bytes k b -> getSampleSize k = b.
Proof.
  intros k b H; inversion H as [k' I0|k' I0|k' I0|k' I0|k' I0|k' I0]; subst; cbn [In] in I0;
    repeat (destruct I0 as [<-|I0]; [reflexivity|]); contradiction.
Qed.
Lemma getSampleSize_pos : forall k, 0 <= getSampleSize k.
Proof. intros [ ]; cbn [getSampleSize]; lia. Qed.

Lemma sizes_spec : forall h f dl fs ns d,
  Forall (good_val h) dl -> Forall (good_val h) fs -> Forall2 (DimLength h) dl ns -> Forall (fun n => 0 < n) ns -> product ns < two_64 ->
  outcome h f dl fs = Ok d -> Sizes f fs (product ns) d.
Proof.
  intros h f dl fs ns d GD GF D P B O. destruct (outcome_ok _ _ _ _ _ O) as [F [Sz M]]. unfold sizes in Sz.
  pose proof (count_product h dl ns 1 GD D P Z.lt_0_1) as C. rewrite Z.mul_1_l in C. specialize (C B).
  rewrite C in Sz. pose proof (product_pos ns P) as PP. clear C D P.
  destruct fs as [|x fs].
  - destruct M as [r [R _]]. rewrite R in Sz. injection Sz as S1 S2. intros b rr k Kb RK Kr L1 L2.
    rewrite <- (Bytes_size _ _ Kb) in L1 |- *. rewrite <- (Bytes_size _ _ Kr) in L2 |- *.
    pose proof (getSampleSize_pos (kind f)) as Q1. pose proof (getSampleSize_pos k) as Q2.
    assert (W1 : w64 (getSampleSize (kind f) * product ns) = getSampleSize (kind f) * product ns) by (rewrite w64_mod; apply Z.mod_small; nia).
    assert (W2 : w64 (getSampleSize k * product ns) = getSampleSize k * product ns) by (rewrite w64_mod; apply Z.mod_small; nia).
    assert (KE : match scale f with Some s => sc_in s | None => kind f end = k) by (unfold RawKind in RK; destruct (scale f); congruence).
    rewrite KE in S2. rewrite <- S1, W1. split; [reflexivity|]. rewrite <- S2, W2. unfold has_rule. rewrite R. split.
    + intros [r' [[= <-] ->]]. reflexivity.
    + intros N. destruct (ru_type r) eqn:T; try reflexivity. exfalso; apply N. exists r; auto.
  - intros parts E L1 L2. rewrite E in Sz, GF.
    assert (PF : Forall (fun n => 0 <= n) (map sampleSize parts) /\ Forall (fun n => 0 <= n) (map rawSampleSize parts)).
    { clear - GF. induction parts as [|p r IH]; cbn [map] in *; [auto|]. inversion GF as [|? ? G1 G2]; subst.
      destruct (IH G2) as [A B]. destruct G1 as [_ [_ [_ [X [Y _]]]]]. auto. }
    destruct PF as [P1 P2]. pose proof (sum_pos _ P1) as Q1. pose proof (sum_pos _ P2) as Q2.
    assert (X : exists p q, map VDesc parts = p :: q) by (rewrite <- E; eauto).
    destruct X as [p0 [q0 X]]. rewrite X in Sz. rewrite <- X in Sz.
    rewrite fieldSizes_sum in Sz by (assumption || lia || nia).
    rewrite !Z.add_0_l in Sz. injection Sz as S1 S2. rewrite w64_mod, Z.mod_small in S1 by nia. rewrite w64_mod, Z.mod_small in S2 by nia. split; congruence.
Qed.

(** ** Copies *)
Lemma outcome_ext : forall h h' f dl fs,
  (forall d, In (VDim d) dl -> dimSize h' d = dimSize h d) ->
  (forall r a, rule f = Some r -> ru_params r = Some a -> asDict h' a = asDict h a) ->
  (forall x, scale f = Some x -> sc_type x = CLinear -> asDict h' (sc_params x) = asDict h (sc_params x)) ->
  outcome h' f dl fs = outcome h f dl fs.
Proof.
  intros h h' f dl fs A B C; unfold outcome.
  rewrite (sizes_ext h h' f dl fs A). rewrite (ruleCalc_ext h h' f) by (intros; eapply B; eauto).
  rewrite (scaleCalc_ext h h' f C). reflexivity.
Qed.
