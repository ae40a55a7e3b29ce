(** C58: data descriptors. *)
From Verif Require Import Base Desc_Model Desc_Spec Desc_Proofs Desc_Step Desc_Accept.
Local Open Scope Z_scope.

Lemma builder_good : forall s i f, reachable s -> nth_error (bs s) i = Some f -> good_fields (hp s) f.
Proof. intros s i f R N. eapply Forall_nth_error; [apply (reachable_good s R) | exact N]. Qed.
Lemma items_good : forall s a l, reachable s -> Items (hp s) a l -> Forall (good_val (hp s)) l.
Proof.
  intros s a l R [b E]. destruct (reachable_good s R) as [_ [_ [_ [_ [_ F]]]]]. exact (Forall_nth_error _ _ _ _ F E).
Qed.
Lemma entries_good : forall s a l, reachable s -> Entries (hp s) a l -> Forall (fun p => good_val (hp s) (snd p)) l.
Proof.
  intros s a l R [b E]. destruct (reachable_good s R) as [_ [_ [_ [_ [_ F]]]]]. exact (Forall_nth_error _ _ _ _ F E).
Qed.

(** A builder always has its lists and its dictionary ... *)
Theorem c58_builder_complete : forall s i f, reachable s -> nth_error (bs s) i = Some f ->
  exists dl fs ml, Items (hp s) (dims f) dl /\ Items (hp s) (structs f) fs /\ Entries (hp s) (metadata f) ml.
Proof.
  intros s i f R N. destruct (builder_good s i f R N) as [[dl A] [[fs B] [[ml C] _]]]. exists dl, fs, ml; auto.
Qed.

(** ... and gives a descriptor exactly when what it holds is consistent. *)
Theorem c58_accepted_iff : forall s i f dl fs, reachable s -> nth_error (bs s) i = Some f ->
  Items (hp s) (dims f) dl -> Items (hp s) (structs f) fs ->
  (snd (step s (Build i)) = Ok tt <-> Consistent (hp s) f dl fs).
Proof.
  intros s i f dl fs R N A B.
  rewrite <- (outcome_iff (hp s) f dl fs (builder_good s i f R N) (items_good s _ dl R A)).
  apply asList_Items in A, B. pose proof (build_outcome (hp s) f dl fs A B) as O.
  cbn [step]. rewrite N. destruct (build (hp s) f) as [h' [d|e]]; cbn [snd] in O; rewrite <- O; cbn [snd note].
  - split; [eauto | reflexivity].
  - split; [discriminate | intros [d H]; discriminate].
Qed.

(** What a successful build gives: one more descriptor with everything the
    builder held; its dimensions and metadata (and lists in the metadata),
    and struct fields if there are any, can never be written again; nobody's
    lists change their contents; the calculators have the numbers of the
    rule and of the scaling. *)
Theorem c58_built : forall s i f fs ml, reachable s -> nth_error (bs s) i = Some f ->
  Items (hp s) (structs f) fs -> Entries (hp s) (metadata f) ml -> snd (step s (Build i)) = Ok tt ->
  let s' := fst (step s (Build i)) in
  exists d, ds s' = ds s ++ [d] /\ d_fields d = f /\
    Unchangeable (hp s') (dims f) /\ Unchangeable (hp s') (metadata f) /\ (fs <> [] -> Unchangeable (hp s') (structs f)) /\
    (forall k a, In (k, VRef a) ml -> Unchangeable (hp s') a) /\
    SameContents (hp s) (hp s') /\ bs s' = bs s /\ RuleNumbers (hp s') d /\ ScaleNumbers (hp s') d /\
    (has_rule f RLinear -> ruleCalc d <> None).
Proof.
  intros s i f fs ml R N B M OK s'. pose proof (builder_good s i f R N) as G.
  unfold s' in *; clear s'. cbn [step] in *. rewrite N in *.
  pose proof (build_heap (hp s) f) as [SC _].
  destruct (build (hp s) f) as [h' [d|e]] eqn:H; [|discriminate]. cbn [fst ds hp bs] in *. exists d.
  pose proof (built_good _ _ _ _ G H) as GD.
  destruct (build_ok_inv _ _ _ _ H) as [dl [fs' [A [B' [O ->]]]]]. destruct (outcome_ok _ _ _ _ _ O) as [F [Sz X]].
  assert (fs' = fs) by (apply asList_Items in B'; eapply Items_fun; eauto). subst fs'.
  destruct GD as [G1 [G2 [G3 [_ [_ G4]]]]]. rewrite F in G1, G2.
  split; [reflexivity|]. split; [exact F|]. split; [exact G1|]. split; [exact G2|].
  split. { intros NE. destruct fs as [|x fs]; [congruence|]. apply freezeParts_structs. destruct B as [b B]; congruence. }
  split. { intros k a I0. eapply freezeParts_values; [apply asDict_Entries; exact M | exact I0|].
           pose proof (entries_good s _ ml R M) as EG. rewrite Forall_forall in EG. exact (EG _ I0). }
  split; [exact SC|]. split; [reflexivity|]. split; [exact G4|].
  assert (AD : forall a, asDict (freezeParts (hp s) f (match fs with [] => false | _ => true end)) a = asDict (hp s) a) by (apply SC_asDict; exact SC).
  split.
  - intros x SX T. rewrite F in SX. destruct fs as [|y fs].
    + destruct X as [r [_ [_ [_ [_ C]]]]]. unfold makeScaleCalc in C. rewrite SX, T in C. destruct (scalingCalcType x); [|discriminate].
      destruct (asDict (hp s) (sc_params x)) as [l|] eqn:E; [|discriminate].
      destruct (isNumber l KScale) eqn:N1; [|discriminate]. destruct (isNumber l KOffset) eqn:N2; [|discriminate]. injection C as C.
      exists l, (numberAt l KScale), (numberAt l KOffset).
      split; [apply asDict_Entries; rewrite AD; exact E|]. split; [apply isNumber_Value; exact N1|].
      split; [apply isNumber_Value; exact N2 | symmetry; exact C].
    + destruct X as [V _]. unfold structValid in V. rewrite SX in V. cbn [none] in V. rewrite !andb_false_r in V.
      repeat (apply andb_prop in V; destruct V as [V ?]). congruence.
  - intros [r [RR T]]. destruct fs as [|y fs].
    + destruct X as [r' [RR' [_ [_ [C _]]]]]. rewrite RR in RR'; injection RR' as <-. unfold makeRuleCalc in C. rewrite RR, T in C.
      destruct (ruleCalcType (kind f)); [|discriminate]. destruct (ru_params r); [|discriminate]. destruct (asDict (hp s) a); [|discriminate].
      injection C as <-. discriminate.
    + destruct X as [V _]. unfold structValid in V. rewrite RR, T in V. cbn [is_explicit] in V. rewrite andb_false_r in V. discriminate.
Qed.

(** A failed build leaves no descriptor and changes nothing but frozenness. *)
Theorem c58_failed_build : forall s i e, snd (step s (Build i)) = Err e ->
  let s' := fst (step s (Build i)) in ds s' = ds s /\ bs s' = bs s /\ SameContents (hp s) (hp s').
Proof.
  intros s i e H s'. unfold s' in *; clear s'. cbn [step] in *.
  destruct (nth_error (bs s) i) as [f|]; [|split; [reflexivity | split; [reflexivity | apply SC_refl]]].
  pose proof (build_heap (hp s) f) as [SC _]. destruct (build (hp s) f) as [h' [d|e']]; cbn [fst snd note ds bs hp with_heap] in *; [discriminate|].
  auto.
Qed.

(** What is frozen stays as it is whatever happens. *)
Theorem c58_frozen_forever : forall s ops a c, reachable s -> nth_error (hp s) a = Some {| frozen := true; what := c |} ->
  nth_error (hp (run s ops)) a = Some {| frozen := true; what := c |}.
Proof.
  intros s ops a c R H. destruct (run_good ops s (reachable_good s R)) as [_ K]. exact (proj1 K _ _ H eq_refl).
Qed.

Lemma frozen_items : forall s ops a l, reachable s -> Unchangeable (hp s) a -> Items (hp s) a l -> Items (hp (run s ops)) a l.
Proof.
  intros s ops a l R [c U] [b E]. exists true. rewrite U in E; injection E as <- ->. apply c58_frozen_forever; assumption.
Qed.
Lemma frozen_entries : forall s ops a l, reachable s -> Unchangeable (hp s) a -> Entries (hp s) a l -> Entries (hp (run s ops)) a l.
Proof.
  intros s ops a l R [c U] [b E]. exists true. rewrite U in E; injection E as <- ->. apply c58_frozen_forever; assumption.
Qed.

(** A descriptor is the same after every later history: its dimensions, the
    sizes of those without label lists, its metadata and the numbers of its
    rule. *)
Theorem c58_unchanged_partial : forall s i d ops, reachable s -> nth_error (ds s) i = Some d ->
  let s' := run s ops in
  nth_error (ds s') i = Some d /\
  (forall dl, Items (hp s) (dims (d_fields d)) dl ->
     Items (hp s') (dims (d_fields d)) dl /\
     forall dm n, In (VDim dm) dl -> dr_type (dm_rule dm) <> DList -> DimLength (hp s) (VDim dm) n -> DimLength (hp s') (VDim dm) n) /\
  (forall ml, Entries (hp s) (metadata (d_fields d)) ml -> Entries (hp s') (metadata (d_fields d)) ml) /\
  RuleNumbers (hp s') d.
Proof.
  intros s i d ops R N s'. unfold s'; clear s'. pose proof (reachable_good s R) as IV.
  assert (GD : good_desc (hp s) d) by (eapply Forall_nth_error; [apply IV | exact N]).
  destruct GD as [U1 [U2 [_ [_ [_ RN]]]]].
  split. { destruct (run_ds ops s) as [l E]. rewrite E, nth_error_app1; [exact N|]. apply nth_error_Some; congruence. }
  split. { intros dl A. split; [apply frozen_items; assumption|]. intros dm n I0 NL D.
           pose proof (items_good s _ dl R A) as G. rewrite Forall_forall in G. destruct (G _ I0) as [l [E _]].
           inversion D as [d0 l0 n0 T E0 V|d0 l0 b0 ls T]; subst; [|congruence].
           eapply by_number; [exact T | | exact V]. apply frozen_entries; [exact R | exists (CDict l); exact E | exact E0]. }
  split. { intros ml A. apply frozen_entries; assumption. }
  eapply RuleNumbers_kept; [apply (run_good ops s IV) | exact RN].
Qed.

(** A scaling made by a builder keeps its parameters, so the descriptor goes
    on computing what they say. *)
Theorem c58_scaling_partial : forall s i o t a,
  snd (step s (NewScaling true i o t (Some a))) = Ok tt -> Unchangeable (hp (fst (step s (NewScaling true i o t (Some a))))) a.
Proof.
  intros s i o t a; cbn [step]. unfold newScaling. destruct (verifyScaling (hp s) i t (Some a)) as [e|] eqn:V; [discriminate|]. intros _.
  cbn [fst hp]. apply Unchangeable_freeze. unfold verifyScaling in V. unfold asDict in V. destruct (nth_error (hp s) a); congruence.
Qed.
(** A scaling can be made exactly from real input types and a dictionary,
    for a linear one just the two numbers; it holds what it was given. *)
Theorem c58_new_scaling : forall s b i o t a, 
  (snd (step s (NewScaling b i o t a)) = Ok tt <->
   exists d l, a = Some d /\ Entries (hp s) d l /\ (Real i \/ i = Undefined) /\
     (t = CLinear -> length l = 2%nat /\ exists u v, Value l KScale (VNum u) /\ Value l KOffset (VNum v))) /\
  (forall d, a = Some d -> snd (step s (NewScaling b i o t a)) = Ok tt ->
   scs (fst (step s (NewScaling b i o t a))) = scs s ++ [{| sc_in := i; sc_out := o; sc_type := t; sc_params := d |}]).
Proof.
  intros s b i o t a. cbn [step]. unfold newScaling.
  assert (V : verifyScaling (hp s) i t a = None <->
   exists d l, a = Some d /\ Entries (hp s) d l /\ (Real i \/ i = Undefined) /\
     (t = CLinear -> length l = 2%nat /\ exists u v, Value l KScale (VNum u) /\ Value l KOffset (VNum v))).
  { unfold verifyScaling. destruct a as [d|]; [ | split; [ discriminate | intros (? & ? & ? & _); discriminate ] ].
    assert (R : (rank Int64 <? rank i) = false <-> (Real i \/ i = Undefined)).
    { split; [ destruct i; cbn [rank]; intros H; try discriminate H; (left; constructor) || (right; reflexivity) | ].
      intros [H|H]; [ destruct H; reflexivity | subst i; reflexivity ]. }
    destruct (asDict (hp s) d) as [l|] eqn:D.
    - apply asDict_Entries in D. split.
      + intros H. exists d, l. split; [ reflexivity | ]. split; [ exact D | ].
        destruct (rank Int64 <? rank i) eqn:RK; [ discriminate | ]. split; [ apply R; reflexivity | ]. intros ->.
        destruct (Nat.eqb_spec (length l) 2) as [L|L]; [ | discriminate ]. split; [ exact L | ].
        destruct (isNumber l KScale) eqn:N1; [ | discriminate ]. destruct (isNumber l KOffset) eqn:N2; [ | discriminate ].
        exists (numberAt l KScale), (numberAt l KOffset). split; apply isNumber_Value; assumption.
      + intros (d' & l' & E & D' & RI & H). injection E as <-.
        assert (l' = l) by (apply asDict_Entries in D, D'; congruence). subst l'.
        apply R in RI. rewrite RI. destruct t; try reflexivity. destruct (H eq_refl) as (L & u & v & V1 & V2).
        apply Value_isNumber in V1, V2. rewrite L, (proj1 V1), (proj1 V2). reflexivity.
    - split; [ discriminate | ]. intros (d' & l' & E & D' & _). injection E as <-. apply asDict_Entries in D'. congruence. }
  split.
  - rewrite <- V. destruct (verifyScaling (hp s) i t a) as [e|] eqn:VS; [ unfold note; split; discriminate | ].
    destruct a as [d|]; [ split; reflexivity | ]. unfold verifyScaling in VS. discriminate.
  - intros d -> H. destruct (verifyScaling (hp s) i t (Some d)) as [e|]; [ discriminate | ]. reflexivity.
Qed.
Theorem c58_scaling_numbers_partial : forall s d ops, reachable s ->
  ScaleNumbers (hp s) d -> (forall x, scale (d_fields d) = Some x -> Unchangeable (hp s) (sc_params x)) -> ScaleNumbers (hp (run s ops)) d.
Proof.
  intros s d ops R SN U x SX T. destruct (SN x SX T) as [l [u [v [E [V1 [V2 C]]]]]]. exists l, u, v. split; [|auto].
  apply frozen_entries; [exact R | apply U; exact SX | exact E].
Qed.

(** The sizes: bytes of the type (or of all struct fields) times the number
    of elements, if no dimension is empty and nothing overflows. *)
Theorem c58_sizes_partial : forall s i f dl fs ns, reachable s -> nth_error (bs s) i = Some f ->
  Items (hp s) (dims f) dl -> Items (hp s) (structs f) fs -> Forall2 (DimLength (hp s)) dl ns ->
  Forall (fun n => 0 < n) ns -> product ns < two_64 -> snd (step s (Build i)) = Ok tt ->
  exists d, ds (fst (step s (Build i))) = ds s ++ [d] /\ Sizes f fs (product ns) d.
Proof.
  intros s i f dl fs ns R N A B D P L OK. cbn [step] in *. rewrite N in *.
  destruct (build (hp s) f) as [h' [d|e]] eqn:H; [|discriminate]. exists d. cbn [fst ds]. split; [reflexivity|].
  destruct (build_ok_inv _ _ _ _ H) as [dl' [fs' [A' [B' [O _]]]]].
  assert (dl' = dl) by (apply asList_Items in A'; eapply Items_fun; eauto). subst dl'.
  assert (fs' = fs) by (apply asList_Items in B'; eapply Items_fun; eauto). subst fs'.
  apply (sizes_spec (hp s) f dl fs ns d); [exact (items_good s _ dl R A) | exact (items_good s _ fs R B) | exact D | exact P | exact L | exact O].
Qed.

(** Copying: a builder made from a descriptor gives the same descriptor, at
    any later time, unless somebody changed what was left changeable. *)
Theorem c58_copy_partial : forall s i f dl fs d ops, reachable s -> nth_error (bs s) i = Some f ->
  Items (hp s) (dims f) dl -> Items (hp s) (structs f) fs ->
  ds (fst (step s (Build i))) = ds s ++ [d] ->
  let s1 := fst (step s (Build i)) in
  let s2 := run s1 ops in
  Untouched (hp s1) (hp s2) f dl fs ->
  let s3 := fst (step s2 (CopyBuilder (length (ds s)))) in
  snd (step s3 (Build (length (bs s2)))) = Ok tt /\ ds (fst (step s3 (Build (length (bs s2))))) = ds s2 ++ [d].
Proof.
  intros s i f dl fs d ops R N A B E s1 s2 [US [UD UX]] s3.
  assert (OK : snd (step s (Build i)) = Ok tt).
  { destruct (snd (step s (Build i))) as [[]|e] eqn:X; [reflexivity|]. exfalso.
    destruct (c58_failed_build s i e X) as [Y _]. rewrite Y in E. apply (f_equal (@length desc)) in E. rewrite app_length in E. cbn [length] in E. lia. }
  assert (R1 : reachable s1) by exact (reachable_run s [Build i] R).
  assert (R2 : reachable s2) by (apply reachable_run; exact R1).
  assert (BD : build (hp s) f = (hp s1, Ok d)).
  { unfold s1. cbn [step] in *. rewrite N in *. destruct (build (hp s) f) as [h' [d'|e]]; [|discriminate]. cbn [fst ds hp] in *.
    apply app_inv_head in E. injection E as ->. reflexivity. }
  pose proof (build_heap (hp s) f) as [SC K1]. rewrite BD in SC, K1; cbn [fst] in SC, K1.
  pose proof (builder_good s i f R N) as GF. pose proof (built_good _ _ _ _ GF BD) as GD.
  destruct (build_ok_inv _ _ _ _ BD) as [dl' [fs' [A' [B' [O _]]]]].
  assert (dl' = dl) by (apply asList_Items in A'; eapply Items_fun; eauto). subst dl'.
  assert (fs' = fs) by (apply asList_Items in B'; eapply Items_fun; eauto). subst fs'.
  destruct (outcome_ok _ _ _ _ _ O) as [F _].
  pose proof (reachable_good s1 R1) as IV1. destruct (run_good ops s1 IV1) as [IV2 K2]. fold s2 in IV2, K2.
  assert (N1 : nth_error (ds s1) (length (ds s)) = Some d).
  { unfold s1. rewrite E, nth_error_app2, Nat.sub_diag by lia. reflexivity. }
  assert (N2 : nth_error (ds s2) (length (ds s)) = Some d).
  { destruct (run_ds ops s1) as [l X]. fold s2 in X. rewrite X, nth_error_app1; [exact N1|]. apply nth_error_Some; congruence. }
  assert (A1 : Items (hp s1) (dims f) dl) by (apply asList_Items; rewrite (SC_asList _ _ SC); exact A').
  assert (A2 : Items (hp s2) (dims f) dl).
  { destruct GD as [U1 _]. rewrite F in U1. unfold s2. apply frozen_items; assumption. }
  assert (O2 : outcome (hp s2) f dl fs = Ok d).
  { rewrite <- O. apply outcome_ext.
    - intros dm I0. rewrite <- (dimSize_agree _ _ (SC_agree _ _ SC) dm).
      pose proof (items_good s1 _ dl R1 A1) as G1. rewrite Forall_forall in G1. pose proof (G1 _ I0) as Gd1. cbn [good_val] in Gd1.
      pose proof (good_dim_kept _ _ K2 _ Gd1) as Gd2.
      assert (DL : exists n, DimLength (hp s) (VDim dm) n).
      { assert (CS : Consistent (hp s) f dl fs) by (apply (outcome_iff (hp s) f dl fs GF (items_good s _ dl R A)); eauto).
        destruct CS as [_ CF]. rewrite Forall_forall in CF. apply CF; exact I0. }
      destruct DL as [n DL].
      pose proof (items_good s _ dl R A) as G0. rewrite Forall_forall in G0. pose proof (G0 _ I0) as Gd0. cbn [good_val] in Gd0.
      assert (D1 : DimLength (hp s1) (VDim dm) n).
      { apply (dimSize_iff (hp s1) dm n Gd1). rewrite (dimSize_agree _ _ (SC_agree _ _ SC) dm). apply (dimSize_iff (hp s) dm n Gd0); exact DL. }
      rewrite (proj2 (dimSize_iff (hp s1) dm n Gd1) D1). apply (dimSize_iff (hp s2) dm n Gd2). apply UD; assumption.
    - intros r a RR P. destruct GF as [_ [_ [_ GR]]]. pose proof (GR r RR) as G. unfold good_rule in G. rewrite P in G. destruct G as [l [C _]].
      pose proof (proj1 (kept_trans _ _ _ K1 K2) _ _ C eq_refl) as C2. unfold asDict. rewrite C, C2. reflexivity.
    - intros x SX T. rewrite <- (SC_asDict _ _ SC).
      destruct (asDict (hp s1) (sc_params x)) as [l|] eqn:AD; [apply asDict_Entries; apply (UX x l SX); apply asDict_Entries; exact AD|]. exfalso.
      rewrite (SC_asDict _ _ SC) in AD. destruct fs as [|y fs].
      + destruct (outcome_ok _ _ _ _ _ O) as [_ [_ [r [_ [_ [_ [_ C]]]]]]]. unfold makeScaleCalc in C. rewrite SX, T, AD in C.
        destruct (scalingCalcType x); discriminate.
      + destruct (outcome_ok _ _ _ _ _ O) as [_ [_ [V _]]]. unfold structValid in V. rewrite SX in V. cbn [none] in V. rewrite !andb_false_r in V.
        repeat (apply andb_prop in V; destruct V as [V ?]). congruence. }
  assert (NB : nth_error (bs s3) (length (bs s2)) = Some f).
  { unfold s3. cbn [step]. rewrite N2. cbn [fst with_builders bs]. rewrite nth_error_app2, Nat.sub_diag by lia. rewrite F. reflexivity. }
  assert (H3 : hp s3 = hp s2 /\ ds s3 = ds s2) by (unfold s3; cbn [step]; rewrite N2; split; reflexivity).
  destruct H3 as [H3 D3]. pose proof (build_outcome (hp s2) f dl fs (proj2 (asList_Items _ _ _) A2) (proj2 (asList_Items _ _ _) US)) as BO.
  rewrite O2 in BO. clearbody s3. cbn [step]. rewrite NB, H3, D3. destruct (build (hp s2) f) as [h' r]; cbn [snd] in BO; subst r.
  split; reflexivity.
Qed.

(** ** Where it goes wrong *)

(** a dimension with labels: its list stays open, the size stays as it was *)
Definition labelled : list op :=
  [NewList [ANum 1; ANum 2]; NewDict; DictSet 1 KList (ARef 0); NewDimRule DList 1; NewDim 0 None None; NewList [ADim 0];
   NewBuilder; Change 0 (SetDims (Some 2%nat)); Change 0 (SetSampleType Float64); Build 0].
Theorem c58_labels_refuted : exists s d dm,
  reachable s /\ ds s = [d] /\ Items (hp s) (dims (d_fields d)) [VDim dm] /\
  DimLength (hp s) (VDim dm) 2 /\ sampleSize d = 16 /\
  let s' := run s [WriteList 0 [ANum 1; ANum 2; ANum 3]] in
  nth_error (ds s') 0 = Some d /\ DimLength (hp s') (VDim dm) 3 /\
  let s'' := run s [WriteList 0 [ANum 1; AStr 2]] in
  nth_error (ds s'') 0 = Some d /\ ~ exists n, DimLength (hp s'') (VDim dm) n.
Proof.
  set (dm0 := {| dm_rule := {| dr_type := DList; dr_params := 1 |}; dm_unit := None; dm_name := None |}).
  exists (run initial labelled).
  destruct (nth_error (ds (run initial labelled)) 0) as [d|] eqn:E; [|vm_compute in E; discriminate].
  vm_compute in E. injection E as <-. eexists. exists dm0.
  split; [exists labelled; reflexivity|]. split; [vm_compute; reflexivity|].
  split; [exists true; vm_compute; reflexivity|].
  assert (NI : NoDup [KList]) by (repeat constructor; intros []).
  split. { eapply (by_labels _ dm0 [(KList, VRef 0)] 0%nat [VNum 1; VNum 2]); [reflexivity | exists true; vm_compute; reflexivity | constructor
    | exists false; vm_compute; reflexivity | apply Numbers; repeat constructor; eauto]. }
  split; [reflexivity|]. cbv zeta. split; [vm_compute; reflexivity|].
  split. { eapply (by_labels _ dm0 [(KList, VRef 0)] 0%nat [VNum 1; VNum 2; VNum 3]); [reflexivity | exists true; vm_compute; reflexivity | constructor
    | exists false; vm_compute; reflexivity | apply Numbers; repeat constructor; eauto]. }
  split; [vm_compute; reflexivity|]. intros [n H]. inversion H as [d0 l0 n0 [T|T] | d0 l0 b0 ls T [b1 E0] V [b2 E1] K]; subst; try discriminate.
  vm_compute in E0. injection E0 as <- <-. apply lookup_Value in V. vm_compute in V. injection V as <-.
  vm_compute in E1. injection E1 as <- <-. apply labels_ok in K. discriminate.
Qed.

(** an empty list of struct fields stays open: a plain descriptor can become
    one with struct fields, and then cannot be copied *)
Definition plain : list op := [NewBuilder; Change 0 (SetSampleType Float64); Change 0 (SetName (Some [65])); Build 0].
Theorem c58_struct_fields_refuted : exists s d,
  reachable s /\ ds s = [d] /\ kind (d_fields d) = Float64 /\ Items (hp s) (structs (d_fields d)) [] /\
  let s' := run s [WriteList (structs (d_fields d)) [ADesc 0]] in
  Items (hp s') (structs (d_fields d)) [VDesc d] /\
  snd (step (run s' [CopyBuilder 0]) (Build 1)) = Err InvalidState.
Proof.
  exists (run initial plain).
  destruct (nth_error (ds (run initial plain)) 0) as [d|] eqn:E; [|vm_compute in E; discriminate].
  vm_compute in E. injection E as <-. eexists.
  split; [exists plain; reflexivity|]. split; [vm_compute; reflexivity|]. split; [reflexivity|].
  split; [exists false; vm_compute; reflexivity|]. cbv zeta. split; [exists false; vm_compute; reflexivity|]. vm_compute; reflexivity.
Qed.

(** a linear scaling made directly: its parameters stay open; the descriptor
    goes on with the old numbers *)
Definition scaled_ops : list op :=
  [NewDict; DictSet 0 KScale (ANum 2); DictSet 0 KOffset (ANum 10); NewScaling false Int16 SFloat64 CLinear (Some 0%nat);
   NewBuilder; Change 0 (SetSampleType Float64); Change 0 (SetScaling (Some 0%nat)); Build 0].
Theorem c58_scaling_refuted : exists s d,
  reachable s /\ ds s = [d] /\ ScaleNumbers (hp s) d /\ scaleCalc d = Some (Some (2, 10)) /\
  let s' := run s [DictSet 0 KScale (ANum 3)] in
  nth_error (ds s') 0 = Some d /\ ~ ScaleNumbers (hp s') d.
Proof.
  exists (run initial scaled_ops).
  destruct (nth_error (ds (run initial scaled_ops)) 0) as [d|] eqn:E; [|vm_compute in E; discriminate].
  vm_compute in E. injection E as <-. eexists.
  split; [exists scaled_ops; reflexivity|]. split; [vm_compute; reflexivity|].
  split. { intros x SX T. cbn [d_fields scale] in SX. injection SX as <-. exists [(KScale, VNum 2); (KOffset, VNum 10)], 2, 10.
           split; [exists false; vm_compute; reflexivity|]. split; [constructor|]. split; [constructor; [discriminate | constructor] | reflexivity]. }
  split; [reflexivity|]. cbv zeta. split; [vm_compute; reflexivity|].
  intros H. destruct (H _ eq_refl eq_refl) as [l [u [v [[b E] [V1 [V2 C]]]]]]. cbn [scaleCalc] in C. injection C as <- <-.
  vm_compute in E. injection E as <- <-. apply lookup_Value in V1. vm_compute in V1. discriminate.
Qed.

(** sizes: an empty dimension counts as one element, and 2^32 times 2^32
    elements count as one *)
Definition sized (n m : Z) : list op :=
  [NewDict; DictSet 0 KDelta (ANum 1); DictSet 0 KStart (ANum 0); DictSet 0 KSize (ANum n); NewDimRule DLinear 0; NewDim 0 None None;
   NewDict; DictSet 1 KDelta (ANum 1); DictSet 1 KStart (ANum 0); DictSet 1 KSize (ANum m); NewDimRule DLinear 1; NewDim 1 None None;
   NewList [ADim 0; ADim 1]; NewBuilder; Change 0 (SetDims (Some 2%nat)); Change 0 (SetSampleType Int16); Build 0].
Lemma sized_at : forall n m k (i : nat), 
  nth_error (hp (run initial (sized n m))) i = Some {| frozen := true; what := CDict [(KDelta, VNum 1); (KStart, VNum 0); (KSize, VNum k)] |} ->
  DimLength (hp (run initial (sized n m))) (VDim {| dm_rule := {| dr_type := DLinear; dr_params := i |}; dm_unit := None; dm_name := None |}) (k mod two_64).
Proof.
  intros n m k i H. eapply (by_number _ _ [(KDelta, VNum 1); (KStart, VNum 0); (KSize, VNum k)]); [left; reflexivity | exists true; exact H |].
  constructor; [discriminate|]. constructor; [discriminate|]. constructor.
Qed.
Theorem c58_empty_dimension_refuted : exists s d v w,
  reachable s /\ ds s = [d] /\ Items (hp s) (dims (d_fields d)) [v; w] /\ DimLength (hp s) v 5 /\ DimLength (hp s) w 0 /\
  kind (d_fields d) = Int16 /\ sampleSize d = 2 /\ rawSampleSize d = 2.
Proof.
  exists (run initial (sized 5 0)).
  destruct (nth_error (ds (run initial (sized 5 0))) 0) as [d|] eqn:E; [|vm_compute in E; discriminate].
  vm_compute in E. injection E as <-. eexists. eexists. eexists.
  split; [exists (sized 5 0); reflexivity|]. split; [vm_compute; reflexivity|].
  split; [exists true; vm_compute; reflexivity|].
  split; [apply (sized_at 5 0 5 0); vm_compute; reflexivity|]. split; [apply (sized_at 5 0 0 1); vm_compute; reflexivity|]. auto.
Qed.
Theorem c58_overflow_refuted : exists s d v w,
  reachable s /\ ds s = [d] /\ Items (hp s) (dims (d_fields d)) [v; w] /\ DimLength (hp s) v 4294967296 /\ DimLength (hp s) w 4294967296 /\
  kind (d_fields d) = Int16 /\ sampleSize d = 2 /\ rawSampleSize d = 2.
Proof.
  exists (run initial (sized 4294967296 4294967296)).
  destruct (nth_error (ds (run initial (sized 4294967296 4294967296))) 0) as [d|] eqn:E; [|vm_compute in E; discriminate].
  vm_compute in E. injection E as <-. eexists. eexists. eexists.
  split; [exists (sized 4294967296 4294967296); reflexivity|]. split; [vm_compute; reflexivity|].
  split; [exists true; vm_compute; reflexivity|].
  split; [apply (sized_at 4294967296 4294967296 4294967296 0); vm_compute; reflexivity|].
  split; [apply (sized_at 4294967296 4294967296 4294967296 1); vm_compute; reflexivity|]. auto.
Qed.

(** a failed build freezes the caller's list *)
Definition unsized : list op :=
  [NewDict; NewDimRule DOther 0; NewDim 0 None None; NewList [ADim 0]; NewBuilder; Change 0 (SetDims (Some 1%nat));
   Change 0 (SetSampleType Int16)].
Theorem c58_failed_build_freezes_refuted : exists s l, reachable s /\
  snd (step s (WriteList 1 l)) = Ok tt /\ snd (step s (Build 0)) = Err UnknownRule /\
  snd (step (fst (step s (Build 0))) (WriteList 1 l)) = Err Frozen.
Proof.
  exists (run initial unsized), []. split; [exists unsized; reflexivity|]. split; [vm_compute; reflexivity|].
  split; vm_compute; reflexivity.
Qed.
(** ... and a dimension with a rule of one's own can never be in one *)
Theorem c58_custom_dimension_refuted : forall s i f dl fs dm, reachable s -> nth_error (bs s) i = Some f ->
  Items (hp s) (dims f) dl -> Items (hp s) (structs f) fs -> In (VDim dm) dl -> dr_type (dm_rule dm) = DOther ->
  snd (step s (Build i)) <> Ok tt.
Proof.
  intros s i f dl fs dm R N A B I0 T OK. apply (c58_accepted_iff s i f dl fs R N A B) in OK. destruct OK as [_ F].
  rewrite Forall_forall in F. destruct (F _ I0) as [n D]. inversion D as [d0 l0 n0 [K|K] |d0 l0 b0 ls K]; subst; congruence.
Qed.

(** an offset to the reference domain is refused for "non-integer" types, yet
    accepted for floating point *)
Definition offset_ops : list op :=
  [NewBuilder; Change 0 (SetSampleType Float64); Change 0 (SetReference (Some {| in_offset := Some 7; in_rest := 0 |}))].
Theorem c58_float_offset_refuted : exists s, reachable s /\ 
  (exists f, nth_error (bs s) 0 = Some f /\ kind f = Float64 /\ exists i, reference f = Some i /\ in_offset i = Some 7) /\
  snd (step s (Build 0)) = Ok tt.
Proof.
  exists (run initial offset_ops). split; [exists offset_ops; reflexivity|]. split; [|vm_compute; reflexivity].
  eexists. split; [vm_compute; reflexivity|]. split; [reflexivity|]. eexists; split; reflexivity.
Qed.

(** ** The theorems have cases *)
Example accepted_nonvacuous : exists s f dl fs, reachable s /\ nth_error (bs s) 0 = Some f /\ Items (hp s) (dims f) dl /\ Items (hp s) (structs f) fs /\
  length dl = 2%nat /\ snd (step s (Build 0)) = Ok tt /\ Forall2 (DimLength (hp s)) dl [5; 3] /\
  exists d, nth_error (ds s) 0 = Some d /\ sampleSize d = 30.
Proof.
  exists (run initial (sized 5 3)). eexists. eexists. eexists. split; [exists (sized 5 3); reflexivity|].
  split; [vm_compute; reflexivity|]. split; [exists true; vm_compute; reflexivity|]. split; [exists false; vm_compute; reflexivity|].
  split; [reflexivity|]. split; [vm_compute; reflexivity|].
  split. { constructor; [apply (sized_at 5 3 5 0); vm_compute; reflexivity|]. constructor; [apply (sized_at 5 3 3 1); vm_compute; reflexivity | constructor]. }
  eexists; split; [vm_compute; reflexivity | reflexivity].
Qed.
(** a struct of two fields, ten times *)
Definition struct_ops : list op :=
  [NewBuilder; Change 0 (SetSampleType Float64); Change 0 (SetName (Some [65])); Build 0;
   Change 0 (SetSampleType Int16); Change 0 (SetName (Some [66])); Build 0;
   NewList [ADesc 0; ADesc 1]; NewDict; DictSet 5 KDelta (ANum 1); DictSet 5 KStart (ANum 0); DictSet 5 KSize (ANum 10); NewDimRule DLinear 5;
   NewDim 0 None None; NewList [ADim 0]; NewBuilder; Change 1 (SetSampleType Struct); Change 1 (SetStructFields (Some 4%nat));
   Change 1 (SetDims (Some 6%nat)); Change 1 (SetName (Some [67])); Build 1].
Example struct_nonvacuous : exists s d, reachable s /\ nth_error (ds s) 2 = Some d /\ sampleSize d = 100 /\ Unchangeable (hp s) (structs (d_fields d)) /\
  snd (step (run s [CopyBuilder 2]) (Build 2)) = Ok tt.
Proof.
  exists (run initial struct_ops).
  destruct (nth_error (ds (run initial struct_ops)) 2) as [d|] eqn:E; [|vm_compute in E; discriminate].
  vm_compute in E. injection E as <-. eexists. split; [exists struct_ops; reflexivity|]. split; [reflexivity|]. split; [reflexivity|].
  split; [eexists; vm_compute; reflexivity | vm_compute; reflexivity].
Qed.
(** refused for each reason *)
Example refused_nonvacuous :
  snd (step (run initial [NewBuilder; Change 0 (SetRule None)]) (Build 0)) = Err Incomplete /\
  snd (step (run initial (struct_ops ++ [Change 1 (SetUnit (Some 1))])) (Build 1)) = Err InvalidState /\
  snd (step (run initial (scaled_ops ++ [Change 0 (SetSampleType Float32)])) (Build 0)) = Err InvalidSampleType /\
  snd (step (run initial (scaled_ops ++ [Change 0 (SetResolution (Some 1))])) (Build 0)) = Err InvalidState /\
  snd (step (run initial (scaled_ops ++ [Change 0 (SetReference (Some {| in_offset := None; in_rest := 0 |}))])) (Build 0)) = Err InvalidParameter /\
  snd (step (run initial [NewDict; NewDataRule RConstant (Some 0%nat); NewBuilder; Change 0 (SetRule (Some 0%nat)); Change 0 (SetSampleType String)]) (Build 0))
    = Err InvalidSampleType.
Proof. vm_compute. auto 10. Qed.
Example linear_nonvacuous : exists s d, reachable s /\ ds s = [d] /\ has_rule (d_fields d) RLinear /\ ruleCalc d = Some (Some (4, 100)) /\
  sampleSize d = 8 /\ rawSampleSize d = 0.
Proof.
  exists (run initial [NewDict; DictSet 0 KDelta (ANum 4); DictSet 0 KStart (ANum 100); NewDataRule RLinear (Some 0%nat); NewBuilder;
                       Change 0 (SetRule (Some 0%nat)); Change 0 (SetSampleType Int64); Build 0]).
  eexists. split; [eexists; reflexivity|]. split; [vm_compute; reflexivity|]. split; [eexists; split; reflexivity|]. auto.
Qed.

Print Assumptions c58_builder_complete.
Print Assumptions c58_accepted_iff.
Print Assumptions c58_built.
Print Assumptions c58_failed_build.
Print Assumptions c58_frozen_forever.
Print Assumptions c58_unchanged_partial.
Print Assumptions c58_new_scaling.
Print Assumptions c58_scaling_partial.
Print Assumptions c58_scaling_numbers_partial.
Print Assumptions c58_sizes_partial.
Print Assumptions c58_copy_partial.
Print Assumptions c58_labels_refuted.
Print Assumptions c58_struct_fields_refuted.
Print Assumptions c58_scaling_refuted.
Print Assumptions c58_empty_dimension_refuted.
Print Assumptions c58_overflow_refuted.
Print Assumptions c58_failed_build_freezes_refuted.
Print Assumptions c58_custom_dimension_refuted.
Print Assumptions c58_float_offset_refuted.
