(** Data descriptors: the invariant holds after every history; what a build
    accepts and computes. *)
From Verif Require Import Base Desc_Model Desc_Spec Desc_Proofs.
Local Open Scope Z_scope.

(** ** A descriptor that was built *)
Lemma build_ok_inv : forall h f h' d, build h f = (h', Ok d) ->
  exists dl fs, asList h (dims f) = Some dl /\ asList h (structs f) = Some fs /\ outcome h f dl fs = Ok d /\
  h' = freezeParts h f (match fs with [] => false | _ => true end).
Proof.
  intros h f h' d H.
  destruct (asList h (dims f)) as [dl|] eqn:A; [|unfold build in H; rewrite A in H; discriminate].
  destruct (asList h (structs f)) as [fs|] eqn:B; [|unfold build in H; rewrite A, B in H; discriminate].
  exists dl, fs. split; [reflexivity|]. split; [reflexivity|]. split; [rewrite <- (build_outcome h f dl fs A B), H; reflexivity|].
  unfold build in H; rewrite A, B in H. destruct fs as [|x fs].
  - destruct (plainValid f (length dl)); [discriminate|]. destruct (rule f); [|discriminate].
    destruct (plainValid2 f _); [discriminate|].
    destruct (makeRuleCalc _ f); [|discriminate]. destruct (makeScaleCalc _ f); [|discriminate].
    destruct (sizes _ f dl []) as [[? ?]|]; [|discriminate]. injection H as <- _; reflexivity.
  - destruct (structValid f); [|discriminate]. destruct (sizes _ f dl (x :: fs)) as [[? ?]|]; [|discriminate].
    injection H as <- _; reflexivity.
Qed.

Lemma outcome_ok : forall h f dl fs d, outcome h f dl fs = Ok d ->
  d_fields d = f /\ sizes h f dl fs = Ok (sampleSize d, rawSampleSize d) /\
  match fs with
  | [] => exists r, rule f = Some r /\ plainValid f (length dl) = None /\ plainValid2 f r = None /\
                    makeRuleCalc h f = Ok (ruleCalc d) /\ makeScaleCalc h f = Ok (scaleCalc d)
  | _ => structValid f = true /\ ruleCalc d = None /\ scaleCalc d = None
  end.
Proof.
  intros h f dl fs d; unfold outcome. destruct fs as [|x fs].
  - destruct (plainValid f (length dl)) eqn:P; [discriminate|]. destruct (rule f) as [r|] eqn:R; [|discriminate].
    destruct (plainValid2 f r) eqn:P2; [discriminate|].
    destruct (makeRuleCalc h f) as [rc|] eqn:C1; [|discriminate]. destruct (makeScaleCalc h f) as [sc|] eqn:C2; [|discriminate].
    destruct (sizes h f dl []) as [[a b]|] eqn:Sz; [|discriminate]. intros [= <-]. cbn [d_fields sampleSize rawSampleSize ruleCalc scaleCalc].
    split; [reflexivity|]. split; [reflexivity|]. exists r. auto 6.
  - destruct (structValid f) eqn:V; [|discriminate]. destruct (sizes h f dl (x :: fs)) as [[a b]|] eqn:Sz; [|discriminate].
    intros [= <-]. cbn [d_fields sampleSize rawSampleSize ruleCalc scaleCalc]. auto 6.
Qed.

Lemma built_good : forall h f h' d, good_fields h f -> build h f = (h', Ok d) -> good_desc h' d.
Proof.
  intros h f h' d [GL [GS [GM GR]]] H. destruct (build_ok_inv _ _ _ _ H) as [dl [fs [A [B [O ->]]]]].
  destruct (outcome_ok _ _ _ _ _ O) as [F [Sz M]].
  set (h2 := freezeParts h f _). assert (K : kept h h2) by apply SC_parts.
  assert (SC : SameContents h h2) by apply SC_parts.
  unfold good_desc. rewrite F.
  split; [apply freezeParts_dims; congruence|].
  split. { apply freezeParts_metadata. destruct GM as [l [b E]]. congruence. }
  split. { apply (good_fields_kept h h2 K). split; [exact GL|]. split; [exact GS|]. split; [exact GM | exact GR]. }
  apply sizes_pos in Sz. split; [apply Sz|]. split; [apply Sz|].
  intros r a R T P N. rewrite F in R. pose proof (GR r R) as G. unfold good_rule in G. rewrite P in G.
  destruct G as [l [E NN]]. destruct (NN T) as [N1 N2].
  pose proof (proj1 K _ _ E eq_refl) as E'.
  split; [exists (CDict l); exact E'|].
  destruct fs as [|x fs].
  - destruct M as [r' [R' [_ [_ [C _]]]]]. rewrite R' in R; injection R as ->.
    unfold makeRuleCalc in C. rewrite R', T, P in C. destruct (ruleCalcType (kind f)); [|discriminate].
    assert (AD : asDict h a = Some l) by (apply asDict_Entries; exists true; exact E). rewrite AD in C. injection C as C.
    exists l, (numberAt l KDelta), (numberAt l KStart).
    split; [exists true; exact E'|]. split; [apply isNumber_Value; exact N1|]. split; [apply isNumber_Value; exact N2 | symmetry; exact C].
  - destruct M as [_ [C _]]. congruence.
Qed.

(** ** Every step *)
Lemma changed_good : forall s f c h f', inv s -> good_fields (hp s) f -> changed s f c = Some (h, f') ->
  inv (with_heap s h) /\ good_fields h f' /\ kept (hp s) h.
Proof.
  intros s f c h f' IV [GL [GS [GM GR]]] C.
  assert (EL : forall w, isList (hp s ++ [fresh (CList w)]) (length (hp s))).
  { intros w; exists w, false. rewrite nth_error_app2 by lia. rewrite Nat.sub_diag. reflexivity. }
  assert (ED : forall w, isDict (hp s ++ [fresh (CDict w)]) (length (hp s))).
  { intros w; exists w, false. rewrite nth_error_app2 by lia. rewrite Nat.sub_diag. reflexivity. }
  assert (X0 : inv (with_heap s (hp s))) by (apply inv_heap; [exact IV | apply kept_refl | apply IV]).
  assert (X1 : inv (with_heap s (hp s ++ [fresh (CList [])])))
    by (apply inv_app; [exact IV|]; constructor; [constructor | constructor]).
  assert (X2 : inv (with_heap s (hp s ++ [fresh (CDict [])])))
    by (apply inv_app; [exact IV|]; constructor; [constructor | constructor]).
  assert (KA : forall l, kept (hp s) (hp s ++ l)) by (intros; apply kept_app).
  assert (KR : kept (hp s) (hp s)) by apply kept_refl.
  assert (GRA : forall l r, rule f = Some r -> good_rule (hp s ++ l) r)
    by (intros l r R; eapply good_rule_kept; [apply kept_app | apply GR; exact R]).
  pose proof (fun l => isList_kept _ _ (kept_app (hp s) l) _ GL) as GLA.
  pose proof (fun l => isList_kept _ _ (kept_app (hp s) l) _ GS) as GSA.
  pose proof (fun l => isDict_kept _ _ (kept_app (hp s) l) _ GM) as GMA.
  destruct c as [[a|]|t|k|u|r|i|t|r|i|[a|]|[a|]|i]; cbn [changed] in C.
  - destruct (asList (hp s) a) as [l|] eqn:E; [|discriminate]. injection C as <- <-.
    split; [exact X0|]. split; [|exact KR]. split; [exists l; apply asList_Items; exact E|]. split; [exact GS|]. split; [exact GM | exact GR].
  - injection C as <- <-. split; [exact X1|]. split; [|apply KA]. split; [apply EL|]. split; [apply GSA|]. split; [apply GMA | apply GRA].
  - injection C as <- <-. split; [exact X0|]. split; [|exact KR]. split; [exact GL|]. split; [exact GS|]. split; [exact GM | exact GR].
  - injection C as <- <-. split; [exact X0|]. split; [|exact KR]. split; [exact GL|]. split; [exact GS|]. split; [exact GM | exact GR].
  - injection C as <- <-. split; [exact X0|]. split; [|exact KR]. split; [exact GL|]. split; [exact GS|]. split; [exact GM | exact GR].
  - injection C as <- <-. split; [exact X0|]. split; [|exact KR]. split; [exact GL|]. split; [exact GS|]. split; [exact GM | exact GR].
  - destruct (pick (rus s) i) as [o|] eqn:E; [|discriminate]. injection C as <- <-. split; [exact X0|]. split; [|exact KR].
    split; [exact GL|]. split; [exact GS|]. split; [exact GM|]. cbn [rule]. intros r ->.
    destruct i as [n|]; cbn [pick] in E; [|discriminate]. destruct (nth_error (rus s) n) as [r'|] eqn:N; [|discriminate]. injection E as ->.
    eapply Forall_nth_error; [|exact N]. apply IV.
  - injection C as <- <-. split; [exact X0|]. split; [|exact KR]. split; [exact GL|]. split; [exact GS|]. split; [exact GM | exact GR].
  - injection C as <- <-. split; [exact X0|]. split; [|exact KR]. split; [exact GL|]. split; [exact GS|]. split; [exact GM | exact GR].
  - destruct (pick (scs s) i) as [o|] eqn:E; [|discriminate]. injection C as <- <-. split; [exact X0|]. split; [|exact KR].
    split; [exact GL|]. split; [exact GS|]. split; [exact GM | exact GR].
  - destruct (asDict (hp s) a) as [l|] eqn:E; [|discriminate]. injection C as <- <-.
    split; [exact X0|]. split; [|exact KR]. split; [exact GL|]. split; [exact GS|]. split; [exists l; apply asDict_Entries; exact E | exact GR].
  - injection C as <- <-. split; [exact X2|]. split; [|apply KA]. split; [apply GLA|]. split; [apply GSA|]. split; [apply ED | apply GRA].
  - destruct (asList (hp s) a) as [l|] eqn:E; [|discriminate]. injection C as <- <-.
    split; [exact X0|]. split; [|exact KR]. split; [exact GL|]. split; [exists l; apply asList_Items; exact E|]. split; [exact GM | exact GR].
  - injection C as <- <-. split; [exact X1|]. split; [|apply KA]. split; [apply GLA|]. split; [apply EL|]. split; [apply GMA | apply GRA].
  - injection C as <- <-. split; [exact X0|]. split; [|exact KR]. split; [exact GL|]. split; [exact GS|]. split; [exact GM | exact GR].
Qed.

Lemma newBuilder_good : forall h, good_fields (fst (newBuilder h)) (snd (newBuilder h)).
Proof.
  intros h; unfold newBuilder; cbn [fst snd].
  assert (N : forall k, (length h <= k)%nat -> nth_error (h ++ [fresh (CList []); {| frozen := true; what := CDict [] |}; fresh (CList []); fresh (CDict [])]) k
              = nth_error [fresh (CList []); {| frozen := true; what := CDict [] |}; fresh (CList []); fresh (CDict [])] (k - length h))
    by (intros k L; apply nth_error_app2; exact L).
  split; [exists [], false; cbn [dims]; rewrite N, Nat.sub_diag by lia; reflexivity|].
  split; [exists [], false; cbn [structs]; rewrite N by lia; replace (length h + 2 - length h)%nat with 2%nat by lia; reflexivity|].
  split; [exists [], false; cbn [metadata]; rewrite N by lia; replace (length h + 3 - length h)%nat with 3%nat by lia; reflexivity|].
  cbn [rule]. intros r [= <-]. unfold good_rule; cbn [ru_params ru_type]. exists []. split; [|discriminate].
  rewrite N by lia; replace (length h + 1 - length h)%nat with 1%nat by lia; reflexivity.
Qed.

Ltac add_one H := apply Forall_app; split; [exact H | constructor; [|constructor]].

Lemma step_good : forall s o, inv s -> inv (fst (step s o)) /\ kept (hp s) (hp (fst (step s o))).
Proof.
  intros s o IV. assert (R0 : inv s /\ kept (hp s) (hp s)) by (split; [exact IV | apply kept_refl]).
  destruct o as [l| |a l|a k v|a k|a|t a|i u n|t a|b i o t a| |i|i c|i]; cbn [step].
  - destruct (resolveAll s l) as [vs|] eqn:E; [|exact R0]. cbn [fst with_heap hp]. split; [|apply kept_app].
    apply inv_app; [exact IV|]. constructor; [|constructor]. cbn [fresh what good_content]. eapply resolveAll_good; eauto.
  - cbn [fst with_heap hp]. split; [|apply kept_app]. apply inv_app; [exact IV|]. constructor; constructor.
  - destruct (resolveAll s l) as [vs|] eqn:E; [|exact R0]. cbv zeta. cbn [fst with_heap hp].
    assert (AL : forall c x, (fun c => match c with CList _ => Some (CList vs) | CDict _ => None end) c = Some x -> alike c x)
      by (intros [w|w] x; cbn beta iota; [intros [= <-]; exact I | discriminate]).
    split; [|apply kept_write; exact AL]. apply inv_write; [exact IV | exact AL|].
    intros [w|w] x _; [intros [= <-] | discriminate]. eapply resolveAll_good; eauto.
  - destruct (resolve s v) as [x|] eqn:E; [|exact R0]. cbv zeta. cbn [fst with_heap hp].
    assert (AL : forall c y, (fun c => match c with CDict l => Some (CDict (assign l k x)) | CList _ => None end) c = Some y -> alike c y)
      by (intros [w|w] y; cbn beta iota; [discriminate | intros [= <-]; exact I]).
    split; [|apply kept_write; exact AL]. apply inv_write; [exact IV | exact AL|].
    intros [w|w] y G; [discriminate | intros [= <-]]. cbn [good_content] in G |- *. apply Forall_assign; [exact G|].
    intros k'; cbn [snd]. eapply resolve_good; eauto.
  - cbv zeta. cbn [fst with_heap hp].
    assert (AL : forall c y, (fun c => match c with CDict l => Some (CDict (delete l k)) | CList _ => None end) c = Some y -> alike c y)
      by (intros [w|w] y; cbn beta iota; [discriminate | intros [= <-]; exact I]).
    split; [|apply kept_write; exact AL]. apply inv_write; [exact IV | exact AL|].
    intros [w|w] y G; [discriminate | intros [= <-]]. cbn [good_content] in G |- *. unfold delete.
    apply Forall_forall. intros p IP. apply filter_In in IP. rewrite Forall_forall in G. apply G, IP.
  - cbn [fst with_heap hp]. split; [apply inv_freeze; exact IV | apply kept_freeze].
  - unfold newDimRule. destruct (verifyDimRule (hp s) t a) as [e|] eqn:V; [exact R0|].
    cbn [fst hp]. split; [|apply kept_freeze].
    destruct (inv_freeze s a IV) as [A [B [C [D [E F]]]]]. cbn [with_heap hp drs dms rus scs bs ds] in *.
    split; [|auto 6]. add_one A.
    destruct (asDict (hp s) a) as [l|] eqn:AD; [eapply dim_rule_good; eauto|]. unfold verifyDimRule in V; rewrite AD in V; discriminate.
  - destruct (nth_error (drs s) i) as [r|] eqn:N; [|exact R0]. cbn [fst hp]. split; [|apply kept_refl].
    destruct IV as [A [B [C [D [E F]]]]]. split; [exact A|]. split; [|auto]. cbn [dms hp]. add_one B. cbn [dm_rule].
    eapply Forall_nth_error; eauto.
  - unfold newDataRule. destruct (verifyDataRule (hp s) t a) as [e|] eqn:V; [exact R0|]. cbn [fst hp].
    assert (Y : inv (with_heap s (match a with Some b => freeze (hp s) b | None => hp s end)) /\
                kept (hp s) (match a with Some b => freeze (hp s) b | None => hp s end)).
    { destruct a as [b|]; [split; [apply inv_freeze; exact IV | apply kept_freeze]|]. split; [|apply kept_refl].
      apply inv_heap; [exact IV | apply kept_refl | apply IV]. }
    destruct Y as [[A [B [C [D [E F]]]]] K]. split; [|exact K]. cbn [with_heap hp drs dms rus scs bs ds] in *.
    split; [exact A|]. split; [exact B|]. split; [|auto]. cbn [rus hp]. add_one C. apply data_rule_good; exact V.
  - unfold newScaling. destruct (verifyScaling (hp s) i t a) as [e|] eqn:V; [exact R0|]. destruct a as [a|]; [|exact R0]. cbn [fst hp].
    assert (Y : inv (with_heap s (if b then freeze (hp s) a else hp s)) /\ kept (hp s) (if b then freeze (hp s) a else hp s)).
    { destruct b; [split; [apply inv_freeze; exact IV | apply kept_freeze]|]. split; [|apply kept_refl].
      apply inv_heap; [exact IV | apply kept_refl | apply IV]. }
    destruct Y as [Y K]. split; [exact Y | exact K].
  - cbn [fst with_builders with_heap hp]. unfold newBuilder at 3; cbn [fst]. split; [|apply kept_app].
    assert (Y : inv (with_heap s (fst (newBuilder (hp s))))).
    { unfold newBuilder; cbn [fst]. apply inv_app; [exact IV|]. repeat constructor. }
    destruct Y as [A [B [C [D [E F]]]]]. cbn [with_heap hp drs dms rus scs bs ds] in *.
    split; [exact A|]. split; [exact B|]. split; [exact C|]. split; [|auto]. cbn [with_builders with_heap bs hp]. add_one D.
    apply newBuilder_good.
  - destruct (nth_error (ds s) i) as [d|] eqn:N; [|exact R0]. cbn [fst with_builders hp]. split; [|apply kept_refl].
    destruct IV as [A [B [C [D [E F]]]]]. split; [exact A|]. split; [exact B|]. split; [exact C|]. split; [|auto].
    cbn [with_builders bs hp]. add_one D. apply (Forall_nth_error _ _ _ _ E N).
  - destruct (nth_error (bs s) i) as [f|] eqn:N; [|exact R0]. destruct (changed s f c) as [[h f']|] eqn:E; [|exact R0].
    assert (G : good_fields (hp s) f) by (eapply Forall_nth_error; [apply IV | exact N]).
    destruct (changed_good s f c h f' IV G E) as [[A [B [C [D [E' F]]]]] [G' K]].
    cbn [fst with_builders with_heap hp]. split; [|exact K]. cbn [with_heap hp drs dms rus scs bs ds] in *.
    split; [exact A|]. split; [exact B|]. split; [exact C|]. split; [|auto]. cbn [with_builders with_heap bs hp].
    apply Forall_set_nth; [exact D | exact G'].
  - destruct (nth_error (bs s) i) as [f|] eqn:N; [|exact R0].
    assert (G : good_fields (hp s) f) by (eapply Forall_nth_error; [apply IV | exact N]).
    pose proof (build_heap (hp s) f) as [SC K]. destruct (build (hp s) f) as [h' r] eqn:H. cbn [fst] in SC, K.
    assert (Y : inv (with_heap s h')) by (apply inv_heap; [exact IV | exact K | eapply cells_SC; [exact SC | exact K | apply IV]]).
    destruct r as [d|e]; cbn [fst note with_heap hp]; split; try exact K; [|exact Y].
    destruct Y as [A [B [C [D [E F]]]]]. cbn [with_heap hp drs dms rus scs bs ds] in *.
    split; [exact A|]. split; [exact B|]. split; [exact C|]. split; [exact D|]. split; [|exact F]. cbn [ds hp]. add_one E.
    eapply built_good; [exact G | exact H].
Qed.
Lemma run_good : forall ops s, inv s -> inv (run s ops) /\ kept (hp s) (hp (run s ops)).
Proof.
  induction ops as [|o r IH]; intros s H; cbn [run]; [split; [exact H | apply kept_refl]|].
  destruct (step_good s o H) as [A B]. destruct (IH _ A) as [C D]. split; [exact C | eapply kept_trans; eauto].
Qed.
Lemma initial_good : inv initial.
Proof. unfold inv, initial; cbn [hp drs dms rus scs bs ds]. auto 10. Qed.
Lemma reachable_good : forall s, reachable s -> inv s.
Proof. intros s [ops ->]. apply run_good, initial_good. Qed.
Lemma reachable_run : forall s ops, reachable s -> reachable (run s ops).
Proof.
  intros s ops [p ->]. exists (p ++ ops). generalize initial. induction p as [|o r IH]; intros s; cbn [app run]; [reflexivity | apply IH].
Qed.

(** descriptors are never lost *)
Lemma step_ds : forall s o, exists l, ds (fst (step s o)) = ds s ++ l.
Proof.
  intros s o; assert (N : exists l, ds s = ds s ++ l) by (exists []; rewrite app_nil_r; reflexivity).
  destruct o; cbn [step]; unfold newDimRule, newDataRule, newScaling; 
    repeat match goal with |- context [match ?x with _ => _ end] => destruct x end; cbn [fst note ds with_heap with_builders]; try exact N; eauto.
Qed.
Lemma run_ds : forall ops s, exists l, ds (run s ops) = ds s ++ l.
Proof.
  induction ops as [|o r IH]; intros s; cbn [run]; [exists []; rewrite app_nil_r; reflexivity|].
  destruct (step_ds s o) as [l A]. destruct (IH (fst (step s o))) as [l' B]. exists (l ++ l'). rewrite B, A, app_assoc. reflexivity.
Qed.
