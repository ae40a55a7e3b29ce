(** Proofs about data descriptors: the heap, and the invariant. *)
From Verif Require Import Base Desc_Model Desc_Spec.
Local Open Scope Z_scope.

(** ** Keys *)
Lemma key_eqb_eq : forall a b, key_eqb a b = true <-> a = b.
Proof.
  intros a b; destruct a, b; cbn [key_eqb]; try (split; congruence).
  rewrite Nat.eqb_eq; split; congruence.
Qed.
Lemma lookup_Value : forall l k v, lookup l k = Some v <-> Value l k v.
Proof.
  induction l as [|[k' v'] r IH]; intros k v; cbn [lookup].
  - split; [discriminate | intros H; inversion H].
  - destruct (key_eqb k' k) eqn:E.
    + apply key_eqb_eq in E; subst k'. split.
      * intros [= ->]; constructor.
      * intros H; inversion H; subst; [reflexivity | congruence].
    + assert (N : k' <> k) by (intros ->; rewrite (proj2 (key_eqb_eq k k) eq_refl) in E; discriminate).
      rewrite IH. split; intros H; [constructor; assumption | inversion H; subst; [congruence | assumption]].
Qed.
Lemma isNumber_Value : forall l k, isNumber l k = true -> Value l k (VNum (numberAt l k)).
Proof.
  intros l k; unfold isNumber, numberAt, number; destruct (lookup l k) as [[ ]|] eqn:E; try discriminate; intros _.
  apply lookup_Value; exact E.
Qed.
Lemma Value_isNumber : forall l k z, Value l k (VNum z) -> isNumber l k = true /\ numberAt l k = z.
Proof.
  intros l k z V; apply lookup_Value in V; unfold isNumber, numberAt, number; rewrite V; split; reflexivity.
Qed.

(** ** Reading the heap *)
Lemma asList_Items : forall h a l, asList h a = Some l <-> Items h a l.
Proof.
  intros h a l; unfold asList, Items; destruct (nth_error h a) as [[b [x|x]]|]; split; try (intros; discriminate).
  - intros [= ->]; exists b; reflexivity.
  - intros [b' [= -> ->]]; reflexivity.
  - intros [b' H]; discriminate H.
  - intros [b' H]; discriminate H.
Qed.
Lemma asDict_Entries : forall h a l, asDict h a = Some l <-> Entries h a l.
Proof.
  intros h a l; unfold asDict, Entries; destruct (nth_error h a) as [[b [x|x]]|]; split; try (intros; discriminate).
  - intros [b' H]; discriminate H.
  - intros [= ->]; exists b; reflexivity.
  - intros [b' [= -> ->]]; reflexivity.
  - intros [b' H]; discriminate H.
Qed.

Lemma nth_replace : forall h a b c,
  nth_error (replace h a c) b = if (a =? b)%nat then (match nth_error h b with Some _ => Some c | None => None end) else nth_error h b.
Proof.
  induction h as [|x r IH]; intros a b c; cbn [replace].
  - destruct a, b; cbn [nth_error]; destruct (_ =? _)%nat; reflexivity.
  - destruct a as [|a], b as [|b]; cbn [nth_error Nat.eqb]; try reflexivity. apply IH.
Qed.
Lemma length_replace : forall h a c, length (replace h a c) = length h.
Proof. induction h as [|x r IH]; intros [|a] c; cbn [replace length]; try reflexivity. f_equal; apply IH. Qed.
Lemma nth_freeze : forall h a b,
  nth_error (freeze h a) b = match nth_error h b with
                             | Some c => Some (if (a =? b)%nat then {| frozen := true; what := what c |} else c)
                             | None => None end.
Proof.
  intros h a b; unfold freeze. destruct (nth_error h a) as [c|] eqn:E.
  - rewrite nth_replace. destruct (a =? b)%nat eqn:F.
    + apply Nat.eqb_eq in F; subst b. rewrite E. reflexivity.
    + destruct (nth_error h b); reflexivity.
  - destruct (nth_error h b) as [c|] eqn:F; [|reflexivity].
    destruct (a =? b)%nat eqn:G; [|reflexivity]. apply Nat.eqb_eq in G; subst b. congruence.
Qed.
Lemma length_freeze : forall h a, length (freeze h a) = length h.
Proof. intros; unfold freeze; destruct (nth_error h a); [apply length_replace | reflexivity]. Qed.

(** ** Frozen things stay *)
Definition alike (c d : content) : Prop := match c, d with CList _, CList _ | CDict _, CDict _ => True | _, _ => False end.
Lemma alike_refl : forall c, alike c c.
Proof. intros [ ]; exact I. Qed.
Lemma alike_trans : forall a b c, alike a b -> alike b c -> alike a c.
Proof. intros [ ] [ ] [ ]; cbn [alike]; auto. Qed.
Definition kept (h h' : heap) : Prop :=
  (forall a c, nth_error h a = Some c -> frozen c = true -> nth_error h' a = Some c) /\
  (forall a c, nth_error h a = Some c -> exists c', nth_error h' a = Some c' /\ alike (what c) (what c')).
Lemma kept_refl : forall h, kept h h.
Proof. intros h; split; [intros a c H _; exact H|]. intros a c H; exists c; split; [exact H | apply alike_refl]. Qed.
Lemma kept_trans : forall h1 h2 h3, kept h1 h2 -> kept h2 h3 -> kept h1 h3.
Proof.
  intros h1 h2 h3 [A A'] [B B']; split.
  - intros a c H F. exact (B a c (A a c H F) F).
  - intros a c H. destruct (A' a c H) as [c1 [H1 K1]]. destruct (B' a c1 H1) as [c2 [H2 K2]]. exists c2; split; [exact H2 | eapply alike_trans; eauto].
Qed.
Lemma kept_app : forall h l, kept h (h ++ l).
Proof.
  intros h l; assert (E : forall a c, nth_error h a = Some c -> nth_error (h ++ l) a = Some c)
    by (intros a c H; rewrite nth_error_app1; [exact H|]; apply nth_error_Some; congruence).
  split; [intros a c H _; apply E; exact H|]. intros a c H; exists c; split; [apply E; exact H | apply alike_refl].
Qed.
Lemma kept_freeze : forall h a, kept h (freeze h a).
Proof.
  intros h a; split.
  - intros b c H F. rewrite nth_freeze, H. destruct (a =? b)%nat; [|reflexivity].
    destruct c as [fr w]; cbn [frozen what] in *; subst fr; reflexivity.
  - intros b c H. rewrite nth_freeze, H. eexists; split; [reflexivity|]. destruct (a =? b)%nat; apply alike_refl.
Qed.
Lemma kept_write : forall h a f, (forall c x, f c = Some x -> alike c x) -> kept h (fst (write h a f)).
Proof.
  intros h a f AL; unfold write. destruct (nth_error h a) as [c|] eqn:E; [|apply kept_refl].
  destruct (frozen c) eqn:F; [apply kept_refl|]. destruct (f (what c)) as [x|] eqn:X; [|apply kept_refl]. cbn [fst].
  split.
  - intros b c' H F'. rewrite nth_replace. destruct (a =? b)%nat eqn:G; [|exact H].
    apply Nat.eqb_eq in G; subst b. congruence.
  - intros b c' H. rewrite nth_replace. destruct (a =? b)%nat eqn:G.
    + apply Nat.eqb_eq in G; subst b. rewrite H. eexists; split; [reflexivity|]. cbn [what]. apply AL. congruence.
    + exists c'; split; [exact H | apply alike_refl].
Qed.
Lemma Unchangeable_freeze : forall h a, nth_error h a <> None -> Unchangeable (freeze h a) a.
Proof.
  intros h a N; destruct (nth_error h a) as [c|] eqn:E; [|congruence].
  exists (what c). rewrite nth_freeze, E, Nat.eqb_refl. reflexivity.
Qed.
Lemma Unchangeable_kept : forall h h' a, kept h h' -> Unchangeable h a -> Unchangeable h' a.
Proof. intros h h' a K [c H]; exists c; apply (proj1 K); [exact H | reflexivity]. Qed.

Lemma SC_refl : forall h, SameContents h h.
Proof. intros h; split; [reflexivity|]. intros a c H; exists c; auto. Qed.
Lemma SC_trans : forall h1 h2 h3, SameContents h1 h2 -> SameContents h2 h3 -> SameContents h1 h3.
Proof.
  intros h1 h2 h3 [L1 A] [L2 B]; split; [congruence|]. intros a c H.
  destruct (A a c H) as [c1 [H1 [W1 F1]]]. destruct (B a c1 H1) as [c2 [H2 [W2 F2]]].
  exists c2; split; [exact H2|]. split; [congruence | auto].
Qed.
Lemma SC_freeze : forall h a, SameContents h (freeze h a).
Proof.
  intros h a; split; [apply length_freeze|]. intros b c H. rewrite nth_freeze, H.
  eexists; split; [reflexivity|]. destruct (a =? b)%nat; cbn [what frozen]; auto.
Qed.
Lemma SC_freezeValues : forall l h, SameContents h (freezeValues h l) /\ kept h (freezeValues h l).
Proof.
  unfold freezeValues. induction l as [|[k v] r IH]; intros h; cbn [fold_left].
  - split; [apply SC_refl | apply kept_refl].
  - destruct v; cbn [snd]; try apply IH.
    destruct (IH (freeze h a)) as [A B]. split.
    + eapply SC_trans; [apply SC_freeze | exact A].
    + eapply kept_trans; [apply kept_freeze | exact B].
Qed.
Lemma SC_parts : forall h f b, SameContents h (freezeParts h f b) /\ kept h (freezeParts h f b).
Proof.
  intros h f b; unfold freezeParts.
  set (h1 := if b then freeze h (structs f) else h).
  assert (A : SameContents h h1 /\ kept h h1)
    by (unfold h1; destruct b; split; [apply SC_freeze | apply kept_freeze | apply SC_refl | apply kept_refl]).
  destruct A as [A1 A2].
  match goal with |- context [freezeValues ?g ?l] => destruct (SC_freezeValues l g) as [B1 B2] end.
  split.
  - eapply SC_trans; [exact A1|]. eapply SC_trans; [apply SC_freeze|]. eapply SC_trans; [apply SC_freeze | exact B1].
  - eapply kept_trans; [exact A2|]. eapply kept_trans; [apply kept_freeze|]. eapply kept_trans; [apply kept_freeze | exact B2].
Qed.
Lemma SC_asList : forall h h', SameContents h h' -> forall a, asList h' a = asList h a.
Proof.
  intros h h' [L A] a; unfold asList. destruct (nth_error h a) as [c|] eqn:E.
  - destruct (A a c E) as [c' [H [W _]]]. rewrite H. destruct c as [f w], c' as [f' w']; cbn [what] in W; subst w'. reflexivity.
  - apply nth_error_None in E. rewrite (proj2 (nth_error_None h' a)) by lia. reflexivity.
Qed.
Lemma SC_asDict : forall h h', SameContents h h' -> forall a, asDict h' a = asDict h a.
Proof.
  intros h h' [L A] a; unfold asDict. destruct (nth_error h a) as [c|] eqn:E.
  - destruct (A a c E) as [c' [H [W _]]]. rewrite H. destruct c as [f w], c' as [f' w']; cbn [what] in W; subst w'. reflexivity.
  - apply nth_error_None in E. rewrite (proj2 (nth_error_None h' a)) by lia. reflexivity.
Qed.

(** ** The values that the descriptor computes depend on contents only *)
Definition agree (h h' : heap) : Prop := (forall a, asList h' a = asList h a) /\ (forall a, asDict h' a = asDict h a).
Lemma SC_agree : forall h h', SameContents h h' -> agree h h'.
Proof. intros h h' A; split; [apply SC_asList | apply SC_asDict]; exact A. Qed.
Lemma verify_agree : forall h h', agree h h' -> forall t a, verifyDimRule h' t a = verifyDimRule h t a.
Proof.
  intros h h' [A B] t a; unfold verifyDimRule. rewrite B. destruct (asDict h a) as [l|]; [|reflexivity].
  destruct t; try reflexivity. destruct (lookup l KList) as [[ ]|]; try reflexivity. rewrite A. reflexivity.
Qed.
Lemma dimSize_agree : forall h h', agree h h' -> forall d, dimSize h' d = dimSize h d.
Proof.
  intros h h' A d; unfold dimSize. rewrite !(verify_agree _ _ A). destruct A as [A B]. rewrite B.
  destruct (dr_type (dm_rule d)); try reflexivity.
  destruct (verifyDimRule h DList (dr_params (dm_rule d))); try reflexivity.
  destruct (asDict h (dr_params (dm_rule d))) as [l|]; [|reflexivity].
  destruct (lookup l KList) as [[ ]|]; try reflexivity. rewrite A. reflexivity.
Qed.
Lemma count_ext : forall h h' l acc, (forall d, In (VDim d) l -> dimSize h' d = dimSize h d) -> elementCount h' l acc = elementCount h l acc.
Proof.
  induction l as [|v r IH]; intros acc E; cbn [elementCount]; [reflexivity|].
  destruct v; try reflexivity. rewrite (E d (or_introl eq_refl)). destruct (dimSize h d); [|reflexivity].
  apply IH. intros d' I'. apply E. right; exact I'.
Qed.
Lemma sizes_ext : forall h h' f l fs, (forall d, In (VDim d) l -> dimSize h' d = dimSize h d) -> sizes h' f l fs = sizes h f l fs.
Proof. intros h h' f l fs E; unfold sizes. rewrite (count_ext h h' l 1 E). reflexivity. Qed.
Lemma ruleCalc_ext : forall h h' f,
  (forall r a, rule f = Some r -> ru_type r = RLinear -> ru_params r = Some a -> asDict h' a = asDict h a) -> makeRuleCalc h' f = makeRuleCalc h f.
Proof.
  intros h h' f E; unfold makeRuleCalc. destruct (rule f) as [r|]; [|reflexivity].
  destruct (ru_type r) eqn:T; try reflexivity. destruct (ruleCalcType (kind f)); [|reflexivity].
  destruct (ru_params r) as [a|] eqn:P; [|reflexivity]. rewrite (E r a eq_refl T P). reflexivity.
Qed.
Lemma scaleCalc_ext : forall h h' f,
  (forall x, scale f = Some x -> sc_type x = CLinear -> asDict h' (sc_params x) = asDict h (sc_params x)) -> makeScaleCalc h' f = makeScaleCalc h f.
Proof.
  intros h h' f E; unfold makeScaleCalc. destruct (scale f) as [x|]; [|reflexivity].
  destruct (scalingCalcType x); [|reflexivity]. destruct (sc_type x) eqn:T; [reflexivity|]. rewrite (E x eq_refl T). reflexivity.
Qed.

(** what building gives, read off the contents *)
Definition outcome (h : heap) (f : fields) (dl fs : list val) : res desc :=
  match fs with
  | _ :: _ =>
    if structValid f then
      match sizes h f dl fs with
      | Ok (a, b) => Ok {| d_fields := f; sampleSize := a; rawSampleSize := b; ruleCalc := None; scaleCalc := None |}
      | Err e => Err e
      end
    else Err InvalidState
  | [] =>
    match plainValid f (length dl), rule f with
    | None, Some r =>
      match plainValid2 f r with
      | Some e => Err e
      | None =>
        match makeRuleCalc h f, makeScaleCalc h f with
        | Ok rc, Ok sc =>
          match sizes h f dl fs with
          | Ok (a, b) => Ok {| d_fields := f; sampleSize := a; rawSampleSize := b; ruleCalc := rc; scaleCalc := sc |}
          | Err e => Err e
          end
        | Err e, _ => Err e
        | _, Err e => Err e
        end
      end
    | Some e, _ => Err e
    | None, None => Err Incomplete
    end
  end.
Lemma build_outcome : forall h f dl fs, asList h (dims f) = Some dl -> asList h (structs f) = Some fs -> snd (build h f) = outcome h f dl fs.
Proof.
  intros h f dl fs A B; unfold build, outcome. rewrite A, B.
  destruct fs as [|x fs].
  - destruct (plainValid f (length dl)); [reflexivity|]. destruct (rule f) as [r|] eqn:R; [|reflexivity].
    destruct (plainValid2 f r); [reflexivity|].
    pose proof (SC_agree _ _ (proj1 (SC_parts h f false))) as G.
    rewrite (ruleCalc_ext h _ f) by (intros; apply (proj2 G)).
    rewrite (scaleCalc_ext h _ f) by (intros; apply (proj2 G)).
    rewrite (sizes_ext h _ f dl []) by (intros; apply (dimSize_agree _ _ G)).
    destruct (makeRuleCalc h f); [|reflexivity]. destruct (makeScaleCalc h f); [|reflexivity].
    destruct (sizes h f dl []) as [[? ?]|]; reflexivity.
  - destruct (structValid f); [|reflexivity].
    pose proof (SC_agree _ _ (proj1 (SC_parts h f true))) as G.
    rewrite (sizes_ext h _ f dl (x :: fs)) by (intros; apply (dimSize_agree _ _ G)).
    destruct (sizes h f dl (x :: fs)) as [[? ?]|]; reflexivity.
Qed.
Lemma build_heap : forall h f, SameContents h (fst (build h f)) /\ kept h (fst (build h f)).
Proof.
  intros h f; unfold build.
  assert (R : SameContents h h /\ kept h h) by (split; [apply SC_refl | apply kept_refl]).
  destruct (asList h (dims f)) as [dl|]; [|exact R]. destruct (asList h (structs f)) as [[|x fs]|]; [| |exact R].
  - destruct (plainValid f (length dl)); [exact R|]. destruct (rule f); [|exact R].
    destruct (plainValid2 f _); [exact R|].
    destruct (makeRuleCalc _ f); [|apply SC_parts]. destruct (makeScaleCalc _ f); [|apply SC_parts].
    destruct (sizes _ f dl []) as [[? ?]|]; apply SC_parts.
  - destruct (structValid f); [|exact R]. destruct (sizes _ f dl (x :: fs)) as [[? ?]|]; apply SC_parts.
Qed.

(** ** The invariant *)
Definition good_dim (h : heap) (r : dim_rule) : Prop :=
  exists l, nth_error h (dr_params r) = Some {| frozen := true; what := CDict l |} /\
  match dr_type r with
  | DLinear => (length l =? 3)%nat && (isNumber l KDelta && isNumber l KStart && isNumber l KSize) = true
  | DLogarithmic => (length l =? 4)%nat && (isNumber l KDelta && isNumber l KStart && isNumber l KSize && isNumber l KBase) = true
  | _ => True
  end.
Definition good_rule (h : heap) (r : data_rule) : Prop :=
  match ru_params r with
  | Some a => exists l, nth_error h a = Some {| frozen := true; what := CDict l |} /\
              (ru_type r = RLinear -> isNumber l KDelta = true /\ isNumber l KStart = true)
  | None => ru_type r = RExplicit
  end.
Definition isList (h : heap) (a : addr) : Prop := exists l, Items h a l.
Definition isDict (h : heap) (a : addr) : Prop := exists l, Entries h a l.
Definition good_fields (h : heap) (f : fields) : Prop :=
  isList h (dims f) /\ isList h (structs f) /\ isDict h (metadata f) /\ (forall r, rule f = Some r -> good_rule h r).
Definition good_desc (h : heap) (d : desc) : Prop :=
  Unchangeable h (dims (d_fields d)) /\ Unchangeable h (metadata (d_fields d)) /\ good_fields h (d_fields d) /\
  0 <= sampleSize d /\ 0 <= rawSampleSize d /\ RuleNumbers h d.
Definition good_val (h : heap) (v : val) : Prop :=
  match v with VDim d => good_dim h (dm_rule d) | VDesc d => good_desc h d | VRef a => nth_error h a <> None | _ => True end.
Definition good_content (h : heap) (c : content) : Prop :=
  match c with CList l => Forall (good_val h) l | CDict l => Forall (fun p => good_val h (snd p)) l end.
Definition inv (s : st) : Prop :=
  Forall (good_dim (hp s)) (drs s) /\
  Forall (fun d => good_dim (hp s) (dm_rule d)) (dms s) /\
  Forall (good_rule (hp s)) (rus s) /\
  Forall (good_fields (hp s)) (bs s) /\
  Forall (good_desc (hp s)) (ds s) /\
  Forall (fun c => good_content (hp s) (what c)) (hp s).

Lemma good_dim_kept : forall h h', kept h h' -> forall r, good_dim h r -> good_dim h' r.
Proof. intros h h' K r [l [A B]]. exists l; split; [apply (proj1 K); [exact A | reflexivity] | exact B]. Qed.
Lemma good_rule_kept : forall h h', kept h h' -> forall r, good_rule h r -> good_rule h' r.
Proof.
  intros h h' K r; unfold good_rule. destruct (ru_params r); [|auto]. intros [l [A B]]. exists l; split; [apply (proj1 K); [exact A | reflexivity] | exact B].
Qed.
Lemma isList_kept : forall h h', kept h h' -> forall a, isList h a -> isList h' a.
Proof.
  intros h h' K a [l [b H]]. destruct (proj2 K _ _ H) as [[b' w] [H' A]]. cbn [what] in A. destruct w as [x|x]; [|destruct A].
  exists x, b'. exact H'.
Qed.
Lemma isDict_kept : forall h h', kept h h' -> forall a, isDict h a -> isDict h' a.
Proof.
  intros h h' K a [l [b H]]. destruct (proj2 K _ _ H) as [[b' w] [H' A]]. cbn [what] in A. destruct w as [x|x]; [destruct A|].
  exists x, b'. exact H'.
Qed.
Lemma good_fields_kept : forall h h', kept h h' -> forall f, good_fields h f -> good_fields h' f.
Proof.
  intros h h' K f [A [B [C D]]]. split; [eapply isList_kept; eauto|]. split; [eapply isList_kept; eauto|].
  split; [eapply isDict_kept; eauto|]. intros r R. eapply good_rule_kept; eauto.
Qed.
Lemma RuleNumbers_kept : forall h h', kept h h' -> forall d, RuleNumbers h d -> RuleNumbers h' d.
Proof.
  intros h h' K d R r a E1 E2 E3 E4. destruct (R r a E1 E2 E3 E4) as [U [l [x [y [E [V1 [V2 C]]]]]]].
  split; [eapply Unchangeable_kept; eauto|]. exists l, x, y. split; [|auto].
  destruct U as [c U]. pose proof (proj1 K _ _ U eq_refl) as U'. destruct E as [b E]. rewrite U in E. injection E as <- ->. exists true; exact U'.
Qed.
Lemma good_desc_kept : forall h h', kept h h' -> forall d, good_desc h d -> good_desc h' d.
Proof.
  intros h h' K d [A [B [C [D [E F]]]]].
  split; [eapply Unchangeable_kept; eauto|]. split; [eapply Unchangeable_kept; eauto|].
  split; [eapply good_fields_kept; eauto|]. split; [exact D|]. split; [exact E | eapply RuleNumbers_kept; eauto].
Qed.
Lemma good_val_kept : forall h h', kept h h' -> forall v, good_val h v -> good_val h' v.
Proof.
  intros h h' K [ ]; cbn [good_val]; auto; [|apply good_dim_kept; exact K | apply good_desc_kept; exact K].
  intros N. destruct (nth_error h a) as [c|] eqn:E; [|congruence]. destruct (proj2 K _ _ E) as [c' [H _]]. congruence.
Qed.
Lemma good_content_kept : forall h h', kept h h' -> forall c, good_content h c -> good_content h' c.
Proof.
  intros h h' K [l|l]; cbn [good_content]; apply Forall_impl; intros ?; apply good_val_kept; exact K.
Qed.

(** heaps in which only freezing, appending and writing happened *)
Lemma cells_SC : forall h h', SameContents h h' -> kept h h' ->
  Forall (fun c => good_content h (what c)) h -> Forall (fun c => good_content h' (what c)) h'.
Proof.
  intros h h' [L A] K F. apply Forall_forall. intros c I0. apply In_nth_error in I0. destruct I0 as [a H].
  destruct (nth_error h a) as [c0|] eqn:E.
  - destruct (A a c0 E) as [c' [H' [W _]]]. rewrite H in H'; injection H' as <-. rewrite W.
    apply (good_content_kept h h' K). rewrite Forall_forall in F. apply F. eapply nth_error_In; exact E.
  - apply nth_error_None in E. assert (a < length h')%nat by (apply nth_error_Some; congruence). lia.
Qed.
Lemma cells_app : forall h l, Forall (fun c => good_content h (what c)) h -> Forall (fun c => good_content h (what c)) l ->
  Forall (fun c => good_content (h ++ l) (what c)) (h ++ l).
Proof.
  intros h l A B. apply Forall_app; split; (eapply Forall_impl; [|eassumption]); intros c; apply good_content_kept, kept_app.
Qed.
Lemma Forall_replace : forall (P : cell -> Prop) h a c, Forall P h -> P c -> Forall P (replace h a c).
Proof.
  induction h as [|x r IH]; intros [|a] c F H; cbn [replace]; auto; inversion F; subst; constructor; auto.
Qed.
Lemma cells_write : forall h a f,
  Forall (fun c => good_content h (what c)) h ->
  (forall c x, f c = Some x -> alike c x) ->
  (forall c x, good_content h c -> f c = Some x -> good_content h x) ->
  Forall (fun c => good_content (fst (write h a f)) (what c)) (fst (write h a f)).
Proof.
  intros h a f F AL G. pose proof (kept_write h a f AL) as K.
  assert (E : Forall (fun c => good_content h (what c)) (fst (write h a f))).
  { unfold write. destruct (nth_error h a) as [c|] eqn:H; [|exact F]. destruct (frozen c); [exact F|].
    destruct (f (what c)) as [x|] eqn:X; [|exact F]. cbn [fst]. apply Forall_replace; [exact F|]. cbn [what].
    eapply G; [|exact X]. rewrite Forall_forall in F. apply F. eapply nth_error_In; exact H. }
  eapply Forall_impl; [|exact E]. intros c; apply good_content_kept; exact K.
Qed.

(** the store part of the invariant for a later heap *)
Lemma inv_heap : forall s h', inv s -> kept (hp s) h' -> Forall (fun c => good_content h' (what c)) h' -> inv (with_heap s h').
Proof.
  intros s h' [A [B [C [D [E F]]]]] K G. unfold inv; cbn [with_heap hp drs dms rus scs bs ds].
  split; [eapply Forall_impl; [|exact A]; apply good_dim_kept; exact K|].
  split; [eapply Forall_impl; [|exact B]; intros d; apply good_dim_kept; exact K|].
  split; [eapply Forall_impl; [|exact C]; apply good_rule_kept; exact K|].
  split; [eapply Forall_impl; [|exact D]; apply good_fields_kept; exact K|].
  split; [eapply Forall_impl; [|exact E]; apply good_desc_kept; exact K | exact G].
Qed.
Lemma inv_freeze : forall s a, inv s -> inv (with_heap s (freeze (hp s) a)).
Proof.
  intros s a H; apply inv_heap; [exact H | apply kept_freeze |].
  eapply cells_SC; [apply SC_freeze | apply kept_freeze | apply H].
Qed.
Lemma inv_app : forall s l, inv s -> Forall (fun c => good_content (hp s) (what c)) l -> inv (with_heap s (hp s ++ l)).
Proof. intros s l H G; apply inv_heap; [exact H | apply kept_app |]. apply cells_app; [apply H | exact G]. Qed.
Lemma inv_write : forall s a f, inv s -> (forall c x, f c = Some x -> alike c x) -> (forall c x, good_content (hp s) c -> f c = Some x -> good_content (hp s) x) ->
  inv (with_heap s (fst (write (hp s) a f))).
Proof. intros s a f H AL G; apply inv_heap; [exact H | apply kept_write; exact AL |]. apply cells_write; [apply H | exact AL | exact G]. Qed.

Lemma resolve_good : forall s a v, inv s -> resolve s a = Some v -> good_val (hp s) v.
Proof.
  intros s a v [A [B [C [D [E F]]]]] H. destruct a; cbn [resolve] in H; try (injection H as <-; exact I).
  - destruct (nth_error (hp s) a) eqn:N; [injection H as <- | discriminate]. cbn [good_val]. congruence.
  - destruct (nth_error (dms s) i) as [d|] eqn:N; [injection H as <- | discriminate].
    rewrite Forall_forall in B. apply B. eapply nth_error_In; exact N.
  - destruct (nth_error (ds s) i) as [d|] eqn:N; [injection H as <- | discriminate].
    rewrite Forall_forall in E. apply E. eapply nth_error_In; exact N.
Qed.
Lemma resolveAll_good : forall s l vs, inv s -> resolveAll s l = Some vs -> Forall (good_val (hp s)) vs.
Proof.
  intros s l; induction l as [|a r IH]; intros vs H E; cbn [resolveAll] in E.
  - injection E as <-; constructor.
  - destruct (resolve s a) as [v|] eqn:R; [|discriminate]. destruct (resolveAll s r) as [w|] eqn:RA; [|discriminate].
    injection E as <-. constructor; [eapply resolve_good; eauto | apply IH; auto].
Qed.
Lemma Forall_assign : forall (P : key * val -> Prop) l k v, Forall P l -> (forall k', P (k', v)) -> Forall P (assign l k v).
Proof.
  induction l as [|[k' v'] r IH]; intros k v F G; cbn [assign].
  - constructor; [apply G | constructor].
  - inversion F; subst. destruct (key_eqb k' k); constructor; auto.
Qed.
Lemma Forall_set_nth : forall {A : Type} (P : A -> Prop) l i x, Forall P l -> P x -> Forall P (set_nth l i x).
Proof. intros A P; induction l as [|y r IH]; intros [|i] x F H; cbn [set_nth]; auto; inversion F; subst; constructor; auto. Qed.
Lemma Forall_nth_error : forall {A : Type} (P : A -> Prop) l i x, Forall P l -> nth_error l i = Some x -> P x.
Proof. intros A P l i x F E. rewrite Forall_forall in F. apply F. eapply nth_error_In; exact E. Qed.

Lemma dim_rule_good : forall h t a l, asDict h a = Some l -> verifyDimRule h t a = None ->
  good_dim (freeze h a) {| dr_type := t; dr_params := a |}.
Proof.
  intros h t a l D V. unfold verifyDimRule in V. rewrite D in V. exists l; cbn [dr_params dr_type]. split.
  - rewrite nth_freeze, Nat.eqb_refl. apply asDict_Entries in D. destruct D as [b D]. rewrite D. reflexivity.
  - destruct t; auto.
    + destruct ((length l =? 3)%nat && (isNumber l KDelta && isNumber l KStart && isNumber l KSize)); [reflexivity | discriminate].
    + destruct ((length l =? 4)%nat && (isNumber l KDelta && isNumber l KStart && isNumber l KSize && isNumber l KBase)); [reflexivity | discriminate].
Qed.
Lemma data_rule_good : forall h t a, verifyDataRule h t a = None ->
  good_rule (match a with Some b => freeze h b | None => h end) {| ru_type := t; ru_params := a |}.
Proof.
  intros h t [a|] V; unfold good_rule; cbn [ru_params ru_type]; unfold verifyDataRule in V.
  - destruct (asDict h a) as [l|] eqn:D; [|discriminate]. exists l. split.
    + rewrite nth_freeze, Nat.eqb_refl. apply asDict_Entries in D. destruct D as [b D]. rewrite D. reflexivity.
    + intros ->. destruct ((length l =? 2)%nat && (isNumber l KDelta && isNumber l KStart)) eqn:E; [|discriminate].
      apply andb_prop in E; destruct E as [_ E]. apply andb_prop in E; exact E.
  - destruct t; cbn [is_explicit] in V; congruence.
Qed.

Lemma fieldSizes_pos : forall l a b x y, 0 <= a -> 0 <= b -> fieldSizes l a b = Ok (x, y) -> 0 <= x /\ 0 <= y.
Proof.
  induction l as [|v r IH]; intros a b x y A B E; cbn [fieldSizes] in E.
  - injection E as <- <-; auto.
  - destruct v; try discriminate. eapply IH; [| |exact E]; apply Z.mod_pos_bound; reflexivity.
Qed.
Lemma w64_pos : forall z, 0 <= w64 z.
Proof. intros z; apply Z.mod_pos_bound; reflexivity. Qed.
Lemma sizes_pos : forall h f l fs x y, sizes h f l fs = Ok (x, y) -> 0 <= x /\ 0 <= y.
Proof.
  intros h f l fs x y; unfold sizes. destruct (elementCount h l 1) as [n|]; [|discriminate]. destruct fs as [|v fs].
  - intros [= <- <-]. split; [apply w64_pos|]. destruct (match rule f with Some r => _ | None => _ end); [apply w64_pos | lia].
  - destruct (fieldSizes (v :: fs) 0 0) as [[a b]|]; [|discriminate]. intros [= <- <-]. split; apply w64_pos.
Qed.

Lemma freezeParts_dims : forall h f b, asList h (dims f) <> None -> Unchangeable (freezeParts h f b) (dims f).
Proof.
  intros h f b N; unfold freezeParts.
  set (h1 := if b then freeze h (structs f) else h).
  assert (N1 : nth_error h1 (dims f) <> None).
  { unfold asList in N. destruct (nth_error h (dims f)) as [c|] eqn:E; [|congruence]. unfold h1; destruct b; [|congruence].
    rewrite nth_freeze, E. discriminate. }
  eapply Unchangeable_kept; [apply SC_freezeValues|]. eapply Unchangeable_kept; [apply kept_freeze|]. apply Unchangeable_freeze; exact N1.
Qed.
Lemma freezeParts_metadata : forall h f b, nth_error h (metadata f) <> None -> Unchangeable (freezeParts h f b) (metadata f).
Proof.
  intros h f b N; unfold freezeParts.
  set (h1 := if b then freeze h (structs f) else h).
  eapply Unchangeable_kept; [apply SC_freezeValues|]. apply Unchangeable_freeze.
  rewrite nth_freeze. unfold h1. destruct b; [rewrite nth_freeze|]; destruct (nth_error h (metadata f)); congruence.
Qed.

Lemma freezeValues_frozen : forall l h k a, In (k, VRef a) l -> nth_error h a <> None -> Unchangeable (freezeValues h l) a.
Proof.
  unfold freezeValues. induction l as [|[k' v] r IH]; intros h k a I0 N; cbn [fold_left]; [destruct I0|].
  destruct I0 as [E|I0].
  - injection E as -> ->. cbn [snd]. eapply Unchangeable_kept; [apply (SC_freezeValues r)|]. apply Unchangeable_freeze; exact N.
  - destruct v; cbn [snd]; try (eapply IH; eassumption). eapply IH; [exact I0|]. rewrite nth_freeze. destruct (nth_error h a); congruence.
Qed.
Lemma freezeParts_values : forall h f b ml k a, asDict h (metadata f) = Some ml -> In (k, VRef a) ml -> nth_error h a <> None ->
  Unchangeable (freezeParts h f b) a.
Proof.
  intros h f b ml k a E I0 N; unfold freezeParts.
  set (h1 := if b then freeze h (structs f) else h). set (h3 := freeze (freeze h1 (dims f)) (metadata f)).
  assert (SC : SameContents h h3).
  { unfold h3. eapply SC_trans; [|apply SC_freeze]. eapply SC_trans; [|apply SC_freeze]. unfold h1; destruct b; [apply SC_freeze | apply SC_refl]. }
  rewrite (SC_asDict _ _ SC), E. eapply freezeValues_frozen; [exact I0|].
  destruct (nth_error h a) as [c|] eqn:X; [|congruence]. destruct (proj2 SC _ _ X) as [c' [H _]]. congruence.
Qed.
Lemma freezeParts_structs : forall h f, nth_error h (structs f) <> None -> Unchangeable (freezeParts h f true) (structs f).
Proof.
  intros h f N; unfold freezeParts. eapply Unchangeable_kept; [apply SC_freezeValues|]. eapply Unchangeable_kept; [apply kept_freeze|].
  eapply Unchangeable_kept; [apply kept_freeze|]. apply Unchangeable_freeze; exact N.
Qed.
