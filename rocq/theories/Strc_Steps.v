From Verif Require Import Base Strc_Model Strc_Spec Strc_Proofs.
From Verif Require Types_Model.
Local Open Scope Z_scope.

Lemma same_ty_refl : forall t, made_ty t -> same_ty t t.
Proof. intros t M. apply (ty_eq_sound t t false M M). apply ty_eq_refl. exact M. Qed.

Lemma vcore_kind : forall v, vcore v = kind v.
Proof. destruct v; reflexivity. Qed.

Lemma struct_type_of : forall v t, struct_type v = Some t -> is_struct_of v t.
Proof.
  intros v t H. destruct v as [|c i|c u i|n es w|u fs]; cbn [struct_type] in H; try discriminate; injection H as <-.
  - right. exists c, i. reflexivity.
  - left. exists fs. reflexivity.
Qed.
Lemma made_struct_type : forall v t, made_val v -> struct_type v = Some t -> made_ty t.
Proof.
  intros v t M H. destruct M; cbn [struct_type] in H; try discriminate; injection H as <-; assumption.
Qed.

Lemma checkField_sound : forall t v, made_ty t -> accepted (core t) = true -> made_val v ->
  checkField t v = Ok tt -> nearly_fits t v.
Proof.
  intros t v MT AT MV H.
  assert (D : v = VNull \/ v <> VNull) by (destruct v; [left; reflexivity | right; discriminate ..]).
  destruct D as [->|D].
  { destruct t; cbn [nearly_fits]; try (left; reflexivity). }
  destruct t as [c|n ns ts ds|n es|n].
  - assert (E : ct_beq c CUndef || ct_beq (vcore v) c = true).
    { destruct v; try contradiction; cbn [checkField core] in H; destruct (ct_beq c CUndef || _); try discriminate; reflexivity. }
    cbn [nearly_fits fits]. right. apply orb_true_iff in E. destruct E as [E|E]; apply ct_beq_eq in E.
    + left. exact E.
    + right. rewrite <- vcore_kind. exact E.
  - cbn [nearly_fits fits]. right.
    assert (E : exists tv, struct_type v = Some tv /\ ty_eq false tv (TStruct n ns ts ds) = Some true).
    { destruct v; try contradiction; cbn [checkField struct_type] in *; try discriminate;
        match type of H with context [ty_eq false ?a ?b] => exists a; split; [reflexivity|];
          destruct (ty_eq false a b) as [[]|]; try discriminate; reflexivity end. }
    destruct E as [tv [E1 E2]]. exists tv. split; [exact (struct_type_of _ _ E1)|].
    exact (ty_eq_sound _ _ _ (made_struct_type _ _ MV E1) MT E2).
  - cbn [nearly_fits]. right.
    assert (E : ct_beq (vcore v) CEnum = true).
    { destruct v; try contradiction; cbn [checkField core ct_beq orb] in H; destruct (ct_beq (vcore _) CEnum); try discriminate; reflexivity. }
    apply ct_beq_eq in E. rewrite <- vcore_kind. exact E.
  - cbn [core accepted] in AT. discriminate.
Qed.

Lemma checkField_complete : forall t v, made_ty t -> suits t v -> checkField t v = Ok tt.
Proof.
  intros t v MT H. destruct H as [->|H]; [reflexivity|].
  destruct t as [c|n ns ts ds|n es|n].
  - assert (E : ct_beq c CUndef || ct_beq (vcore v) c = true).
    { apply orb_true_iff. destruct H as [->|H]; [left; reflexivity | right; rewrite vcore_kind; apply ct_beq_eq; exact H]. }
    destruct v; cbn [checkField core]; try reflexivity; rewrite E; reflexivity.
  - assert (E : struct_type v = Some (TStruct n ns ts ds)).
    { destruct H as [[fs ->]|[c [i ->]]]; reflexivity. }
    destruct v; cbn [checkField]; try reflexivity; rewrite E, (ty_eq_refl _ false MT); reflexivity.
  - assert (E : ct_beq (vcore v) CEnum = true) by (rewrite vcore_kind; apply ct_beq_eq; exact H).
    destruct v; cbn [checkField core ct_beq orb]; try reflexivity; rewrite E; reflexivity.
  - destruct H.
Qed.

Lemma default_of_from : forall ds, default_of ds = VNull \/ exists l, ds = Some l /\ In (default_of ds) l.
Proof.
  intros [[|d l]|]; cbn [default_of]; [left; reflexivity | right | left; reflexivity].
  exists (d :: l). split; [reflexivity | left; reflexivity].
Qed.

Lemma checkFields_gen : forall ns ts ds fz es es' r,
  checkFields fz ns ts ds es = (es', r) -> NoDup (keys es) ->
  NoDup (keys es') /\ (fz = true -> es' = es) /\ (forall e, In e es -> In e es') /\
  (forall k v, In (k, v) es' -> In (k, v) es \/ v = VNull \/ exists l, ds = Some l /\ In v l).
Proof.
  induction ns as [|n ns IH]; intros ts ds fz es es' r H N.
  { cbn [checkFields] in H. injection H as <- <-. repeat split; auto. }
  destruct ts as [|t ts]; cbn [checkFields] in H.
  { injection H as <- <-. repeat split; auto. }
  assert (same : (NoDup (keys es) /\ (fz = true -> es = es) /\ (forall e, In e es -> In e es) /\
     (forall k v, In (k, v) es -> In (k, v) es \/ v = VNull \/ exists l, ds = Some l /\ In v l))) by (repeat split; auto).
  destruct (lookup n es) as [v|] eqn:L.
  - destruct (checkField t v) as [u|c|c|] eqn:C.
    2-4: injection H as <- <-; exact same.
    destruct (IH _ _ _ _ _ _ H N) as [A [B [C1 D]]]. split; [exact A|]. split; [exact B|]. split; [exact C1|].
    intros k w Hk. destruct (D k w Hk) as [E|[E|[l [E1 E2]]]]; [left; exact E | right; left; exact E |].
    destruct ds as [[|d l']|]; cbn [option_map tl] in E1; try discriminate; injection E1 as <-.
    + destruct E2.
    + right. right. exists (d :: l'). split; [reflexivity | right; exact E2].
  - destruct fz.
    { injection H as <- <-. exact same. }
    apply lookup_none in L.
    destruct (IH _ _ _ _ _ _ H (assign_nodup _ _ _ N)) as [A [B [C1 D]]].
    split; [exact A|]. split; [discriminate|]. split.
    + intros e He. apply C1. rewrite assign_new by exact L. apply in_or_app. left. exact He.
    + intros k w Hk. destruct (D k w Hk) as [E|[E|[l [E1 E2]]]].
      * destruct (assign_in _ _ _ _ E) as [F|F]; [left; exact F|]. injection F as -> ->. right. apply default_of_from.
      * right. left. exact E.
      * destruct ds as [[|d l']|]; cbn [option_map tl] in E1; try discriminate; injection E1 as <-.
        -- destruct E2.
        -- right. right. exists (d :: l'). split; [reflexivity | right; exact E2].
Qed.

Lemma default_at_tl : forall ds j v, default_at (option_map (@tl val) ds) j v -> default_at ds (S j) v.
Proof.
  intros ds j v [l [E H]]. destruct ds as [[|d k]|]; cbn [option_map tl] in E; try discriminate; injection E as <-.
  - destruct j; discriminate.
  - exists (d :: k). split; [reflexivity | exact H].
Qed.

Definition defaults_made (ds : option (list val)) : Prop := forall l, ds = Some l -> Forall made_val l.
Lemma defaults_made_tl : forall ds, defaults_made ds -> defaults_made (option_map (@tl val) ds).
Proof.
  intros ds M l E. destruct ds as [[|d k]|]; cbn [option_map tl] in E; try discriminate; injection E as <-.
  - constructor.
  - specialize (M _ eq_refl). inversion M; assumption.
Qed.
Lemma default_of_made : forall ds, defaults_made ds -> made_val (default_of ds).
Proof.
  intros ds M. destruct (default_of_from ds) as [->|[l [E H]]]; [constructor|].
  specialize (M l E). rewrite Forall_forall in M. exact (M _ H).
Qed.

Lemma checkFields_ok : forall ns ts ds fz es es',
  checkFields fz ns ts ds es = (es', Ok tt) -> NoDup (keys es) -> length ns = length ts ->
  Forall made_ty ts -> Forall (fun t => accepted (core t) = true) ts -> defaults_made ds ->
  (forall k v, In (k, v) es -> made_val v) ->
  (forall k, In k (keys es') <-> In k (keys es) \/ In k ns) /\
  (forall j k tj v, nth_error ns j = Some k -> nth_error ts j = Some tj -> In (k, v) es' ->
     nearly_fits tj v \/ default_at ds j v).
Proof.
  induction ns as [|n ns IH]; intros ts ds fz es es' H N L MT AT MD MV.
  { cbn [checkFields] in H. injection H as <-. split; [intros k; cbn [In]; tauto|].
    intros j k tj v Hn. destruct j; discriminate. }
  destruct ts as [|t ts]; [discriminate|]. cbn [checkFields] in H. cbn [length] in L. injection L as L.
  inversion MT as [|t0 ts0 MT1 MT2]; subst. inversion AT as [|t0 ts0 AT1 AT2]; subst.
  destruct (lookup n es) as [v0|] eqn:LK.
  - apply lookup_in in LK.
    destruct (checkField t v0) as [u|c|c|] eqn:C; [|discriminate ..]. destruct u.
    assert (G := checkFields_gen _ _ _ _ _ _ _ H N). destruct G as [G1 [G2 [G3 G4]]].
    destruct (IH _ _ _ _ _ H N L MT2 AT2 (defaults_made_tl _ MD) MV) as [A B]. split.
    + intros k. rewrite A. cbn [In]. split; [tauto|]. intros [X|[<-|X]]; [left; exact X | left | right; exact X].
      exact (in_keys _ _ _ LK).
    + intros j k tj v Hn Ht Hv. destruct j as [|j]; cbn [nth_error] in Hn, Ht.
      * injection Hn as <-. injection Ht as <-. left.
        assert (v = v0) by exact (one_value _ _ _ _ G1 Hv (G3 _ LK)). subst v.
        exact (checkField_sound _ _ MT1 AT1 (MV _ _ LK) C).
      * destruct (B j k tj v Hn Ht Hv) as [X|X]; [left; exact X | right; exact (default_at_tl _ _ _ X)].
  - destruct fz; [discriminate|].
    assert (MV' : forall k v, In (k, v) (assign n (default_of ds) es) -> made_val v).
    { intros k v Hk. destruct (assign_in _ _ _ _ Hk) as [F|F]; [exact (MV _ _ F)|]. injection F as -> ->.
      exact (default_of_made _ MD). }
    assert (N' := assign_nodup n (default_of ds) es N).
    assert (G := checkFields_gen _ _ _ _ _ _ _ H N'). destruct G as [G1 [G2 [G3 G4]]].
    destruct (IH _ _ _ _ _ H N' L MT2 AT2 (defaults_made_tl _ MD) MV') as [A B]. split.
    + intros k. rewrite A, assign_keys. cbn [In]. split; intros X; intuition congruence.
    + intros j k tj v Hn Ht Hv. destruct j as [|j]; cbn [nth_error] in Hn, Ht.
      * injection Hn as <-. injection Ht as <-.
        assert (v = default_of ds) by exact (one_value _ _ _ _ G1 Hv (G3 _ (assign_self _ _ _))). subst v.
        destruct ds as [[|d l]|]; cbn [default_of].
        -- left. destruct t; cbn [nearly_fits fits]; left; reflexivity.
        -- right. exists (d :: l). split; reflexivity.
        -- left. destruct t; cbn [nearly_fits fits]; left; reflexivity.
      * destruct (B j k tj v Hn Ht Hv) as [X|X]; [left; exact X | right; exact (default_at_tl _ _ _ X)].
Qed.

Lemma checkFields_complete : forall ns ts ds es,
  length ns = length ts -> (forall l, ds = Some l -> length l = length ns) -> NoDup ns -> NoDup (keys es) ->
  Forall made_ty ts ->
  (forall j k tj v, nth_error ns j = Some k -> nth_error ts j = Some tj -> In (k, v) es -> suits tj v) ->
  exists es', checkFields false ns ts ds es = (es', Ok tt) /\
    (forall j k v, nth_error ns j = Some k -> ~ In k (keys es) -> left_out ds j v -> In (k, v) es').
Proof.
  induction ns as [|n ns IH]; intros ts ds es L LD NN N MT HS.
  { exists es. split; [reflexivity|]. intros j k v H. destruct j; discriminate. }
  destruct ts as [|t ts]; [discriminate|]. cbn [length] in L. injection L as L.
  inversion MT as [|t0 ts0 MT1 MT2]; subst. inversion NN as [|n0 ns0 NN1 NN2]; subst. cbn [checkFields].
  assert (LD' : forall l, option_map (@tl val) ds = Some l -> length l = length ns).
  { intros l E. destruct ds as [[|d k]|]; cbn [option_map tl] in E; try discriminate; injection E as <-;
      specialize (LD _ eq_refl); cbn [length] in LD; [discriminate | lia]. }
  assert (LO : forall j v, left_out ds (S j) v -> left_out (option_map (@tl val) ds) j v).
  { intros j v H. destruct ds as [[|d k]|]; cbn [left_out option_map tl nth_error] in *; [discriminate | exact H | exact H]. }
  destruct (lookup n es) as [v0|] eqn:LK.
  - assert (LK' := lookup_in _ _ _ LK).
    rewrite (checkField_complete t v0 MT1 (HS O n t v0 eq_refl eq_refl LK')).
    destruct (IH ts (option_map (@tl val) ds) es L LD' NN2 N MT2) as [es' [E1 E2]].
    { intros j k tj v H1 H2 H3. exact (HS (S j) k tj v H1 H2 H3). }
    exists es'. split; [exact E1|]. intros j k v Hn Hk Hl. destruct j as [|j]; cbn [nth_error] in Hn.
    + injection Hn as <-. exfalso. apply Hk. exact (in_keys _ _ _ LK').
    + exact (E2 j k v Hn Hk (LO _ _ Hl)).
  - apply lookup_none in LK.
    destruct (IH ts (option_map (@tl val) ds) (assign n (default_of ds) es) L LD' NN2 (assign_nodup _ _ _ N) MT2) as [es' [E1 E2]].
    { intros j k tj v H1 H2 H3. apply (HS (S j) k tj v H1 H2).
      destruct (assign_in _ _ _ _ H3) as [F|F]; [exact F|]. injection F as -> _. exfalso. apply NN1.
      exact (nth_error_In _ _ H1). }
    exists es'. split; [exact E1|]. intros j k v Hn Hk Hl. destruct j as [|j]; cbn [nth_error] in Hn.
    + injection Hn as <-.
      destruct (checkFields_gen _ _ _ _ _ _ _ E1 (assign_nodup _ _ _ N)) as [_ [_ [G3 _]]]. apply G3.
      assert (E : default_of ds = v).
      { destruct ds as [[|d l]|]; cbn [left_out nth_error default_of] in *; [discriminate | congruence | congruence]. }
      rewrite <- E. apply assign_self.
    + apply (E2 j k v Hn); [|exact (LO _ _ Hl)]. intros X. apply assign_keys in X. destruct X as [X| ->]; [exact (Hk X)|].
      apply NN1. exact (nth_error_In _ _ Hn).
Qed.

(** ** Invariant *)
Definition from (s : st) (v : val) : Prop := v = VNull \/ In v (vals s).
Definition origin (s : st) (t : ty) : Prop := In t (tys s) \/ exists n ns ts, t = TStruct n ns ts None.
Definition defaults_from (s : st) (t : ty) : Prop :=
  match t with TStruct _ _ _ (Some l) => forall v, In v l -> from s v | _ => True end.
Definition a_struct (t : ty) : Prop := exists n ns ts ds, t = TStruct n ns ts ds.

Definition good_mgr (s : st) (m : manager) : Prop :=
  NoDup (keys m) /\ forall n t, In (n, t) m -> made_ty t /\ label t = n /\ origin s t.

Record Inv (s : st) : Prop := {
  inv_tys : Forall made_ty (tys s);
  inv_defs : forall t, In t (tys s) -> defaults_from s t;
  inv_vals : Forall made_val (vals s);
  inv_mgr : good_mgr s (mgr s);
  inv_dicts : forall d x, nth_error (dicts s) d = Some x ->
     NoDup (keys (items x)) /\ forall k v, In (k, v) (items x) -> from s v;
  inv_structs : forall i t d, nth_error (structs s) i = Some (t, d) ->
     made_ty t /\ origin s t /\
     exists x, nth_error (dicts s) d = Some x /\ frozen x = true /\ conforms nearly_fits t (items x);
  inv_builders : forall b t d, nth_error (builders s) b = Some (t, d) ->
     made_ty t /\ origin s t /\ a_struct t /\ exists x, nth_error (dicts s) d = Some x }.

Record grows (s s' : st) : Prop := {
  grows_structs : forall i p, nth_error (structs s) i = Some p -> nth_error (structs s') i = Some p;
  grows_frozen : forall d x, nth_error (dicts s) d = Some x -> frozen x = true -> nth_error (dicts s') d = Some x;
  grows_tys : forall t, In t (tys s) -> In t (tys s') }.

Lemma grows_refl : forall s, grows s s.
Proof. intros s. split; auto. Qed.
Lemma grows_trans : forall a b c, grows a b -> grows b c -> grows a c.
Proof.
  intros a b c G H. split.
  - intros i p E. exact (grows_structs _ _ H _ _ (grows_structs _ _ G _ _ E)).
  - intros d x E F. exact (grows_frozen _ _ H _ _ (grows_frozen _ _ G _ _ E F) F).
  - intros t E. exact (grows_tys _ _ H _ (grows_tys _ _ G _ E)).
Qed.

Lemma nth_app_old : forall (A : Type) (l : list A) x i y, nth_error l i = Some y -> nth_error (l ++ [x]) i = Some y.
Proof.
  intros A l x i y H. rewrite nth_error_app1; [exact H|]. apply nth_error_Some. congruence.
Qed.
Lemma nth_app_new : forall (A : Type) (l : list A) x, nth_error (l ++ [x]) (length l) = Some x.
Proof. intros A l x. rewrite nth_error_app2 by lia. rewrite Nat.sub_diag. reflexivity. Qed.
Lemma nth_app_cases : forall (A : Type) (l : list A) x i y, nth_error (l ++ [x]) i = Some y ->
  nth_error l i = Some y \/ i = length l /\ y = x.
Proof.
  intros A l x i y H. destruct (Nat.lt_ge_cases i (length l)) as [C|C].
  - left. rewrite nth_error_app1 in H by exact C. exact H.
  - rewrite nth_error_app2 in H by exact C. destruct (i - length l)%nat as [|k] eqn:E.
    + right. cbn [nth_error] in H. injection H as <-. split; [lia | reflexivity].
    + destruct k; discriminate.
Qed.
Lemma nth_put_same : forall (A : Type) (l : list A) i x y, nth_error l i = Some y -> nth_error (put i x l) i = Some x.
Proof. induction l as [|a l IH]; destruct i; cbn; intros x y H; try discriminate; [reflexivity | exact (IH _ _ _ H)]. Qed.
Lemma nth_put_other : forall (A : Type) (l : list A) i j x, i <> j -> nth_error (put i x l) j = nth_error l j.
Proof.
  induction l as [|a l IH]; destruct i; destruct j; cbn; intros x H; try reflexivity; [congruence|]. apply IH. congruence.
Qed.
Lemma nth_put_cases : forall (A : Type) (l : list A) i j x y, nth_error (put i x l) j = Some y ->
  i = j /\ y = x \/ i <> j /\ nth_error l j = Some y.
Proof.
  intros A l i j x y H. destruct (Nat.eq_dec i j) as [<-|D].
  - left. split; [reflexivity|]. destruct (nth_error l i) as [z|] eqn:E.
    + rewrite (nth_put_same _ _ _ _ _ E) in H. congruence.
    + exfalso. revert i E H. induction l as [|a l IH]; destruct i; cbn; intros E H; try discriminate. exact (IH _ E H).
  - right. split; [exact D|]. rewrite nth_put_other in H by exact D. exact H.
Qed.

(** the parts other than the manager, under more types and values *)
Lemma origin_more : forall s s' t, (forall t, In t (tys s) -> In t (tys s')) -> origin s t -> origin s' t.
Proof. intros s s' t H [O|O]; [left; exact (H _ O) | right; exact O]. Qed.

Lemma good_with_ty : forall s t, Inv s -> made_ty t -> defaults_from s t ->
  Inv (with_ty s t) /\ grows s (with_ty s t).
Proof.
  intros s t V M D.
  assert (K : forall u, In u (tys s) -> In u (tys (with_ty s t))) by (intros u H; apply in_or_app; left; exact H).
  split; [|split; [auto|auto|exact K]]. destruct V as [V1 V2 V3 V4 V5 V6 V7]. split.
  - apply Forall_app. split; [exact V1 | constructor; [exact M | constructor]].
  - intros u H. apply in_app_or in H. destruct H as [H|[<-|[]]]; [exact (V2 u H) | exact D].
  - exact V3.
  - split; [exact (proj1 V4)|]. intros n u H. destruct (proj2 V4 n u H) as [A [B C]].
    split; [exact A|]. split; [exact B|]. exact (origin_more _ _ _ K C).
  - exact V5.
  - intros i u d H. destruct (V6 i u d H) as [A [B C]]. split; [exact A|]. split; [exact (origin_more _ _ _ K B) | exact C].
  - intros b u d H. destruct (V7 b u d H) as [A [B C]]. split; [exact A|]. split; [exact (origin_more _ _ _ K B) | exact C].
Qed.

Lemma from_with_val : forall s v w, from s w -> from (with_val s v) w.
Proof. intros s v w [H|H]; [left; exact H | right; apply in_or_app; left; exact H]. Qed.
Lemma good_with_val : forall s v, Inv s -> made_val v -> Inv (with_val s v) /\ grows s (with_val s v).
Proof.
  intros s v V M. split; [|split; auto]. destruct V as [V1 V2 V3 V4 V5 V6 V7]. split.
  - exact V1.
  - intros t H. specialize (V2 t H). destruct t as [|n ns ts [l|]| |]; cbn [defaults_from] in *; auto.
    intros w Hw. apply from_with_val. exact (V2 w Hw).
  - apply Forall_app. split; [exact V3 | constructor; [exact M | constructor]].
  - exact V4.
  - intros d x H. destruct (V5 d x H) as [A B]. split; [exact A|]. intros k w Hw. apply from_with_val. exact (B k w Hw).
  - exact V6.
  - exact V7.
Qed.

Lemma good_with_mgr : forall s m, Inv s -> good_mgr s m -> Inv (with_mgr s m) /\ grows s (with_mgr s m).
Proof.
  intros s m V M. split; [|split; auto]. destruct V as [V1 V2 V3 V4 V5 V6 V7]. split; try assumption.
Qed.

Lemma good_with_dict : forall s x, Inv s -> NoDup (keys (items x)) -> (forall k v, In (k, v) (items x) -> from s v) ->
  Inv (with_dict s x) /\ grows s (with_dict s x).
Proof.
  intros s x V N F. split.
  2:{ split; [auto| |auto]. intros d y H _. apply nth_app_old. exact H. }
  destruct V as [V1 V2 V3 V4 V5 V6 V7]. split; try assumption.
  - intros d y H. cbn [with_dict dicts] in H. apply nth_app_cases in H. destruct H as [H|[_ ->]]; [exact (V5 d y H)|].
    split; [exact N | exact F].
  - intros i t d H. destruct (V6 i t d H) as [A [B [y [C D]]]]. split; [exact A|]. split; [exact B|].
    exists y. split; [apply nth_app_old; exact C | exact D].
  - intros b t d H. destruct (V7 b t d H) as [A [B [C [y D]]]]. split; [exact A|]. split; [exact B|]. split; [exact C|].
    exists y. apply nth_app_old. exact D.
Qed.

Lemma good_put_dict : forall s d x fz es, Inv s -> nth_error (dicts s) d = Some x ->
  NoDup (keys es) -> (forall k v, In (k, v) es -> from s v) -> (frozen x = true -> fz = true /\ es = items x) ->
  Inv (put_dict s d {| frozen := fz; items := es |}) /\ grows s (put_dict s d {| frozen := fz; items := es |}).
Proof.
  intros s d x fz es V E N F Z. 
  assert (keep : forall j y, nth_error (dicts s) j = Some y -> frozen y = true ->
     nth_error (put d {| frozen := fz; items := es |} (dicts s)) j = Some y).
  { intros j y Hj Hf. destruct (Nat.eq_dec d j) as [<-|D].
    - rewrite E in Hj. injection Hj as <-. destruct (Z Hf) as [-> ->]. rewrite (nth_put_same _ _ _ _ _ E).
      destruct x as [f i]. cbn [frozen items] in *. subst f. reflexivity.
    - rewrite nth_put_other by exact D. exact Hj. }
  split.
  2:{ split; [auto|exact keep|auto]. }
  destruct V as [V1 V2 V3 V4 V5 V6 V7]. split; try assumption.
  - intros j y H. cbn [put_dict dicts] in H. apply nth_put_cases in H. destruct H as [[_ ->]|[_ H]]; [|exact (V5 j y H)].
    split; [exact N | exact F].
  - intros i t j H. destruct (V6 i t j H) as [A [B [y [C [D D']]]]]. split; [exact A|]. split; [exact B|].
    exists y. split; [exact (keep j y C D) | split; [exact D | exact D']].
  - intros b t j H. destruct (V7 b t j H) as [A [B [C [y D]]]]. split; [exact A|]. split; [exact B|]. split; [exact C|].
    cbn [put_dict dicts]. destruct (Nat.eq_dec d j) as [<-|Dn].
    + exists {| frozen := fz; items := es |}. exact (nth_put_same _ _ _ _ _ E).
    + exists y. rewrite nth_put_other by exact Dn. exact D.
Qed.

Lemma good_with_struct : forall s t d x, Inv s -> made_ty t -> origin s t ->
  nth_error (dicts s) d = Some x -> frozen x = true -> conforms nearly_fits t (items x) ->
  Inv (with_struct s t d) /\ grows s (with_struct s t d).
Proof.
  intros s t d x V M O E F C. split.
  2:{ split; [|auto|auto]. intros i p H. apply nth_app_old. exact H. }
  destruct V as [V1 V2 V3 V4 V5 V6 V7]. split; try assumption.
  intros i u j H. cbn [with_struct structs] in H. apply nth_app_cases in H. destruct H as [H|[_ H]]; [exact (V6 i u j H)|].
  injection H as -> ->. split; [exact M|]. split; [exact O|]. exists x. auto.
Qed.

Lemma good_with_builder : forall s t d x, Inv s -> made_ty t -> origin s t -> a_struct t ->
  nth_error (dicts s) d = Some x -> Inv (with_builder s t d) /\ grows s (with_builder s t d).
Proof.
  intros s t d x V M O A E. split; [|split; auto].
  destruct V as [V1 V2 V3 V4 V5 V6 V7]. split; try assumption.
  intros b u j H. cbn [with_builder builders] in H. apply nth_app_cases in H. destruct H as [H|[_ H]]; [exact (V7 b u j H)|].
  injection H as -> ->. split; [exact M|]. split; [exact O|]. split; [exact A|]. exists x. exact E.
Qed.

Lemma good_put_builder : forall s b t d x, Inv s -> made_ty t -> origin s t -> a_struct t ->
  nth_error (dicts s) d = Some x -> Inv (put_builder s b (t, d)) /\ grows s (put_builder s b (t, d)).
Proof.
  intros s b t d x V M O A E. split; [|split; auto].
  destruct V as [V1 V2 V3 V4 V5 V6 V7]. split; try assumption.
  intros c u j H. cbn [put_builder builders] in H. apply nth_put_cases in H. destruct H as [[_ H]|[_ H]]; [|exact (V7 c u j H)].
  injection H as -> ->. split; [exact M|]. split; [exact O|]. split; [exact A|]. exists x. exact E.
Qed.

Lemma good_same : forall s, Inv s -> Inv s /\ grows s s.
Proof. intros s V. split; [exact V | apply grows_refl]. Qed.
Lemma good_then : forall s s' s'', (Inv s' /\ grows s s') -> (Inv s' -> Inv s'' /\ grows s' s'') -> Inv s'' /\ grows s s''.
Proof. intros s s' s'' [A B] H. destruct (H A) as [C D]. split; [exact C | exact (grows_trans _ _ _ B D)]. Qed.

(** ** The functions *)
Lemma newStructType_ok : forall n ns ts ds t, newStructType n ns ts ds = Ok t -> Forall made_ty ts ->
  (forall l, ds = Some l -> Forall made_val l) -> t = TStruct n ns ts ds /\ made_ty t.
Proof.
  intros n ns ts ds t H MT MD. unfold newStructType in H.
  destruct (negb (match ds with Some d => (length ns =? length d)%nat | None => true end && (length ns =? length ts)%nat)) eqn:A;
    [discriminate|].
  destruct (negb (forallb Types_Model.validateTypeName ns)) eqn:B; [discriminate|].
  destruct (negb (forallb (fun t => accepted (core t)) ts)) eqn:C; [discriminate|].
  injection H as <-. split; [reflexivity|].
  apply negb_false_iff in A. apply andb_true_iff in A. destruct A as [A1 A2]. apply Nat.eqb_eq in A2.
  apply negb_false_iff in C.
  constructor; [exact A2| |exact MT|exact MD|].
  - intros l E. subst ds. apply Nat.eqb_eq in A1. congruence.
  - apply Forall_forall. intros u Hu. exact (proj1 (forallb_forall _ _) C u Hu).
Qed.

Lemma number_keys : forall ns z d r, number ns z d = Ok r -> NoDup (keys d) -> NoDup (keys r) /\ r = d ++ counted ns z.
Proof.
  induction ns as [|k ns IH]; intros z d r H N; cbn [number] in H.
  - injection H as <-. cbn [counted]. rewrite app_nil_r. split; [exact N | reflexivity].
  - destruct (lookup k d) as [w|] eqn:L; [discriminate|]. destruct (in_i64 (z + 1)); [|discriminate].
    apply lookup_none in L.
    destruct (IH _ _ _ H (assign_nodup _ _ _ N)) as [A B]. split; [exact A|]. rewrite B, assign_new by exact L.
    rewrite <- app_assoc. reflexivity.
Qed.

Lemma newEnumOfType_ok : forall t a v, newEnumOfType t a = Ok v -> made_ty t -> made_val v.
Proof.
  intros t a v H M. destruct t as [c|n ns ts ds|n es|n]; cbn [newEnumOfType] in H; try discriminate.
  inversion M; subst. destruct a as [s|z|]; [| |discriminate].
  - destruct (lookup s es) as [z|] eqn:L; [|discriminate]. injection H as <-. constructor; [assumption|].
    exact (in_keys _ _ _ (lookup_in _ _ _ L)).
  - unfold name_of in H. destruct (find (fun e => snd e =? z) es) as [e|] eqn:L; [|discriminate]. injection H as <-.
    apply find_some in L. constructor; [assumption|]. unfold keys. apply in_map. exact (proj1 L).
Qed.
Lemma newEnum_of : forall m n a v, newEnum m n a = Ok v -> exists t, lookup n m = Some t /\ newEnumOfType t a = Ok v.
Proof.
  intros m n a v H. unfold newEnum in H. destruct (lookup n m) as [t|] eqn:L; [|discriminate]. exists t. split; [reflexivity|].
  destruct a as [[|c s]|z|]; try discriminate; exact H.
Qed.

Lemma addType_cases : forall m t, fst (addType m t) = m \/
  (~ In (label t) (keys m) /\ fst (addType m t) = assign (label t) t m /\ snd (addType m t) = Ok tt).
Proof.
  intros m t. unfold addType. destruct (label t) as [|c r] eqn:E; [left; reflexivity|]. rewrite <- E.
  destruct (existsb _ _); [left; reflexivity|]. destruct (negb _); [left; reflexivity|].
  destruct (lookup (label t) m) as [t'|] eqn:L.
  - destruct (ty_eq false t' t) as [[]|]; left; reflexivity.
  - apply lookup_none in L. right. auto.
Qed.
Lemma good_addType : forall s m t, good_mgr s m -> made_ty t -> origin s t -> good_mgr s (fst (addType m t)).
Proof.
  intros s m t G M O. destruct (addType_cases m t) as [->|[L [-> _]]]; [exact G|].
  split; [apply assign_nodup; exact (proj1 G)|]. intros n u H. apply assign_in in H. destruct H as [H|H].
  - exact (proj2 G n u H).
  - injection H as -> ->. auto.
Qed.

Lemma typeOf_made : forall v, made_val v -> made_ty (typeOf v).
Proof.
  intros v M. destruct M; cbn [typeOf]; try constructor; try assumption.
  - destruct c; try constructor. assumption.
  - intros ->. match goal with H : In _ _ |- _ => destruct H end.
Qed.
Lemma typeOf_fits : forall v, made_val v -> nearly_fits (typeOf v) v.
Proof.
  intros v M. destruct M as [|c i A|c t i M E|n es v N H|t fs M E N F]; cbn [typeOf nearly_fits fits].
  - left. reflexivity.
  - right. right. reflexivity.
  - assert (G : nearly_fits t (VBuiltin c t i)).
    { destruct E as [n [ns [ts [ds ->]]]]. cbn [nearly_fits fits]. right. exists (TStruct n ns ts ds).
      split; [right; exists c, i; reflexivity | exact (same_ty_refl _ M)]. }
    destruct c; try exact G; cbn [nearly_fits fits]; right; right; reflexivity.
  - right. reflexivity.
  - destruct E as [n [ns [ts [ds ->]]]]. cbn [nearly_fits fits]. right. exists (TStruct n ns ts ds).
    split; [left; exists fs; reflexivity | exact (same_ty_refl _ M)].
Qed.
Lemma typeOf_inferred : forall v, made_val v -> inferred v (typeOf v).
Proof. intros v M. destruct M as [|c i A|c t i M E|n es v N H|t fs M E N F]; cbn; try reflexivity. destruct c; reflexivity. Qed.

Lemma nth_nodup : forall (A : Type) (l : list A) i j x, NoDup l -> nth_error l i = Some x -> nth_error l j = Some x -> i = j.
Proof.
  intros A l i j x N H K. apply (proj1 (NoDup_nth_error l) N).
  - apply nth_error_Some. congruence.
  - congruence.
Qed.

(** everything the constructor does, whatever comes of it *)
Lemma makeStruct_gen : forall s m n fz (given : option entries) m' es' r,
  good_mgr s m -> (forall t, In t (tys s) -> defaults_from s t) -> Forall made_val (vals s) ->
  (forall es, given = Some es -> NoDup (keys es) /\ forall k v, In (k, v) es -> from s v) ->
  makeStruct m n fz given = (m', es', r) ->
  good_mgr s m' /\ NoDup (keys es') /\ (forall k v, In (k, v) es' -> from s v) /\
  (forall es, given = Some es -> fz = true -> es' = es) /\
  (forall t, r = Ok t -> made_ty t /\ origin s t /\ conforms nearly_fits t es').
Proof.
  intros s m n fz given m' es' r GM DF MV HG H.
  assert (fm : forall v, from s v -> made_val v).
  { intros v [->|F]; [constructor|]. rewrite Forall_forall in MV. exact (MV v F). }
  unfold makeStruct in H. cbv zeta in H. remember (match given return entries with Some es => es | None => [] end) as es eqn:EE in H.
  assert (E1 : NoDup (keys es)).
  { rewrite EE. destruct given as [g|]; [exact (proj1 (HG g eq_refl)) | constructor]. }
  assert (E2 : forall k v, In (k, v) es -> from s v).
  { rewrite EE. destruct given as [g|]; [exact (proj2 (HG g eq_refl)) | intros k v []]. }
  assert (E3 : forall e, given = Some e -> fz = true -> es = e).
  { intros e He. rewrite EE, He. reflexivity. }
  destruct (lookup n m) as [t|] eqn:L.
  - apply lookup_in in L. destruct (proj2 GM n t L) as [MT [_ OT]].
    assert (bad : forall c, (m, es, Fails c) = (m', es', r) ->
      good_mgr s m' /\ NoDup (keys es') /\ (forall k v, In (k, v) es' -> from s v) /\
      (forall es, given = Some es -> fz = true -> es' = es) /\
      (forall t, r = Ok t -> made_ty t /\ origin s t /\ conforms nearly_fits t es')).
    { intros c X. injection X as <- <- <-. repeat (split; [assumption|]). intros u U. discriminate. }
    destruct t as [c|n' ns ts ds|n' xs|n']; try exact (bad _ H).
    destruct (knownFields ns es) eqn:K; [|exact (bad _ H)]. clear bad.
    destruct (checkFields fz ns ts ds es) as [es1 r1] eqn:C.
    assert (G := checkFields_gen _ _ _ _ _ _ _ C E1). destruct G as [G1 [G2 [G3 G4]]].
    assert (F1 : forall k v, In (k, v) es1 -> from s v).
    { intros k v Hk. destruct (G4 k v Hk) as [X|[X|[l [X1 X2]]]]; [exact (E2 k v X) | left; exact X |].
      destruct OT as [OT|[a [b [c OT]]]]; [|congruence]. specialize (DF _ OT). subst ds. exact (DF v X2). }
    assert (P : good_mgr s m /\ NoDup (keys es1) /\ (forall k v, In (k, v) es1 -> from s v) /\
                (forall es, given = Some es -> fz = true -> es1 = es)).
    { split; [exact GM|]. split; [exact G1|]. split; [exact F1|]. intros e He Hf. rewrite (G2 Hf). exact (E3 e He Hf). }
    destruct P as [P1 [P2 [P3 P4]]].
    destruct r1 as [u|c|c|]; injection H as <- <- <-; repeat (split; [assumption|]); intros t' Ht; try discriminate.
    injection Ht as <-. destruct u.
    inversion MT as [| | |n0 ns0 ts0 ds0 L1 L2 M1 M2 MA]; subst.
    destruct (checkFields_ok _ _ _ _ _ _ C E1 L1 M1 MA M2 (fun k v Hk => fm v (E2 k v Hk))) as [A B].
    split; [exact MT|]. split; [exact OT|]. exists n', ns, ts, ds. split; [reflexivity|]. split; [exact L1|].
    split; [exact G1|]. split; [|exact B].
    intros k. rewrite A. split; [|tauto]. intros [X|X]; [|exact X].
    unfold knownFields in K. rewrite forallb_forall in K. unfold keys in X. apply in_map_iff in X.
    destruct X as [e [<- X]]. specialize (K e X). apply existsb_exists in K. destruct K as [k' [K1 K2]].
    apply name_eqb_eq in K2. rewrite K2. exact K1.
  - destruct given as [g|].
    2:{ injection H as <- <- <-. split; [exact GM|]. split; [constructor|]. split; [intros k v []|]. split; [discriminate|].
        intros t Ht. discriminate. }
    clear E3 EE. destruct (HG g eq_refl) as [N F]. cbn beta iota in H.
    assert (MG : Forall made_ty (map (fun e : name * val => typeOf (snd e)) g)).
    { apply Forall_forall. intros t Ht. apply in_map_iff in Ht. destruct Ht as [[k v] [<- Hk]].
      apply typeOf_made. exact (fm v (F k v Hk)). }
    destruct (newStructType n (map fst g) (map (fun e => typeOf (snd e)) g) None) as [t|c|c|] eqn:NT.
    2-4: injection H as <- <- <-; split; [exact GM|]; split; [exact N|]; split; [exact F|];
      split; [intros e He; injection He as <-; reflexivity | intros t Ht; discriminate].
    destruct (newStructType_ok _ _ _ _ _ NT MG) as [TE MT]; [discriminate|].
    assert (OT : origin s t) by (right; rewrite TE; do 3 eexists; reflexivity).
    assert (GM' := good_addType s m t GM MT OT).
    destruct (addType m t) as [m1 [u|c|c|]] eqn:AT; cbn [fst] in GM'; injection H as <- <- <-;
      (split; [exact GM'|]; split; [exact N|]; split; [exact F|];
       split; [intros e He; injection He as <-; reflexivity|]); intros t' Ht; try discriminate.
    injection Ht as <-. split; [exact MT|]. split; [exact OT|].
    exists n, (map fst g), (map (fun e => typeOf (snd e)) g), None. split; [exact TE|].
    split; [rewrite !map_length; reflexivity|]. split; [exact N|]. split; [intros k; reflexivity|].
    intros j k tj v Hn Ht Hv. left.
    destruct (nth_error g j) as [[k' v']|] eqn:GJ.
    2:{ apply (map_nth_error fst) in Hn || idtac. rewrite nth_error_map, GJ in Hn. discriminate. }
    rewrite nth_error_map, GJ in Hn, Ht. cbn [option_map fst snd] in Hn, Ht. injection Hn as ->. injection Ht as <-.
    assert (v = v') by exact (one_value _ _ _ _ N Hv (nth_error_In _ _ GJ)). subst v'.
    apply typeOf_fits. exact (fm v (F k v Hv)).
Qed.

Lemma initFields_gen : forall ns ds es s, NoDup (keys es) -> (forall k v, In (k, v) es -> from s v) ->
  (forall l v, ds = Some l -> In v l -> from s v) ->
  NoDup (keys (initFields ns ds es)) /\ (forall k v, In (k, v) (initFields ns ds es) -> from s v).
Proof.
  induction ns as [|n ns IH]; intros ds es s N F D; cbn [initFields]; [split; assumption|]. apply IH.
  - apply assign_nodup. exact N.
  - intros k v H. apply assign_in in H. destruct H as [H|H]; [exact (F k v H)|]. injection H as -> ->.
    destruct (default_of_from ds) as [->|[l [E X]]]; [left; reflexivity | exact (D l _ E X)].
  - intros l v E H. destruct ds as [[|d k]|]; cbn [option_map tl] in E; try discriminate; injection E as <-.
    + destruct H.
    + exact (D _ v eq_refl (or_intror H)).
Qed.

Lemma refs_in : forall s l vs, refs (ref s) l = Some vs -> forall v, In v vs -> from s v.
Proof.
  induction l as [|r l IH]; intros vs H v Hv; cbn [refs] in H.
  - injection H as <-. destruct Hv.
  - destruct (ref s r) as [w|] eqn:R; [|discriminate]. destruct (refs (ref s) l) as [k|]; [|discriminate].
    injection H as <-. destruct Hv as [<-|Hv]; [|exact (IH k eq_refl v Hv)].
    destruct r as [i|]; cbn [ref] in R; [right; exact (nth_error_In _ _ R) | left; congruence].
Qed.
Lemma ref_from : forall s r v, ref s r = Some v -> from s v.
Proof.
  intros s [i|] v R; cbn [ref] in R; [right; exact (nth_error_In _ _ R) | left; congruence].
Qed.
Lemma ty_refs_in : forall s l ts, ty_refs s l = Some ts -> forall t, In t ts -> In t (tys s).
Proof.
  induction l as [|r l IH]; intros ts H t Ht; cbn [ty_refs] in H.
  - injection H as <-. destruct Ht.
  - destruct (nth_error (tys s) r) as [w|] eqn:R; [|discriminate]. destruct (ty_refs s l) as [k|]; [|discriminate].
    injection H as <-. destruct Ht as [<-|Ht]; [exact (nth_error_In _ _ R) | exact (IH k eq_refl t Ht)].
Qed.

Lemma from_made : forall s v, Inv s -> from s v -> made_val v.
Proof.
  intros s v V [->|F]; [constructor|]. assert (M := inv_vals s V). rewrite Forall_forall in M. exact (M v F).
Qed.
Lemma tys_made : forall s t, Inv s -> In t (tys s) -> made_ty t.
Proof. intros s t V H. assert (M := inv_tys s V). rewrite Forall_forall in M. exact (M t H). Qed.

Lemma good_add_ty : forall s r, Inv s -> (forall t, r = Ok t -> made_ty t /\ defaults_from s t) ->
  Inv (fst (add_ty s r)) /\ grows s (fst (add_ty s r)).
Proof.
  intros s r V H. destruct r as [t|c|c|]; cbn [add_ty done fst]; try exact (good_same s V).
  destruct (H t eq_refl) as [A B]. exact (good_with_ty s t V A B).
Qed.
Lemma good_add_val : forall s r, Inv s -> (forall v, r = Ok v -> made_val v) ->
  Inv (fst (add_val s r)) /\ grows s (fst (add_val s r)).
Proof.
  intros s r V H. destruct r as [v|c|c|]; cbn [add_val done fst]; try exact (good_same s V).
  exact (good_with_val s v V (H v eq_refl)).
Qed.

Lemma good_newStruct : forall s n d, Inv s -> Inv (fst (newStruct s n d)) /\ grows s (fst (newStruct s n d)).
Proof.
  intros s n d V. unfold newStruct. destruct d as [i|].
  - destruct (nth_error (dicts s) i) as [x|] eqn:E; [|exact (good_same s V)].
    destruct (makeStruct (mgr s) n (frozen x) (Some (items x))) as [[m es] r] eqn:M.
    assert (GV : forall e, Some (items x) = Some e -> NoDup (keys e) /\ forall k v, In (k, v) e -> from s v).
    { intros e He. injection He as <-. exact (inv_dicts s V i x E). }
    destruct (makeStruct_gen s _ _ _ _ _ _ _ (inv_mgr s V) (inv_defs s V) (inv_vals s V) GV M) as [A [B [C [D F]]]].
    assert (P : forall fz, (frozen x = true -> fz = true) ->
      Inv (put_dict (with_mgr s m) i {| frozen := fz; items := es |}) /\
      grows s (put_dict (with_mgr s m) i {| frozen := fz; items := es |})).
    { intros fz Hf. apply (good_then _ _ _ (good_with_mgr s m V A)). intros V'.
      apply (good_put_dict _ _ x _ _ V' E B C). intros Z. split; [exact (Hf Z) | exact (D _ eq_refl Z)]. }
    destruct r as [t|c|c|]; cbn [done fst]; try (apply P; auto).
    apply (good_then _ _ _ (P true (fun _ => eq_refl))). intros V'. destruct (F t eq_refl) as [F1 [F2 F3]].
    apply (good_with_struct _ t i {| frozen := true; items := es |} V' F1 F2); [|reflexivity|exact F3].
    exact (nth_put_same _ _ _ _ _ E).
  - destruct (makeStruct (mgr s) n false None) as [[m es] r] eqn:M.
    assert (GV : forall e : entries, None = Some e -> NoDup (keys e) /\ forall k v, In (k, v) e -> from s v) by discriminate.
    destruct (makeStruct_gen s _ _ _ _ _ _ _ (inv_mgr s V) (inv_defs s V) (inv_vals s V) GV M) as [A [B [C [D F]]]].
    destruct r as [t|c|c|]; cbn [done fst]; try exact (good_with_mgr s m V A).
    apply (good_then _ _ _ (good_with_mgr s m V A)). intros V'.
    apply (good_then _ (with_dict (with_mgr s m) {| frozen := true; items := es |})).
    { apply good_with_dict; [exact V' | exact B | exact C]. }
    intros V''. destruct (F t eq_refl) as [F1 [F2 F3]].
    apply (good_with_struct _ t (length (dicts s)) {| frozen := true; items := es |} V'' F1 F2); [|reflexivity|exact F3].
    exact (nth_app_new _ (dicts s) {| frozen := true; items := es |}).
Qed.

Lemma shown_good : forall s i t es, Inv s -> shown s i = Some (t, es) ->
  made_ty t /\ origin s t /\ conforms nearly_fits t es /\ NoDup (keys es) /\ (forall k v, In (k, v) es -> from s v).
Proof.
  intros s i t es V H. unfold shown in H. destruct (nth_error (structs s) i) as [[u d]|] eqn:E; [|discriminate].
  destruct (inv_structs s V i u d E) as [A [B [x [C [D F]]]]]. rewrite C in H. injection H as <- <-.
  destruct (inv_dicts s V d x C) as [G G']. auto.
Qed.

Lemma builderSet_gen : forall s t fz es n v, NoDup (keys es) -> (forall k w, In (k, w) es -> from s w) -> from s v ->
  NoDup (keys (fst (builderSet t fz es n v))) /\ (forall k w, In (k, w) (fst (builderSet t fz es n v)) -> from s w) /\
  (fz = true -> fst (builderSet t fz es n v) = es).
Proof.
  intros s t fz es n v N F V. unfold builderSet.
  destruct t as [c|n' ns ts ds|n' xs|n']; cbn [fst]; auto.
  destruct (lookup n es); cbn [fst]; auto.
  destruct (match v with VNull => Ok tt | _ => builderCheck ns ts n v end); cbn [fst]; auto.
  destruct fz; cbn [fst]; auto. split; [apply assign_nodup; exact N|]. split; [|discriminate].
  intros k w H. apply assign_in in H. destruct H as [H|H]; [exact (F k w H) | injection H as -> ->; exact V].
Qed.

Lemma combine_keys : forall (A B : Type) (l : list A) (k : list B), length k = length l -> map fst (combine l k) = l.
Proof.
  induction l as [|x l IH]; destruct k as [|y k]; cbn [combine map length fst]; intros H; try reflexivity; try discriminate.
  rewrite IH; [reflexivity | congruence].
Qed.

Lemma good_setValues : forall s b vs, Inv s -> (forall v, In v vs -> from s v) ->
  Inv (fst (setValuesInBuilder s b vs)) /\ grows s (fst (setValuesInBuilder s b vs)).
Proof.
  intros s b vs V F. unfold setValuesInBuilder. destruct (nth_error (builders s) b) as [[t d]|] eqn:E; [|exact (good_same s V)].
  destruct (nth_error (dicts s) d) as [x|] eqn:D; [|exact (good_same s V)].
  destruct (builderSetValues t (items x) vs) as [es|c|c|] eqn:R; try exact (good_same s V).
  cbn [done fst]. destruct (inv_builders s V b t d E) as [B1 [B2 [B3 _]]].
  assert (P : NoDup (keys es) /\ forall k v, In (k, v) es -> from s v).
  { unfold builderSetValues in R. destruct t as [c|n ns ts ds|n xs|n]; try discriminate.
    destruct (length vs =? length (items x))%nat eqn:L; [|discriminate]. apply Nat.eqb_eq in L.
    destruct (valuesCheck ts vs); try discriminate. injection R as <-. split.
    - unfold keys. rewrite combine_keys by (rewrite map_length; exact L). exact (proj1 (inv_dicts s V d x D)).
    - intros k v H. apply in_combine_r in H. exact (F v H). }
  apply (good_then _ _ _ (good_with_dict s {| frozen := false; items := es |} V (proj1 P) (proj2 P))). intros V'.
  apply (good_put_builder _ b t (length (dicts s)) {| frozen := false; items := es |} V' B1 B2 B3).
  exact (nth_app_new _ (dicts s) {| frozen := false; items := es |}).
Qed.

Lemma known_keys : forall ns es k, knownFields ns es = true -> In k (keys es) -> In k ns.
Proof.
  intros ns es k K X. unfold knownFields in K. rewrite forallb_forall in K. unfold keys in X. apply in_map_iff in X.
  destruct X as [e [<- X]]. specialize (K e X). apply existsb_exists in K. destruct K as [k' [K1 K2]].
  apply name_eqb_eq in K2. rewrite K2. exact K1.
Qed.

Lemma good_build : forall s b, Inv s -> Inv (fst (buildStruct s b)) /\ grows s (fst (buildStruct s b)).
Proof.
  intros s b V. unfold buildStruct. destruct (nth_error (builders s) b) as [[t d]|] eqn:E; [|exact (good_same s V)].
  destruct (nth_error (dicts s) d) as [x|] eqn:D; [|exact (good_same s V)].
  destruct (inv_builders s V b t d E) as [B1 [B2 [[n [ns [ts [ds ->]]]] _]]].
  destruct (inv_dicts s V d x D) as [N F]. cbn [makeFromBuilder].
  destruct (knownFields ns (items x)) eqn:K.
  2:{ cbn [fst]. apply (good_put_dict s d x _ _ V D N F). auto. }
  destruct (checkFields (frozen x) ns ts ds (items x)) as [es r] eqn:C.
  destruct (checkFields_gen _ _ _ _ _ _ _ C N) as [G1 [G2 [G3 G4]]].
  assert (FE : forall k v, In (k, v) es -> from s v).
  { intros k v H. destruct (G4 k v H) as [X|[X|[l [X1 X2]]]]; [exact (F k v X) | left; exact X |].
    destruct B2 as [O|[a [b0 [c O]]]]; [|congruence]. assert (DF := inv_defs s V _ O). subst ds. exact (DF v X2). }
  assert (P : forall fz, (frozen x = true -> fz = true) ->
    Inv (put_dict s d {| frozen := fz; items := es |}) /\ grows s (put_dict s d {| frozen := fz; items := es |})).
  { intros fz Hf. apply (good_put_dict s d x _ _ V D G1 FE). intros Z. split; [exact (Hf Z) | exact (G2 Z)]. }
  destruct r as [u|c|c|]; cbn [done fst]; try (apply P; auto). destruct u.
  apply (good_then _ _ _ (P true (fun _ => eq_refl))). intros V'.
  apply (good_with_struct _ (TStruct n ns ts ds) d {| frozen := true; items := es |} V' B1 B2); [|reflexivity|].
  - exact (nth_put_same _ _ _ _ _ D).
  - inversion B1 as [| | |n0 ns0 ts0 ds0 L1 L2 M1 M2 MA]; subst.
    destruct (checkFields_ok _ _ _ _ _ _ C N L1 M1 MA M2 (fun k v Hk => from_made s v V (F k v Hk))) as [A B].
    exists n, ns, ts, ds. split; [reflexivity|]. split; [exact L1|]. split; [exact G1|]. split; [|exact B].
    intros k. rewrite A. split; [|tauto]. intros [X|X]; [exact (known_keys _ _ _ K X) | exact X].
Qed.

Lemma step_good : forall s o, Inv s -> Inv (fst (step s o)) /\ grows s (fst (step s o)).
Proof.
  intros s o V. destruct o as [c|n ns ts ds|n es|n ns z|n|i|n|c i|c ti i|n a|i a| |d n v|d n|d|d|n d|i|n|i|b n v|b vs|b];
    cbn [step].
  - apply good_with_ty; [exact V | constructor | exact I].
  - destruct (ty_refs s ts) as [ts'|] eqn:T; [|exact (good_same s V)].
    assert (MT : Forall made_ty ts').
    { apply Forall_forall. intros t Ht. exact (tys_made s t V (ty_refs_in s _ _ T t Ht)). }
    destruct ds as [l|].
    + destruct (refs (ref s) l) as [vs|] eqn:R; cbn [option_map]; [|exact (good_same s V)].
      apply good_add_ty; [exact V|]. intros t Ht.
      destruct (newStructType_ok _ _ _ _ _ Ht MT) as [A B].
      * intros k E. injection E as <-. apply Forall_forall. intros v Hv. exact (from_made s v V (refs_in s _ _ R v Hv)).
      * split; [exact B|]. rewrite A. cbn [defaults_from]. exact (refs_in s _ _ R).
    + apply good_add_ty; [exact V|]. intros t Ht. destruct (newStructType_ok _ _ _ _ _ Ht MT) as [A B]; [discriminate|].
      split; [exact B|]. rewrite A. exact I.
  - apply good_add_ty; [exact V|]. intros t Ht. unfold newEnumTypeWithValues in Ht.
    destruct (dict_of es) as [|e r] eqn:E; [discriminate|]. injection Ht as <-. split; [|exact I].
    constructor; [rewrite <- E; apply dict_of_nodup | discriminate].
  - apply good_add_ty; [exact V|]. intros t Ht. unfold newEnumType in Ht. destruct ns as [|k ns]; [discriminate|].
    destruct (number (k :: ns) z []) as [r|c|c|] eqn:E; try discriminate. injection Ht as <-.
    destruct (number_keys _ _ _ _ E) as [A B]; [constructor|]. split; [|exact I]. constructor; [exact A|].
    rewrite B. discriminate.
  - apply good_with_ty; [exact V | constructor | exact I].
  - destruct (nth_error (tys s) i) as [t|] eqn:E; [|exact (good_same s V)]. cbn [fst].
    apply good_with_mgr; [exact V|]. apply nth_error_In in E.
    apply good_addType; [exact (inv_mgr s V) | exact (tys_made s t V E) | left; exact E].
  - cbn [fst]. apply good_with_mgr; [exact V|]. unfold removeType.
    destruct (lookup n (mgr s)); cbn [fst]; [|exact (inv_mgr s V)].
    destruct (inv_mgr s V) as [A B]. split; [apply filter_nodup_keys; exact A|]. intros k u H. apply erase_in in H. exact (B k u H).
  - destruct (atomic c) eqn:A; [|exact (good_same s V)]. apply good_with_val; [exact V | constructor; exact A].
  - destruct (nth_error (tys s) ti) as [u|] eqn:E; [|exact (good_same s V)]. destruct u as [x|n ns ts ds|n es|n]; try exact (good_same s V).
    destruct (atomic c || ct_beq c CStruct); [|exact (good_same s V)]. apply good_with_val; [exact V|].
    constructor; [exact (tys_made s _ V (nth_error_In _ _ E)) | do 4 eexists; reflexivity].
  - apply good_add_val; [exact V|]. intros v Hv. destruct (newEnum_of _ _ _ _ Hv) as [t [L H]].
    apply lookup_in in L. exact (newEnumOfType_ok _ _ _ H (proj1 (proj2 (inv_mgr s V) n t L))).
  - destruct (nth_error (tys s) i) as [t|] eqn:E; [|exact (good_same s V)]. apply good_add_val; [exact V|]. intros v Hv.
    exact (newEnumOfType_ok _ _ _ Hv (tys_made s t V (nth_error_In _ _ E))).
  - apply good_with_dict; [exact V | constructor | intros k v []].
  - destruct (ref s v) as [w|] eqn:R; [|exact (good_same s V)]. apply ref_from in R. unfold dictSet.
    destruct (nth_error (dicts s) d) as [x|] eqn:E; [|exact (good_same s V)].
    destruct (frozen x) eqn:Z; [exact (good_same s V)|]. cbn [done fst]. destruct (inv_dicts s V d x E) as [A B].
    apply (good_put_dict s d x _ _ V E); [apply assign_nodup; exact A| |intros; congruence].
    intros k u H. apply assign_in in H. destruct H as [H|H]; [exact (B k u H) | injection H as -> ->; exact R].
  - unfold dictRemove. destruct (nth_error (dicts s) d) as [x|] eqn:E; [|exact (good_same s V)].
    destruct (frozen x) eqn:Z; [exact (good_same s V)|]. destruct (lookup n (items x)); [|exact (good_same s V)].
    cbn [done fst]. destruct (inv_dicts s V d x E) as [A B].
    apply (good_put_dict s d x _ _ V E); [apply filter_nodup_keys; exact A| |intros; congruence].
    intros k u H. apply erase_in in H. exact (B k u H).
  - unfold dictClear. destruct (nth_error (dicts s) d) as [x|] eqn:E; [|exact (good_same s V)].
    destruct (frozen x) eqn:Z; [exact (good_same s V)|]. cbn [done fst].
    apply (good_put_dict s d x _ _ V E); [constructor | intros k u [] | intros; congruence].
  - unfold dictFreeze. destruct (nth_error (dicts s) d) as [x|] eqn:E; [|exact (good_same s V)]. cbn [done fst].
    destruct (inv_dicts s V d x E) as [A B]. apply (good_put_dict s d x _ _ V E A B). auto.
  - apply good_newStruct. exact V.
  - unfold useStruct. destruct (shown s i) as [[t es]|] eqn:E; [|exact (good_same s V)]. cbn [done fst].
    destruct (shown_good s i t es V E) as [A [B [C [D F]]]]. apply good_with_val; [exact V|].
    constructor; [exact A| |exact D|].
    + destruct C as [n [ns [ts [ds [C _]]]]]. exists n, ns, ts, ds. exact C.
    + apply Forall_forall. intros [k v] H. exact (from_made s v V (F k v H)).
  - unfold newBuilder. destruct (lookup n (mgr s)) as [t|] eqn:L; [|exact (good_same s V)].
    apply lookup_in in L. destruct (proj2 (inv_mgr s V) n t L) as [A [_ O]].
    destruct t as [c|n' ns ts ds|n' xs|n']; try exact (good_same s V). cbn [done fst].
    assert (P : NoDup (keys (initFields ns ds [])) /\ forall k v, In (k, v) (initFields ns ds []) -> from s v).
    { apply initFields_gen; [constructor | intros k v [] |]. intros l v E H.
      destruct O as [O|[a [b [c O]]]]; [|congruence]. assert (DF := inv_defs s V _ O). subst ds. exact (DF v H). }
    apply (good_then _ _ _ (good_with_dict s {| frozen := false; items := initFields ns ds [] |} V (proj1 P) (proj2 P))). intros V'.
    apply (good_with_builder _ _ (length (dicts s)) {| frozen := false; items := initFields ns ds [] |} V' A O).
    + do 4 eexists; reflexivity.
    + exact (nth_app_new _ (dicts s) _).
  - unfold newBuilderFrom. destruct (shown s i) as [[t es]|] eqn:E; [|exact (good_same s V)]. cbn [done fst].
    destruct (shown_good s i t es V E) as [A [B [C [D F]]]].
    assert (P : forall k v, In (k, v) (dict_of es) -> from s v) by (intros k v H; exact (F k v (dict_of_in _ _ H))).
    apply (good_then _ _ _ (good_with_dict s {| frozen := false; items := dict_of es |} V (dict_of_nodup es) P)). intros V'.
    apply (good_with_builder _ _ (length (dicts s)) {| frozen := false; items := dict_of es |} V' A B).
    + destruct C as [n [ns [ts [ds [C _]]]]]. exists n, ns, ts, ds. exact C.
    + exact (nth_app_new _ (dicts s) _).
  - destruct (ref s v) as [w|] eqn:R; [|exact (good_same s V)]. apply ref_from in R. unfold setInBuilder.
    destruct (nth_error (builders s) b) as [[t d]|] eqn:E; [|exact (good_same s V)].
    destruct (nth_error (dicts s) d) as [x|] eqn:D; [|exact (good_same s V)]. cbn [fst].
    destruct (inv_dicts s V d x D) as [N F].
    destruct (builderSet_gen s t (frozen x) (items x) n w N F R) as [A [B C]].
    apply (good_put_dict s d x _ _ V D A B). intros Z. split; [exact Z | exact (C Z)].
  - destruct (refs (ref s) vs) as [ws|] eqn:R; [|exact (good_same s V)].
    apply good_setValues; [exact V | exact (refs_in s _ _ R)].
  - apply good_build. exact V.
Qed.

Lemma start_good : Inv start.
Proof.
  split; cbn [start tys vals mgr dicts structs builders].
  - constructor.
  - intros t [].
  - constructor.
  - split; [constructor | intros n t []].
  - intros d x H. destruct d; discriminate.
  - intros i t d H. destruct i; discriminate.
  - intros b t d H. destruct b; discriminate.
Qed.
Lemma run_good_from : forall h s, Inv s -> Inv (run s h) /\ grows s (run s h).
Proof.
  induction h as [|o h IH]; intros s V; [exact (good_same s V)|]. cbn [run fold_left].
  destruct (step_good s o V) as [A B]. destruct (IH _ A) as [C D]. split; [exact C | exact (grows_trans _ _ _ B D)].
Qed.
Lemma run_good : forall h, Inv (run start h).
Proof. intros h. exact (proj1 (run_good_from h start start_good)). Qed.
