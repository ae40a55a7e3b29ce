(** Single operations on structs, builders and enumerations. *)
From Verif Require Import Base Strc_Model Strc_Spec Strc_Proofs Strc_Steps.
From Verif Require Types_Model Types_Spec Types_Proofs.
Local Open Scope Z_scope.

Lemma from_is_made : forall s v, from s v <-> made s v.
Proof. intros s v. split; intros H; exact H. Qed.

Lemma run_app : forall s h h', run s (h ++ h') = run (run s h) h'.
Proof. intros s h h'. unfold run. apply fold_left_app. Qed.

Lemma shown_kept : forall s s' i t es, Inv s -> grows s s' -> shown s i = Some (t, es) -> shown s' i = Some (t, es).
Proof.
  intros s s' i t es V G H. unfold shown in *. destruct (nth_error (structs s) i) as [[u d]|] eqn:E; [|discriminate].
  rewrite (grows_structs _ _ G _ _ E). destruct (inv_structs s V i u d E) as [_ [_ [x [C [D _]]]]].
  rewrite C in H. rewrite (grows_frozen _ _ G d x C D). exact H.
Qed.

Lemma known_complete : forall ns es, incl (keys es) ns -> knownFields ns es = true.
Proof.
  intros ns es H. unfold knownFields. apply forallb_forall. intros e He. apply existsb_exists. exists (fst e).
  split; [|apply name_eqb_refl]. apply H. unfold keys. apply in_map. exact He.
Qed.

Lemma in_mgr_lookup : forall (m : manager) n t, NoDup (keys m) -> In (n, t) m -> lookup n m = Some t.
Proof. intros m n t N H. exact (in_lookup n t m N H). Qed.

Lemma create_registered : forall s n d es n' ns ts ds,
  Inv s -> registered s n (TStruct n' ns ts ds) -> NoDup ns -> contents s d false es -> incl (keys es) ns ->
  (forall j k tj v, nth_error ns j = Some k -> nth_error ts j = Some tj -> In (k, v) es -> suits tj v) ->
  exists es', snd (step s (NewStruct n (Some d))) = Ok tt /\
    shown (fst (step s (NewStruct n (Some d)))) (length (structs s)) = Some (TStruct n' ns ts ds, es') /\
    (forall e, In e es -> In e es') /\
    (forall j k v, nth_error ns j = Some k -> ~ In k (keys es) -> left_out ds j v -> In (k, v) es').
Proof.
  intros s n d es n' ns ts ds V R NN C KI HS. unfold contents in C.
  destruct (inv_mgr s V) as [NM GM]. assert (L := in_mgr_lookup _ _ _ NM R).
  destruct (GM n _ R) as [MT _]. inversion MT as [| | |n0 ns0 ts0 ds0 L1 L2 M1 M2 MA]; subst.
  destruct (inv_dicts s V d _ C) as [N _]. cbn [items] in N.
  destruct (checkFields_complete ns ts ds es L1) as [es' [CF LO]]; try assumption.
  exists es'. cbn [step]. unfold newStruct. rewrite C. cbn [frozen items]. unfold makeStruct. rewrite L. cbv zeta.
  rewrite (known_complete ns es KI), CF. cbn [done fst snd]. split; [reflexivity|]. split.
  - unfold shown. cbn [with_struct put_dict with_mgr structs dicts]. rewrite nth_app_new.
    rewrite (nth_put_same _ _ _ _ _ C). reflexivity.
  - split; [|exact LO]. destruct (checkFields_gen _ _ _ _ _ _ _ CF N) as [_ [_ [K _]]]. exact K.
Qed.

Lemma create_empty : forall s n n' ns ts ds,
  Inv s -> registered s n (TStruct n' ns ts ds) -> NoDup ns ->
  exists es', snd (step s (NewStruct n None)) = Ok tt /\
    shown (fst (step s (NewStruct n None))) (length (structs s)) = Some (TStruct n' ns ts ds, es') /\
    (forall j k v, nth_error ns j = Some k -> left_out ds j v -> In (k, v) es').
Proof.
  intros s n n' ns ts ds V R NN.
  destruct (inv_mgr s V) as [NM GM]. assert (L := in_mgr_lookup _ _ _ NM R).
  destruct (GM n _ R) as [MT _]. inversion MT as [| | |n0 ns0 ts0 ds0 L1 L2 M1 M2 MA]; subst.
  destruct (checkFields_complete ns ts ds [] L1) as [es' [CF LO]]; try assumption.
  { constructor. }
  { intros j k tj v _ _ []. }
  exists es'. cbn [step]. unfold newStruct, makeStruct. rewrite L. cbv zeta.
  rewrite (known_complete ns [] (incl_nil_l ns)), CF. cbn [done fst snd]. split; [reflexivity|]. split.
  - unfold shown. cbn [with_struct with_dict with_mgr structs dicts]. rewrite !nth_app_new. reflexivity.
  - intros j k v Hj. apply (LO j k v Hj). intros [].
Qed.

Lemma inferred_accepted : forall v t, made_val v -> inferred v t -> t = typeOf v.
Proof. intros v t M H. destruct M; cbn in *; try assumption. destruct c; assumption. Qed.

Lemma core_typeOf : forall v, made_val v -> v <> VNull -> core (typeOf v) = kind v.
Proof.
  intros v M H. destruct M as [|c i A|c t i M E|n es v N K|t fs M E N F]; cbn [typeOf kind core]; try reflexivity.
  - destruct E as [n [ns [ts [ds ->]]]]. destruct c; reflexivity.
  - destruct E as [n [ns [ts [ds ->]]]]. reflexivity.
Qed.

Lemma create_inferred : forall s n d es,
  Inv s -> (forall t, ~ registered s n t) -> Types_Spec.admissible n -> contents s d false es ->
  Forall Types_Spec.identifier (keys es) ->
  (forall k v, In (k, v) es -> ~ In (kind v) [CProc; CObject; CBinary; CFunc]) ->
  exists ts, Forall2 (fun e t => inferred (snd e) t) es ts /\
    snd (step s (NewStruct n (Some d))) = Ok tt /\
    shown (fst (step s (NewStruct n (Some d)))) (length (structs s)) = Some (TStruct n (keys es) ts None, es) /\
    registered (fst (step s (NewStruct n (Some d)))) n (TStruct n (keys es) ts None).
Proof.
  intros s n d es V R [ID RS] C IK HK. unfold contents in C.
  destruct (inv_dicts s V d _ C) as [N F]. cbn [items] in N, F.
  assert (L : lookup n (mgr s) = None).
  { destruct (lookup n (mgr s)) as [t|] eqn:E; [|reflexivity]. apply lookup_in in E. destruct (R t E). }
  exists (map (fun e : name * val => typeOf (snd e)) es). split.
  { assert (G : Forall made_val (map snd es)).
    { apply Forall_forall. intros v Hv. apply in_map_iff in Hv. destruct Hv as [[k w] [<- Hk]]. exact (from_made s w V (F k w Hk)). }
    clear -G. induction es as [|e es IH]; cbn [map] in *; [constructor|]. inversion G; subst.
    constructor; [apply typeOf_inferred; assumption | exact (IH H2)]. }
  cbn [step]. unfold newStruct. rewrite C. cbn [frozen items]. unfold makeStruct. rewrite L.
  assert (NT : newStructType n (map fst es) (map (fun e : name * val => typeOf (snd e)) es) None
             = Ok (TStruct n (map fst es) (map (fun e : name * val => typeOf (snd e)) es) None)).
  { unfold newStructType. rewrite !map_length, Nat.eqb_refl. cbn [andb negb].
    assert (B : forallb Types_Model.validateTypeName (map fst es) = true).
    { apply forallb_forall. intros k Hk. apply Types_Proofs.identifier_iff. rewrite Forall_forall in IK. exact (IK k Hk). }
    assert (A : forallb (fun t => accepted (core t)) (map (fun e : name * val => typeOf (snd e)) es) = true).
    { apply forallb_forall. intros t Ht. apply in_map_iff in Ht. destruct Ht as [[k v] [<- Hk]]. cbn [snd].
      destruct v as [|c i|c u i|x y z|u fs] eqn:EV.
      - reflexivity.
      - specialize (HK k _ Hk). cbn [kind] in HK. cbn [typeOf core]. destruct c; try reflexivity; exfalso; apply HK; cbn [In]; auto.
      - assert (M := from_made s _ V (F k _ Hk)). rewrite (core_typeOf _ M) by discriminate.
        specialize (HK k _ Hk). cbn [kind] in HK |- *. destruct c; try reflexivity; exfalso; apply HK; cbn [In]; auto.
      - reflexivity.
      - assert (M := from_made s _ V (F k _ Hk)). rewrite (core_typeOf _ M) by discriminate. reflexivity. }
    rewrite A, B. reflexivity. }
  rewrite NT. 
  assert (AT : addType (mgr s) (TStruct n (map fst es) (map (fun e : name * val => typeOf (snd e)) es) None)
     = (assign n (TStruct n (map fst es) (map (fun e : name * val => typeOf (snd e)) es) None) (mgr s), Ok tt)).
  { unfold addType. cbn [label].
    assert (X : existsb (name_eqb (Types_Model.toLowerCase n)) Types_Model.reservedTypeNames = false).
    { destruct (existsb (name_eqb (Types_Model.toLowerCase n)) Types_Model.reservedTypeNames) eqn:E; [|reflexivity].
      destruct RS. apply Types_Proofs.reserved_iff. exact E. }
    assert (Y : Types_Model.validateTypeName n = true) by (apply Types_Proofs.identifier_iff; exact ID).
    rewrite X, Y, L. destruct n; [discriminate | reflexivity]. }
  rewrite AT. cbn [done fst snd]. split; [reflexivity|]. split.
  - unfold shown. cbn [with_struct put_dict with_mgr structs dicts]. rewrite nth_app_new.
    rewrite (nth_put_same _ _ _ _ _ C). reflexivity.
  - unfold registered. cbn [with_struct put_dict with_mgr mgr]. apply lookup_none in L. rewrite assign_new by exact L.
    apply in_or_app. right. left. reflexivity.
Qed.

Lemma failed_creation : forall s n d, snd (step s (NewStruct n d)) <> Ok tt ->
  structs (fst (step s (NewStruct n d))) = structs s /\ mgr (fst (step s (NewStruct n d))) = mgr s.
Proof.
  intros s n d H. cbn [step] in *.
  assert (MM : forall fz g m es r, makeStruct (mgr s) n fz g = (m, es, r) -> (forall t, r <> Ok t) -> m = mgr s).
  { intros fz g m es r M NR. unfold makeStruct in M. destruct (lookup n (mgr s)) as [[c|n' ns ts ds|n' xs|n']|];
      try (injection M as <- _ _; reflexivity).
    - cbv zeta in M. destruct (knownFields ns _); [|injection M as <- _ _; reflexivity].
      destruct (checkFields fz ns ts ds _) as [e1 [u|c|c|]]; injection M as <- _ _; reflexivity.
    - destruct g as [g|]; [|injection M as <- _ _; reflexivity].
      destruct (newStructType _ _ _ _) as [t|c|c|]; try (injection M as <- _ _; reflexivity).
      destruct (addType (mgr s) t) as [m1 [u|c|c|]] eqn:A.
      1:{ injection M as <- _ <-. destruct (NR t eq_refl). }
      all: injection M as <- _ _; destruct (addType_cases (mgr s) t) as [E|[_ [_ E]]]; rewrite A in E; cbn [fst snd] in E;
        [exact E | discriminate]. }
  unfold newStruct in *. destruct d as [i|].
  - destruct (nth_error (dicts s) i) as [x|]; [|split; reflexivity].
    destruct (makeStruct (mgr s) n (frozen x) (Some (items x))) as [[m es] r] eqn:M.
    destruct r as [t|c|c|]; cbn [done fst snd] in *; [destruct (H eq_refl)|..];
      (split; [reflexivity | apply (MM _ _ _ _ _ M); discriminate]).
  - destruct (makeStruct (mgr s) n false None) as [[m es] r] eqn:M.
    destruct r as [t|c|c|]; cbn [done fst snd] in *; [destruct (H eq_refl)|..];
      (split; [reflexivity | apply (MM _ _ _ _ _ M); discriminate]).
Qed.

(** ** Builders *)
Lemma valueType_typed : forall v, made_val v -> v <> VNull -> typed v (valueType v) /\ made_ty (valueType v).
Proof.
  intros v M H. destruct M as [|c i A|c t i M E|n es v N K|t fs M E N F]; cbn; try congruence; split;
    try reflexivity; try assumption; try constructor; try assumption.
  intros ->. destruct K.
Qed.

Lemma builderCheck_ok : forall ns ts n v j t, builderCheck ns ts n v = Ok tt ->
  nth_error ns j = Some n -> nth_error ts j = Some t -> ty_eq false (valueType v) t = Some true.
Proof.
  induction ns as [|k ns IH]; intros ts n v j t H Hn Ht; [destruct j; discriminate|].
  destruct ts as [|u ts]; [destruct j; discriminate|]. cbn [builderCheck] in H.
  destruct (name_eqb k n) eqn:E.
  - destruct (ty_eq false (valueType v) u) as [[]|] eqn:Q; try discriminate.
    destruct j as [|j]; cbn [nth_error] in Hn, Ht; [injection Ht as <-; exact Q | exact (IH _ _ _ _ _ H Hn Ht)].
  - destruct j as [|j]; cbn [nth_error] in Hn, Ht; [|exact (IH _ _ _ _ _ H Hn Ht)].
    injection Hn as ->. rewrite name_eqb_refl in E. discriminate.
Qed.

Lemma assign_keys_old : forall k (v : val) l, In k (keys l) -> keys (assign k v l) = keys l.
Proof.
  unfold keys. induction l as [|[a b] l IH]; cbn [assign map fst In]; intros H; [destruct H|].
  destruct (name_eqb a k) eqn:E; cbn [map fst]; [reflexivity|]. f_equal. apply IH. destruct H as [H|H]; [|exact H].
  subst a. rewrite name_eqb_refl in E. discriminate.
Qed.

Lemma builder_set_ok : forall s b n r v, Inv s -> ref s r = Some v -> snd (step s (BuilderSet b n r)) = Ok tt ->
  exists n' ns ts ds d es, builder s b (TStruct n' ns ts ds) d /\ contents s d false es /\ In n (keys es) /\
    (v = VNull \/ forall j t, nth_error ns j = Some n -> nth_error ts j = Some t -> exists u, typed v u /\ same_ty u t) /\
    exists es', contents (fst (step s (BuilderSet b n r))) d false es' /\ keys es' = keys es /\
      forall k w, In (k, w) es' <-> (k = n /\ w = v) \/ (k <> n /\ In (k, w) es).
Proof.
  intros s b n r v V R H. cbn [step] in *. rewrite R in *. unfold setInBuilder in *.
  destruct (nth_error (builders s) b) as [[t d]|] eqn:B; [|discriminate].
  destruct (nth_error (dicts s) d) as [x|] eqn:D; [|discriminate]. cbn [fst snd] in *.
  unfold builderSet in *. destruct (inv_builders s V b t d B) as [MT _].
  destruct t as [c|n' ns ts ds|n' xs|n']; try discriminate.
  destruct (lookup n (items x)) as [old|] eqn:L; [|discriminate].
  destruct (match v with VNull => Ok tt | _ => builderCheck ns ts n v end) as [u|c|c|] eqn:K; try discriminate.
  destruct (frozen x) eqn:Z; [discriminate|]. cbn [fst].
  exists n', ns, ts, ds, d, (items x). split; [exact B|].
  split; [unfold contents; rewrite D; destruct x as [f i]; cbn in Z |- *; rewrite Z; reflexivity|].
  apply lookup_in in L. split; [exact (in_keys _ _ _ L)|].
  destruct (inv_dicts s V d x D) as [N _]. split.
  - assert (DV : v = VNull \/ v <> VNull) by (destruct v; [left; reflexivity | right; discriminate ..]).
    destruct DV as [DV|DV]; [left; exact DV|]. right. intros j t Hn Ht.
    assert (K' : builderCheck ns ts n v = Ok tt) by (destruct u; destruct v; [congruence | exact K ..]).
    assert (MV := from_made s v V (ref_from s r v R)). destruct (valueType_typed v MV DV) as [T1 T2].
    exists (valueType v). split; [exact T1|]. inversion MT as [| | |n0 ns0 ts0 ds0 L1 L2 M1 M2 MA]; subst.
    apply (ty_eq_sound _ t false T2).
    + rewrite Forall_forall in M1. exact (M1 t (nth_error_In _ _ Ht)).
    + exact (builderCheck_ok _ _ _ _ _ _ K' Hn Ht).
  - exists (assign n v (items x)). split; [unfold contents; cbn [put_dict dicts]; exact (nth_put_same _ _ _ _ _ D)|].
    split; [exact (assign_keys_old _ _ _ (in_keys _ _ _ L))|].
    intros k w. split.
    + intros H'. destruct (list_eq_dec Z.eq_dec k n) as [->|NE].
      * left. split; [reflexivity|]. apply (one_value n w v _ (assign_nodup _ _ _ N) H').
        apply assign_self.
      * right. split; [exact NE|]. apply assign_in in H'. destruct H' as [H'|H']; [exact H' | congruence].
    + intros [[-> ->]|[NE H']].
      * apply assign_self.
      * apply assign_other; assumption.
Qed.

Lemma build_ok : forall s b t d es fz, Inv s -> builder s b t d -> contents s d fz es ->
  snd (step s (Build b)) = Ok tt ->
  exists es', shown (fst (step s (Build b))) (length (structs s)) = Some (t, es') /\ (forall e, In e es -> In e es') /\
    contents (fst (step s (Build b))) d true es'.
Proof.
  intros s b t d es fz V B C H. unfold builder, contents in *. cbn [step] in *. unfold buildStruct in *.
  rewrite B, C in *. cbn [frozen items] in *.
  destruct (makeFromBuilder t fz es) as [es' r] eqn:M. destruct r as [u|c|c|]; cbn [done fst snd] in *; try discriminate.
  exists es'. unfold shown. cbn [with_struct put_dict structs dicts]. rewrite nth_app_new, (nth_put_same _ _ _ _ _ C). cbn [items].
  split; [reflexivity|]. split; [|reflexivity].
  unfold makeFromBuilder in M. destruct t as [c|n ns ts ds|n xs|n]; try discriminate.
  destruct (knownFields ns es); [|discriminate].
  destruct (inv_dicts s V d _ C) as [N _]. exact (proj1 (proj2 (proj2 (checkFields_gen _ _ _ _ _ _ _ M N)))).
Qed.

Lemma initFields_spec : forall ns ds es, NoDup ns -> (forall l, ds = Some l -> length l = length ns) -> NoDup (keys es) ->
  (forall k, In k ns -> ~ In k (keys es)) ->
  (forall e, In e es -> In e (initFields ns ds es)) /\
  (forall k, In k (keys (initFields ns ds es)) <-> In k (keys es) \/ In k ns) /\
  (forall j k v, nth_error ns j = Some k -> left_out ds j v -> In (k, v) (initFields ns ds es)).
Proof.
  induction ns as [|n ns IH]; intros ds es NN LD N DJ; cbn [initFields].
  { split; [auto|]. split; [intros k; cbn [In]; tauto|]. intros j k v H. destruct j; discriminate. }
  inversion NN as [|x l NI NN']; subst.
  assert (NE : ~ In n (keys es)) by (apply DJ; left; reflexivity).
  assert (LD' : forall l, option_map (@tl val) ds = Some l -> length l = length ns).
  { intros l E. destruct ds as [[|d k]|]; cbn [option_map tl] in E; try discriminate; injection E as <-;
      specialize (LD _ eq_refl); cbn [length] in LD; [discriminate | lia]. }
  assert (KA : keys (assign n (default_of ds) es) = keys es ++ [n]).
  { rewrite assign_new by exact NE. unfold keys. rewrite map_app. reflexivity. }
  destruct (IH (option_map (@tl val) ds) (assign n (default_of ds) es) NN' LD' (assign_nodup _ _ _ N)) as [A [B C]].
  { intros k Hk. rewrite KA. intros H. apply in_app_or in H. destruct H as [H|[<-|[]]]; [exact (DJ k (or_intror Hk) H) | exact (NI Hk)]. }
  split; [|split].
  - intros e H. apply A. rewrite assign_new by exact NE. apply in_or_app. left. exact H.
  - intros k. rewrite B, KA, in_app_iff. cbn [In]. tauto.
  - intros [|j] k v Hj LO.
    + cbn [nth_error] in Hj. injection Hj as <-. apply A. rewrite assign_new by exact NE. apply in_or_app. right. left. f_equal.
      unfold left_out in LO. destruct ds as [[|d l]|]; cbn [default_of]; [destruct (nth_error_In _ _ LO) | | congruence].
      cbn [nth_error] in LO. injection LO as <-. reflexivity.
    + cbn [nth_error] in Hj. apply (C j k v Hj). destruct ds as [[|d l]|]; cbn [option_map tl left_out nth_error] in *; try assumption.
      discriminate.
Qed.

Lemma new_builder_ok : forall s n n' ns ts ds, Inv s -> registered s n (TStruct n' ns ts ds) -> NoDup ns ->
  snd (step s (NewBuilder n)) = Ok tt /\
  exists d es, builder (fst (step s (NewBuilder n))) (length (builders s)) (TStruct n' ns ts ds) d /\
    contents (fst (step s (NewBuilder n))) d false es /\
    (forall k, In k (keys es) <-> In k ns) /\
    forall j k v, nth_error ns j = Some k -> left_out ds j v -> In (k, v) es.
Proof.
  intros s n n' ns ts ds V R NN. destruct (inv_mgr s V) as [NM GM]. assert (L := in_mgr_lookup _ _ _ NM R).
  destruct (GM n _ R) as [MT _]. inversion MT as [| | |n0 ns0 ts0 ds0 L1 L2 M1 M2 MA]; subst.
  cbn [step]. unfold newBuilder. rewrite L. cbn [done fst snd]. split; [reflexivity|].
  exists (length (dicts s)), (initFields ns ds []). unfold builder, contents. cbn [with_builder with_dict builders dicts].
  rewrite !nth_app_new. split; [reflexivity|]. split; [reflexivity|].
  destruct (initFields_spec ns ds [] NN) as [_ [B C]].
  { intros l E. exact (L2 l E). } { constructor. } { intros k _ []. }
  split; [|exact C]. intros k. rewrite B. cbn [keys map In]. tauto.
Qed.

(** ** Enumerations *)
Lemma enum_value : forall s n es v, Inv s -> In (VEnum n es v) (vals s) ->
  NoDup (keys es) /\ exists z, In (v, z) es /\ getIntValue (VEnum n es v) = Ok z.
Proof.
  intros s n es v V H. assert (M := from_made s _ V (or_intror H)). inversion M as [| | |n0 es0 v0 N K|]; subst.
  split; [exact N|]. unfold keys in K. apply in_map_iff in K. destruct K as [[k z] [E K]]. cbn [fst] in E. subst k.
  exists z. split; [exact K|]. cbn [getIntValue]. rewrite (in_lookup _ _ _ N K). reflexivity.
Qed.

Lemma find_first : forall (es : list (name * Z)) z, 
  match name_of es z with Some k => first_with es z k | None => ~ In z (map snd es) end.
Proof.
  intros es z. unfold name_of. induction es as [|[k w] es IH]; cbn [find fst snd map]; [intros []|].
  destruct (w =? z) eqn:E.
  - apply Z.eqb_eq in E. subst w. cbn [fst]. exists [], es. split; [reflexivity | constructor].
  - apply Z.eqb_neq in E. destruct (find (fun e => snd e =? z) es) as [[k' w']|].
    + cbn [fst] in *. destruct IH as [b [a [-> F]]]. exists ((k, w) :: b), a. split; [reflexivity | constructor; assumption].
    + intros [H|H]; [exact (E H) | exact (IH H)].
Qed.

Lemma enum_by_name : forall s i n es k, nth_error (tys s) i = Some (TEnum n es) ->
  (In k (keys es) -> step s (NewEnumOfType i (AName k)) = (with_val s (VEnum n es k), Ok tt)) /\
  (~ In k (keys es) -> step s (NewEnumOfType i (AName k)) = (s, Fails InvalidParameter)).
Proof.
  intros s i n es k E. cbn [step]. rewrite E. cbn [newEnumOfType]. split; intros H.
  - destruct (lookup k es) as [z|] eqn:L; [reflexivity|]. apply lookup_none in L. contradiction.
  - destruct (lookup k es) as [z|] eqn:L; [|reflexivity]. apply lookup_in in L. destruct (H (in_keys _ _ _ L)).
Qed.
Lemma enum_by_number : forall s i n es z, nth_error (tys s) i = Some (TEnum n es) ->
  (forall k, first_with es z k -> step s (NewEnumOfType i (AInt z)) = (with_val s (VEnum n es k), Ok tt)) /\
  (~ In z (map snd es) -> step s (NewEnumOfType i (AInt z)) = (s, Fails InvalidParameter)).
Proof.
  intros s i n es z E. cbn [step]. rewrite E. cbn [newEnumOfType]. assert (F := find_first es z). split.
  - intros k [b [a [-> FB]]]. unfold name_of in *.
    assert (Q : find (fun e : name * Z => snd e =? z) (b ++ (k, z) :: a) = Some (k, z)).
    { clear -FB. induction FB as [|x l H F IH]; cbn [app find snd]; [rewrite Z.eqb_refl; reflexivity|].
      apply Z.eqb_neq in H. rewrite H. exact IH. }
    rewrite Q. reflexivity.
  - intros H. destruct (name_of es z) as [k|]; [|reflexivity]. destruct F as [b [a [-> _]]]. destruct H.
    rewrite map_app. apply in_or_app. right. left. reflexivity.
Qed.

Lemma number_complete : forall ns z d, NoDup ns -> (forall k, In k ns -> ~ In k (keys d)) ->
  - 2 ^ 63 <= z -> z + Z.of_nat (length ns) < 2 ^ 63 -> number ns z d = Ok (d ++ counted ns z).
Proof.
  induction ns as [|k ns IH]; intros z d N DJ A B; cbn [number counted]; [rewrite app_nil_r; reflexivity|].
  inversion N as [|x l NI N']; subst. cbn [length] in B. rewrite Nat2Z.inj_succ in B.
  destruct (lookup k d) as [w|] eqn:L.
  { apply lookup_in in L. destruct (DJ k (or_introl eq_refl) (in_keys _ _ _ L)). }
  assert (R : in_i64 (z + 1) = true).
  { unfold in_i64. apply andb_true_iff. split; apply Z.leb_le; lia. }
  rewrite R. apply lookup_none in L. rewrite IH; [|exact N'| |lia|lia].
  - rewrite assign_new by exact L. rewrite <- app_assoc. reflexivity.
  - intros k' H. rewrite assign_new by exact L. unfold keys. rewrite map_app. intros X. apply in_app_or in X.
    destruct X as [X|[X|[]]]; [exact (DJ k' (or_intror H) X) | cbn [fst] in X; subst k'; exact (NI H)].
Qed.

Lemma counted_keys : forall ns z, keys (counted ns z) = ns.
Proof. induction ns as [|k ns IH]; intros z; cbn [counted keys map fst]; [reflexivity|]. f_equal. apply IH. Qed.

Lemma enum_numbered : forall s n ns z, ns <> [] -> NoDup ns -> - 2 ^ 63 <= z -> z + Z.of_nat (length ns) < 2 ^ 63 ->
  step s (NewEnumType n ns z) = (with_ty s (TEnum n (counted ns z)), Ok tt).
Proof.
  intros s n ns z E N A B. cbn [step]. unfold newEnumType. destruct ns as [|k ns]; [contradiction|].
  rewrite (number_complete (k :: ns) z [] N) by (try exact A; try exact B; intros x _ []). reflexivity.
Qed.
Lemma enum_duplicate : forall s n ns z, snd (step s (NewEnumType n ns z)) = Ok tt -> NoDup ns /\ ns <> [].
Proof.
  intros s n ns z H. cbn [step] in H. unfold newEnumType in H. destruct ns as [|k ns]; [discriminate|].
  destruct (number (k :: ns) z []) as [r|c|c|] eqn:E; try discriminate.
  destruct (number_keys _ _ _ _ E) as [N ->]; [constructor|]. cbn [app] in N. rewrite counted_keys in N. split; [exact N | discriminate].
Qed.

(** ** Fields *)
Lemma field_access : forall s i t es, Inv s -> shown s i = Some (t, es) ->
  (forall k v, In (k, v) es <-> (hasField s i k = Some true /\ getField s i k = Some v)) /\
  (forall k, ~ In k (keys es) -> hasField s i k = Some false /\ getField s i k = Some VNull).
Proof.
  intros s i t es V H. destruct (shown_good s i t es V H) as [_ [_ [_ [N _]]]]. unfold hasField, getField. rewrite H. split.
  - intros k v. split.
    + intros K. rewrite (in_lookup _ _ _ N K). split; reflexivity.
    + intros [A B]. destruct (lookup k es) as [w|] eqn:L; [|discriminate]. injection B as ->. apply lookup_in. exact L.
  - intros k K. destruct (lookup k es) as [w|] eqn:L; [|split; reflexivity]. apply lookup_in in L.
    destruct (K (in_keys _ _ _ L)).
Qed.
