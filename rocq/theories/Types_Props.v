(** C33 and C41: types and property object classes. *)
From Coq Require Import String Ascii.
From Verif Require Import Base Types_Model Types_Spec Types_Proofs.
Local Open Scope Z_scope.

(** ** C33 *)

(** The lookup returns exactly what the history says: the first type accepted
    under the name since it was last removed. *)
Theorem c33_lookup : forall h n t, getType n (after h) = Some t <-> holds h n t.
Proof. intros h n t. symmetry. apply holds_get. Qed.

(** At most one type per name, one entry per name in the list of names. *)
Theorem c33_one_type_per_name : forall h n,
  NoDup (getTypes (after h))
  /\ (In n (getTypes (after h)) <-> exists t, holds h n t)
  /\ (hasType n (after h) = true <-> exists t, holds h n t)
  /\ (forall t t', holds h n t -> holds h n t' -> t = t').
Proof.
  intros h n. split; [apply keys_nodup|]. split; [|split].
  - unfold getTypes. pose proof (get_None n (after h)) as N. split.
    + intros I. destruct (get n (after h)) as [t|] eqn:G; [exists t; now apply holds_get|]. tauto.
    + intros (t & H). apply holds_get in H. apply get_In in H. now apply (in_map fst) in H.
  - unfold hasType. destruct (get n (after h)) as [t|] eqn:G; split; try discriminate; auto.
    + intros _. exists t. now apply holds_get.
    + intros (t & H). apply holds_get in H. congruence.
  - intros t t' A B. apply holds_get in A, B. congruence.
Qed.

(** Adding succeeds exactly when the name is admissible and free or taken by the
    same type; otherwise nothing changes, and a taken name is reported. *)
Theorem c33_add : forall h t,
  let m := after h in let r := addType t m in
  (snd r = Success <-> admissible (tname t) /\ forall t', holds h (tname t) t' -> same_type t' t)
  /\ (snd r <> Success -> fst r = m)
  /\ (forall n t', holds h n t' -> getType n (fst r) = Some t')
  /\ (admissible (tname t) -> (forall t', ~ holds h (tname t) t') -> getType (tname t) (fst r) = Some t)
  /\ (snd r = AlreadyExists <-> admissible (tname t) /\ exists t', holds h (tname t) t' /\ ~ same_type t' t).
Proof.
  intros h t m r. subst m r.
  assert (EQ : forall t', get (tname t) (after h) = Some t' -> (ty_equal t' t = true <-> same_type t' t)).
  { intros t' G. unfold ty_equal, same_type. destruct (tbody t'), (tbody t); try (split; [discriminate|tauto]).
    - rewrite andb_true_iff, Z.eqb_eq. destruct (name_eqb_spec (tname t') (tname t)); split; intros [? ?]; auto; congruence.
    - apply Z.eqb_eq. }
  destruct (add_cases t (after h)) as [(A & G & E)|(E & A & N)].
  - rewrite E. cbn [fst snd]. split; [|split; [|split; [|split]]].
    + split; auto. intros _. split; auto. intros t' H. apply holds_get in H. congruence.
    + congruence.
    + intros n t' H. apply holds_get in H. unfold getType. rewrite get_app. now rewrite H.
    + intros _ _. unfold getType. now rewrite get_app, G, name_eqb_refl.
    + split; [discriminate|]. intros (_ & t' & H & _). apply holds_get in H. congruence.
  - rewrite E. split; [|split; [|split; [|split]]]; auto.
    + split.
      * intros S. assert (AD : admissible (tname t)).
        { destruct (existsb (name_eqb (toLowerCase (tname t))) reservedTypeNames) eqn:R.
          - exfalso. assert (~ admissible (tname t)) by (apply reserved_iff in R; unfold admissible; tauto). destruct (N H). congruence.
          - destruct (validateTypeName (tname t)) eqn:V.
            + split; [now apply identifier_iff|]. rewrite <- reserved_iff. congruence.
            + exfalso. assert (~ admissible (tname t)) by (unfold admissible; rewrite <- identifier_iff, V; intros [? ?]; discriminate). destruct (N H). congruence. }
        split; auto. intros t' H. apply holds_get in H. destruct (A AD) as (t2 & G & S2). replace t' with t2 in * by congruence.
        apply EQ; auto. destruct (ty_equal t2 t); congruence.
      * intros [AD H]. destruct (A AD) as (t2 & G & S2). rewrite S2. assert (ST : same_type t2 t) by (apply H; now apply holds_get). apply EQ in ST; auto. now rewrite ST.
    + intros n t' H. now apply holds_get in H.
    + intros AD NO. destruct (A AD) as (t2 & G & _). exfalso. apply (NO t2). now apply holds_get.
    + split.
      * intros S. assert (AD : admissible (tname t)).
        { destruct (existsb (name_eqb (toLowerCase (tname t))) reservedTypeNames) eqn:R.
          - exfalso. assert (~ admissible (tname t)) by (apply reserved_iff in R; unfold admissible; tauto). destruct (N H). congruence.
          - destruct (validateTypeName (tname t)) eqn:V.
            + split; [now apply identifier_iff|]. rewrite <- reserved_iff. congruence.
            + exfalso. assert (~ admissible (tname t)) by (unfold admissible; rewrite <- identifier_iff, V; intros [? ?]; discriminate). destruct (N H). congruence. }
        split; auto. destruct (A AD) as (t2 & G & S2). exists t2. split; [now apply holds_get|]. rewrite <- EQ by auto. destruct (ty_equal t2 t); congruence.
      * intros (AD & t' & H & D). apply holds_get in H. destruct (A AD) as (t2 & G & S2). replace t' with t2 in * by congruence. rewrite S2.
        destruct (ty_equal t2 t) eqn:Q; auto. apply EQ in Q; auto. tauto.
Qed.

(** Removing takes the type away, exactly when it was there, and no other. *)
Theorem c33_remove : forall h n,
  let r := removeType n (after h) in
  (snd r = Success <-> exists t, holds h n t)
  /\ getType n (fst r) = None
  /\ (forall k, k <> n -> getType k (fst r) = getType k (after h)).
Proof.
  intros h n r. subst r. unfold removeType, getType. destruct (get n (after h)) as [t|] eqn:G; cbn [fst snd].
  - split; [|split].
    + split; auto. intros _. exists t. now apply holds_get.
    + now rewrite get_filter, name_eqb_refl.
    + intros k K. rewrite get_filter. destruct (name_eqb_spec n k); congruence.
  - split; [|split; auto]. split; [discriminate|]. intros (t & H). apply holds_get in H. congruence.
Qed.

(** An accepted type stays, unchanged, until its name is removed, whatever else
    happens. *)
Theorem c33_stays : forall h h' n t,
  getType n (after h) = Some t -> (forall o, In o h' -> o <> RemoveType n) -> getType n (after (h' ++ h)) = Some t.
Proof.
  intros h h' n t H. induction h' as [|o h' IH]; intros NR; cbn [app]; auto. apply c33_lookup. assert (I : holds (h' ++ h) n t).
  { apply c33_lookup. apply IH. intros o' I. apply NR. now right. }
  destruct o as [x|k]; cbn [holds]; [now left|]. split; auto. intros ->. apply (NR (RemoveType n)); auto. now left.
Qed.

(** Names of built-in types are refused in every spelling of their letters. *)
Theorem c33_builtin_refused : forall h t b, In b builtin -> Forall2 same_letter (bytes b) (tname t) ->
  snd (addType t (after h)) <> Success /\ fst (addType t (after h)) = after h.
Proof.
  intros h t b I F. destruct (c33_add h t) as (S & U & _). cbv zeta in S, U.
  assert (NS : snd (addType t (after h)) <> Success) by (rewrite S; intros ([_ NR] & _); apply NR; now exists b). auto.
Qed.

(** Two spellings of an ordinary name are two names. *)
Example c33_case_sensitive :
  let t := {| tname := bytes "Gain"; tbody := Plain 1 |} in let t' := {| tname := bytes "gain"; tbody := Plain 2 |} in
  getTypes (after [AddType t'; AddType t]) = [bytes "Gain"; bytes "gain"].
Proof. reflexivity. Qed.

Example c33_ex :
  let t := {| tname := bytes "Coord"; tbody := Plain 1 |} in let t' := {| tname := bytes "Coord"; tbody := Plain 2 |} in
  let h := [AddType t] in
  holds h (bytes "Coord") t /\ snd (addType t' (after h)) = AlreadyExists /\ snd (addType t (after h)) = Success
  /\ snd (addType {| tname := bytes "RANGE"; tbody := Plain 1 |} (after h)) = Reserved
  /\ snd (addType {| tname := bytes "1x"; tbody := Plain 1 |} (after h)) = ValidateFailed
  /\ getType (bytes "Coord") (after [AddType t'; RemoveType (bytes "Coord"); AddType t]) = Some t'.
Proof. cbv zeta. split; [apply c33_lookup; reflexivity|]. repeat split. Qed.

(** ** C41 *)

(** The property found is the nearest definition; a property without
    definition is reported as not found. *)
Theorem c41_get_property_partial : forall m c n, well_formed m -> distinct_props c -> complete m c ->
  (forall p, offers m c n p -> eventually (fun d => getProperty d m c n) (Found p) /\ eventually (fun d => hasProperty d m c n) (Found true))
  /\ ((forall p, ~ offers m c n p) -> eventually (fun d => getProperty d m c n) (Fails NotFound) /\ eventually (fun d => hasProperty d m c n) (Found false))
  /\ (forall d p, getProperty d m c n = Found p -> offers m c n p).
Proof.
  intros m c n W D C. split; [|split].
  - intros p O. destruct (getProperty_complete m c n p W D O) as (d & K). split; exists d; auto.
    intros d' L. rewrite hasProperty_get by auto. now rewrite K.
  - intros NO. destruct (getProperty_missing m c n W D C NO) as (d & K). split; exists d; auto.
    intros d' L. rewrite hasProperty_get by auto. now rewrite K.
  - intros d p. now apply getProperty_sound.
Qed.

(** A class offers at most one definition under a name. *)
Theorem c41_one_definition : forall m c n p q, well_formed m -> distinct_props c -> offers m c n p -> offers m c n q -> p = q.
Proof. exact offers_fun. Qed.

(** The list names exactly the properties offered, contains each definition
    offered, and with a custom order contains nothing else and each name once. *)
Theorem c41_list_partial : forall m c, well_formed m -> distinct_props c -> complete m c ->
  exists l, eventually (fun d => getProperties d m c) (Found l)
    /\ (forall n, In n (map fst l) <-> exists p, offers m c n p)
    /\ (forall n p, offers m c n p -> In (n, p) l)
    /\ (order c <> [] \/ NoDup (map fst l) -> NoDup (map fst l) /\ forall n p, In (n, p) l <-> offers m c n p).
Proof.
  intros m c W D C. destruct (getProperties_ok m c W D C) as (d & l & K & L & O). exists l. split; [exists d; auto|].
  assert (LI : forall n p, last_find n l = Some p -> In (n, p) l).
  { clear. induction l as [|[k q] l IH]; intros n p; cbn [last_find]; [discriminate|]. destruct (last_find n l) eqn:E.
    - intros H. inversion H; subst. right. now apply IH.
    - destruct (name_eqb_spec k n); [|discriminate]. intros H. inversion H; subst. now left. }
  split; [|split].
  - intros n. pose proof (last_find_None n l) as N. destruct (last_find n l) as [p|] eqn:F.
    + split; intros _; [exists p; now apply L|]. apply LI in F. now apply (in_map fst) in F.
    + split; [tauto|]. intros (p & H). apply L in H. congruence.
  - intros n p H. apply LI. now apply L.
  - intros H. assert (N : NoDup (map fst l)) by tauto. split; auto. intros n p. rewrite <- L, last_find_nodup by auto. symmetry. now apply find_In.
Qed.

(** With a custom order the offered properties it names come first, in its
    order. *)
Theorem c41_custom_order : forall m c d l, order c <> [] -> getProperties d m c = Found l ->
  exists front rest, map fst l = front ++ rest /\ subseq front (order c)
    /\ forall n, In n front <-> In n (order c) /\ In n (map fst l).
Proof. exact properties_order. Qed.

(** When every class is registered after its parent and no class that is still
    a parent is removed, every registered class has a complete chain of
    ancestors, so the lookups above end. *)
Theorem c41_careful : forall h n t c, careful_history h -> getType n (after h) = Some t -> tbody t = Class c -> complete (after h) c.
Proof. intros h n t c H. unfold getType. now apply careful_complete. Qed.

Definition base := {| tname := bytes "Base"; tbody := Class {| obj := 1; parent := None; props := [(bytes "Rate", 1); (bytes "Gain", 2)]; order := [] |} |}.
Definition child := {| tname := bytes "Child"; tbody := Class {| obj := 2; parent := Some (bytes "Base"); props := [(bytes "Gain", 3)]; order := [] |} |}.
Definition childc := {| obj := 2; parent := Some (bytes "Base"); props := [(bytes "Gain", 3)]; order := [] |}.

(** Without a custom order a redefined property is listed twice, once with the
    definition that does not apply. *)
Theorem c41_listed_twice_refuted : exists h c l, careful_history h /\ well_formed (after h) /\ distinct_props c /\ complete (after h) c
  /\ eventually (fun d => getProperties d (after h) c) (Found l) /\ ~ NoDup (map fst l)
  /\ exists n p, In (n, p) l /\ ~ offers (after h) c n p.
Proof.
  exists [AddType child; AddType base], childc, [(bytes "Rate", 1); (bytes "Gain", 2); (bytes "Gain", 3)].
  assert (CH : careful_history [AddType child; AddType base]).
  { split; [|split; exact I]. exists base, {| obj := 1; parent := None; props := [(bytes "Rate", 1); (bytes "Gain", 2)]; order := [] |}. split; reflexivity. }
  assert (D : distinct_props childc) by (repeat constructor; intros []).
  assert (W : well_formed (after [AddType child; AddType base])).
  { intros n t c G B. unfold getType in G. apply get_In in G. change (after [AddType child; AddType base]) with [(bytes "Base", base); (bytes "Child", child)] in G.
    destruct G as [E|[E|[]]]; inversion E; subst; inversion B; subst; repeat constructor; cbn; try tauto.
    intros [H|[]]; discriminate. }
  assert (C : complete (after [AddType child; AddType base]) childc) by (apply (c41_careful _ (bytes "Child") child); auto).
  split; auto. split; auto. split; auto. split; auto. split; [|split].
  - exists 2%nat. intros [|[|d]] L; [lia|lia|]. reflexivity.
  - intros N. inversion N as [|? ? _ N2]. inversion N2 as [|? ? NI _]. apply NI. now left.
  - exists (bytes "Gain"), 2. split; [right; now left|]. intros O.
    assert (O3 : offers (after [AddType child; AddType base]) childc (bytes "Gain") 3) by (apply Own; now left).
    discriminate (c41_one_definition _ _ _ _ _ W D O O3).
Qed.

(** Removing a parent and adding it again as a child of its child makes every
    lookup of an undefined property recurse without end. *)
Definition base2 := {| tname := bytes "Base"; tbody := Class {| obj := 3; parent := Some (bytes "Child"); props := [(bytes "Rate", 1)]; order := [] |} |}.
Theorem c41_cyclic_refuted : exists h c n, well_formed (after h) /\ distinct_props c /\ (exists k t, getType k (after h) = Some t /\ tbody t = Class c)
  /\ forall d, getProperty d (after h) c n = OutOfStack /\ hasProperty d (after h) c n = OutOfStack /\ getProperties d (after h) c = OutOfStack.
Proof.
  exists [AddType base2; RemoveType (bytes "Base"); AddType child; AddType base], childc, (bytes "Offset").
  change (after [AddType base2; RemoveType (bytes "Base"); AddType child; AddType base]) with [(bytes "Child", child); (bytes "Base", base2)].
  split; [|split; [|split]].
  - intros n t c G B. apply get_In in G. destruct G as [E|[E|[]]]; inversion E; subst; inversion B; subst; repeat constructor; intros [].
  - repeat constructor; intros [].
  - exists (bytes "Child"), child. split; reflexivity.
  - set (m := [(bytes "Child", child); (bytes "Base", base2)]).
    set (b := {| obj := 3; parent := Some (bytes "Child"); props := [(bytes "Rate", 1)]; order := [] |}).
    assert (K : forall d, (getProperty d m childc (bytes "Offset") = OutOfStack /\ hasProperty d m childc (bytes "Offset") = OutOfStack /\ getProperties d m childc = OutOfStack)
              /\ (getProperty d m b (bytes "Offset") = OutOfStack /\ hasProperty d m b (bytes "Offset") = OutOfStack /\ getProperties d m b = OutOfStack)).
    { induction d as [|d [(A1 & A2 & A3) (B1 & B2 & B3)]]; [repeat split|]. split; (split; [|split]).
      - change (getProperty (S d) m childc (bytes "Offset")) with (getProperty d m b (bytes "Offset")). exact B1.
      - change (hasProperty (S d) m childc (bytes "Offset")) with (hasProperty d m b (bytes "Offset")). exact B2.
      - cbn [getProperties]. change (get (bytes "Base") m) with (Some base2). cbn [childc parent]. change (get (bytes "Base") m) with (Some base2). cbn [base2 tbody]. fold b. now rewrite B3.
      - change (getProperty (S d) m b (bytes "Offset")) with (getProperty d m childc (bytes "Offset")). exact A1.
      - change (hasProperty (S d) m b (bytes "Offset")) with (hasProperty d m childc (bytes "Offset")). exact A2.
      - cbn [getProperties b parent]. change (get (bytes "Child") m) with (Some child). cbn [child tbody]. fold childc. now rewrite A3. }
    intros d. apply K.
Qed.

(** A class whose parent is not registered is accepted, and its property list
    and its hasProperty then fail. *)
Theorem c41_missing_parent_refuted : exists h c n, (exists k t, getType k (after h) = Some t /\ tbody t = Class c)
  /\ forall d, (1 <= d)%nat -> hasProperty d (after h) c n = Fails NotFound /\ getProperties d (after h) c = Fails NotFound.
Proof.
  exists [AddType child], childc, (bytes "Rate"). split; [exists (bytes "Child"), child; split; reflexivity|].
  intros [|d] L; [lia|]. split; reflexivity.
Qed.

(** hypotheses of [c41_get_property_partial]: an inherited, a redefined and an
    undefined property; with a custom order the redefined one is listed once *)
Example c41_ex :
  let m := after [AddType child; AddType base] in
  let c := {| obj := 2; parent := Some (bytes "Base"); props := [(bytes "Gain", 3)]; order := [bytes "Gain"] |} in
  getProperty 2 m childc (bytes "Rate") = Found 1 /\ getProperty 2 m childc (bytes "Gain") = Found 3
  /\ getProperty 2 m childc (bytes "Offset") = Fails NotFound
  /\ getProperties 2 m c = Found [(bytes "Gain", 3); (bytes "Rate", 1)]
  /\ complete m c /\ distinct_props c /\ offers m c (bytes "Rate") 1.
Proof.
  cbv zeta. split; [reflexivity|]. split; [reflexivity|]. split; [reflexivity|]. split; [reflexivity|].
  assert (PC : parent_class (after [AddType child; AddType base]) {| obj := 2; parent := Some (bytes "Base"); props := [(bytes "Gain", 3)]; order := [bytes "Gain"] |}
           {| obj := 1; parent := None; props := [(bytes "Rate", 1); (bytes "Gain", 2)]; order := [] |}) by (exists (bytes "Base"), base; repeat split).
  split; [eapply Child; [exact PC|now apply Root]|]. split; [repeat constructor; intros []|].
  eapply Inherited; [|exact PC|apply Own; now left]. intros q [E|[]]. discriminate.
Qed.

Print Assumptions c33_lookup.
Print Assumptions c33_one_type_per_name.
Print Assumptions c33_add.
Print Assumptions c33_remove.
Print Assumptions c33_stays.
Print Assumptions c33_builtin_refused.
Print Assumptions c41_get_property_partial.
Print Assumptions c41_one_definition.
Print Assumptions c41_list_partial.
Print Assumptions c41_custom_order.
Print Assumptions c41_careful.
Print Assumptions c41_listed_twice_refuted.
Print Assumptions c41_cyclic_refuted.
Print Assumptions c41_missing_parent_refuted.
