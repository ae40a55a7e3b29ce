(** C56: structs always have the shape of their type, and enumerations a value
    of theirs. *)
From Coq Require Import String.
From Verif Require Import Base Strc_Model Strc_Spec Strc_Proofs Strc_Steps Strc_Create.
From Verif Require Types_Spec Types_Proofs.
Local Open Scope Z_scope.

Definition nm (s : string) : name := bytes s.

(** ** Structs *)

(** Whatever was done before, a struct has exactly the fields of its type, and
    every value is null, the default value of the field, or suits the type of
    the field.  Partial: enumerations of another type suit too, and defaults
    are never checked (see the refutations). *)
Theorem c56_struct_fits_its_type_partial : forall h i t es,
  shown (run start h) i = Some (t, es) -> conforms nearly_fits t es.
Proof.
  intros h i t es H. exact (proj1 (proj2 (proj2 (shown_good _ _ _ _ (run_good h) H)))).
Qed.

(** Nothing that happens later changes what a struct shows: neither the
    dictionary it was made from, nor the builder, nor the type manager. *)
Theorem c56_struct_never_changes : forall h h' i t es,
  shown (run start h) i = Some (t, es) -> shown (run start (h ++ h')) i = Some (t, es).
Proof.
  intros h h' i t es H. rewrite run_app.
  exact (shown_kept _ _ _ _ _ (run_good h) (proj2 (run_good_from h' _ (run_good h))) H).
Qed.

(** With default values that suit their fields there is no exception. *)
Theorem c56_fitting_defaults : forall h i t es,
  (forall u, In u (tys (run start h)) -> sound_defaults u) ->
  shown (run start h) i = Some (t, es) ->
  exists n ns ts ds, t = TStruct n ns ts ds /\ (forall k, In k (keys es) <-> In k ns) /\
    forall j k tj v, nth_error ns j = Some k -> nth_error ts j = Some tj -> In (k, v) es -> nearly_fits tj v.
Proof.
  intros h i t es SD H. destruct (shown_good _ _ _ _ (run_good h) H) as [_ [O [C _]]].
  destruct C as [n [ns [ts [ds [-> [_ [_ [K C]]]]]]]]. exists n, ns, ts, ds. split; [reflexivity|]. split; [exact K|].
  intros j k tj v Hn Ht Hv. destruct (C j k tj v Hn Ht Hv) as [G|G]; [exact G|].
  destruct O as [O|[a [b [c O]]]].
  - exact (SD _ O j tj v Ht G).
  - injection O as _ _ _ ->. destruct G as [l [G _]]. discriminate.
Qed.

(** The values of the fields are values somebody made. *)
Theorem c56_values_were_made : forall h i t es k v,
  shown (run start h) i = Some (t, es) -> In (k, v) es -> made (run start h) v.
Proof.
  intros h i t es k v H K. exact (proj2 (proj2 (proj2 (proj2 (shown_good _ _ _ _ (run_good h) H)))) k v K).
Qed.

(** hasField and get tell the fields and their values; an unknown name is no
    error. *)
Theorem c56_field_access : forall h i t es,
  shown (run start h) i = Some (t, es) ->
  (forall k v, In (k, v) es <-> (hasField (run start h) i k = Some true /\ getField (run start h) i k = Some v)) /\
  (forall k, ~ In k (keys es) -> hasField (run start h) i k = Some false /\ getField (run start h) i k = Some VNull).
Proof. intros h i t es H. exact (field_access _ _ _ _ (run_good h) H). Qed.

(** ** Creation *)

Theorem c56_creation_of_known_type : forall h n d es n' ns ts ds,
  registered (run start h) n (TStruct n' ns ts ds) -> NoDup ns ->
  contents (run start h) d false es -> incl (keys es) ns ->
  (forall j k tj v, nth_error ns j = Some k -> nth_error ts j = Some tj -> In (k, v) es -> suits tj v) ->
  exists es', snd (step (run start h) (NewStruct n (Some d))) = Ok tt /\
    shown (fst (step (run start h) (NewStruct n (Some d)))) (length (structs (run start h))) = Some (TStruct n' ns ts ds, es') /\
    (forall e, In e es -> In e es') /\
    (forall j k v, nth_error ns j = Some k -> ~ In k (keys es) -> left_out ds j v -> In (k, v) es').
Proof. intros h n d es n' ns ts ds R NN C K HS. exact (create_registered _ _ _ _ _ _ _ _ (run_good h) R NN C K HS). Qed.

Theorem c56_creation_without_values : forall h n n' ns ts ds,
  registered (run start h) n (TStruct n' ns ts ds) -> NoDup ns ->
  exists es', snd (step (run start h) (NewStruct n None)) = Ok tt /\
    shown (fst (step (run start h) (NewStruct n None))) (length (structs (run start h))) = Some (TStruct n' ns ts ds, es') /\
    (forall j k v, nth_error ns j = Some k -> left_out ds j v -> In (k, v) es').
Proof. intros h n n' ns ts ds R NN. exact (create_empty _ _ _ _ _ _ (run_good h) R NN). Qed.

(** Under a name nobody registered the values tell the type, which is then
    registered. *)
Theorem c56_creation_of_unknown_type : forall h n d es,
  (forall t, ~ registered (run start h) n t) -> Types_Spec.admissible n ->
  contents (run start h) d false es -> Forall Types_Spec.identifier (keys es) ->
  (forall k v, In (k, v) es -> ~ In (kind v) [CProc; CObject; CBinary; CFunc]) ->
  exists ts, Forall2 (fun e t => inferred (snd e) t) es ts /\
    snd (step (run start h) (NewStruct n (Some d))) = Ok tt /\
    shown (fst (step (run start h) (NewStruct n (Some d)))) (length (structs (run start h)))
      = Some (TStruct n (keys es) ts None, es) /\
    registered (fst (step (run start h) (NewStruct n (Some d)))) n (TStruct n (keys es) ts None).
Proof. intros h n d es R A C IK HK. exact (create_inferred _ _ _ _ (run_good h) R A C IK HK). Qed.

(** A creation that fails makes no struct and registers no type. *)
Theorem c56_failed_creation : forall h n d,
  snd (step (run start h) (NewStruct n d)) <> Ok tt ->
  structs (fst (step (run start h) (NewStruct n d))) = structs (run start h) /\
  mgr (fst (step (run start h) (NewStruct n d))) = mgr (run start h).
Proof. intros h n d. apply failed_creation. Qed.

(** ** Builders *)

Theorem c56_new_builder : forall h n n' ns ts ds,
  registered (run start h) n (TStruct n' ns ts ds) -> NoDup ns ->
  snd (step (run start h) (NewBuilder n)) = Ok tt /\
  exists d es, builder (fst (step (run start h) (NewBuilder n))) (length (builders (run start h))) (TStruct n' ns ts ds) d /\
    contents (fst (step (run start h) (NewBuilder n))) d false es /\
    (forall k, In k (keys es) <-> In k ns) /\
    forall j k v, nth_error ns j = Some k -> left_out ds j v -> In (k, v) es.
Proof. intros h n n' ns ts ds R NN. exact (new_builder_ok _ _ _ _ _ _ (run_good h) R NN). Qed.

(** A builder takes only null and values of the type of the field, and changes
    that field alone. *)
Theorem c56_builder_set : forall h b n r v,
  ref (run start h) r = Some v -> snd (step (run start h) (BuilderSet b n r)) = Ok tt ->
  exists n' ns ts ds d es, builder (run start h) b (TStruct n' ns ts ds) d /\ contents (run start h) d false es /\
    In n (keys es) /\
    (v = VNull \/ forall j t, nth_error ns j = Some n -> nth_error ts j = Some t -> exists u, typed v u /\ same_ty u t) /\
    exists es', contents (fst (step (run start h) (BuilderSet b n r))) d false es' /\ keys es' = keys es /\
      forall k w, In (k, w) es' <-> (k = n /\ w = v) \/ (k <> n /\ In (k, w) es).
Proof. intros h b n r v R H. exact (builder_set_ok _ _ _ _ _ (run_good h) R H). Qed.

(** What is built has the values of the builder. *)
Theorem c56_build : forall h b t d es fz,
  builder (run start h) b t d -> contents (run start h) d fz es -> snd (step (run start h) (Build b)) = Ok tt ->
  exists es', shown (fst (step (run start h) (Build b))) (length (structs (run start h))) = Some (t, es') /\
    (forall e, In e es -> In e es') /\ contents (fst (step (run start h) (Build b))) d true es'.
Proof. intros h b t d es fz B C H. exact (build_ok _ _ _ _ _ _ (run_good h) B C H). Qed.

(** ** Enumerations *)

(** The value of an enumeration is always one of its type, with one number. *)
Theorem c56_enumeration_value : forall h n es v,
  In (VEnum n es v) (vals (run start h)) ->
  NoDup (keys es) /\ exists z, In (v, z) es /\ getIntValue (VEnum n es v) = Ok z.
Proof. intros h n es v H. exact (enum_value _ _ _ _ (run_good h) H). Qed.

Theorem c56_enumeration_by_name : forall h i n es k,
  nth_error (tys (run start h)) i = Some (TEnum n es) ->
  (In k (keys es) -> snd (step (run start h) (NewEnumOfType i (AName k))) = Ok tt /\
                     vals (fst (step (run start h) (NewEnumOfType i (AName k)))) = vals (run start h) ++ [VEnum n es k]) /\
  (~ In k (keys es) -> step (run start h) (NewEnumOfType i (AName k)) = (run start h, Fails InvalidParameter)).
Proof.
  intros h i n es k E. destruct (enum_by_name _ _ _ _ k E) as [A B]. split; [|exact B].
  intros H. rewrite (A H). split; reflexivity.
Qed.

(** By number: the first enumerator that has it. *)
Theorem c56_enumeration_by_number : forall h i n es z,
  nth_error (tys (run start h)) i = Some (TEnum n es) ->
  (forall k, first_with es z k ->
     snd (step (run start h) (NewEnumOfType i (AInt z))) = Ok tt /\
     vals (fst (step (run start h) (NewEnumOfType i (AInt z)))) = vals (run start h) ++ [VEnum n es k]) /\
  (~ In z (map snd es) -> step (run start h) (NewEnumOfType i (AInt z)) = (run start h, Fails InvalidParameter)).
Proof.
  intros h i n es z E. destruct (enum_by_number _ _ _ _ z E) as [A B]. split; [|exact B].
  intros k H. rewrite (A k H). split; reflexivity.
Qed.

(** Enumerators without numbers are counted from the first one on. *)
Theorem c56_enumerators_are_counted : forall h n ns z,
  ns <> [] -> NoDup ns -> - 2 ^ 63 <= z -> z + Z.of_nat (length ns) < 2 ^ 63 ->
  snd (step (run start h) (NewEnumType n ns z)) = Ok tt /\
  tys (fst (step (run start h) (NewEnumType n ns z))) = tys (run start h) ++ [TEnum n (counted ns z)].
Proof.
  intros h n ns z E N A B. rewrite (enum_numbered _ _ _ _ E N A B). split; reflexivity.
Qed.
Theorem c56_enumerators_are_distinct : forall h n ns z,
  snd (step (run start h) (NewEnumType n ns z)) = Ok tt -> NoDup ns /\ ns <> [].
Proof. intros h n ns z. apply enum_duplicate. Qed.

(** ** Equality *)

Theorem c56_equal_types : forall h a b,
  In a (tys (run start h)) -> In b (tys (run start h)) -> ty_eq false a b = Some true -> same_ty a b.
Proof.
  intros h a b A B H. exact (ty_eq_sound _ _ _ (tys_made _ _ (run_good h) A) (tys_made _ _ (run_good h) B) H).
Qed.
Theorem c56_equal_values : forall h a b,
  In a (vals (run start h)) -> In b (vals (run start h)) -> val_eq false a b = Some true -> same_val a b.
Proof.
  intros h a b A B H.
  exact (val_eq_sound _ _ _ (from_made _ _ (run_good h) (or_intror A)) (from_made _ _ (run_good h) (or_intror B)) H).
Qed.
Theorem c56_equal_to_itself : forall h,
  (forall a, In a (tys (run start h)) -> ty_eq false a a = Some true) /\
  (forall v, In v (vals (run start h)) -> v <> VNull -> val_eq false v v = Some true).
Proof.
  intros h. split.
  - intros a A. exact (ty_eq_refl _ _ (tys_made _ _ (run_good h) A)).
  - intros v A D. exact (proj2 eq_refl_both v D (from_made _ _ (run_good h) (or_intror A)) false).
Qed.

(** ** Cases *)

(** a struct with an integer, a text with a default and an inner struct *)
Definition demo : list op :=
  [ NewSimple CInt; NewSimple CString;
    NewAtom CInt 3; NewAtom CString 10;
    NewStructType (nm "Point") [nm "x"; nm "y"] [0; 0]%nat None; AddType 2;
    NewStructType (nm "Mark") [nm "label"; nm "at"] [1; 2]%nat (Some [Some 1%nat; None]); AddType 3;
    NewDict; DictSet 0 (nm "x") (Some 0%nat); NewStruct (nm "Point") (Some 0%nat); UseStruct 0;
    NewDict; DictSet 1 (nm "at") (Some 2%nat) ].
Definition after_demo : st := Eval vm_compute in run start demo.
Lemma after_demo_is : run start demo = after_demo.
Proof. vm_compute. reflexivity. Qed.
Definition point : ty := TStruct (nm "Point") [nm "x"; nm "y"] [TSimple CInt; TSimple CInt] None.
Definition a_point : val := VRec point [(nm "x", VAtom CInt 3); (nm "y", VNull)].
Definition mark : ty := TStruct (nm "Mark") [nm "label"; nm "at"] [TSimple CString; point] (Some [VAtom CString 10; VNull]).

Example c56_creation_of_known_type_met :
  registered (run start demo) (nm "Mark") mark /\ contents (run start demo) 1 false [(nm "at", a_point)] /\
  shown (fst (step (run start demo) (NewStruct (nm "Mark") (Some 1%nat)))) 1
    = Some (mark, [(nm "at", a_point); (nm "label", VAtom CString 10)]).
Proof.
  rewrite after_demo_is. split; [|split].
  - right. left. vm_compute. reflexivity.
  - vm_compute. reflexivity.
  - vm_compute. reflexivity.
Qed.
Example c56_defaults_met : forall u, In u (tys (run start demo)) -> sound_defaults u.
Proof.
  rewrite after_demo_is. intros u H.
  assert (E : tys after_demo = [TSimple CInt; TSimple CString; point; mark]) by (vm_compute; reflexivity).
  rewrite E in H. destruct H as [<-|[<-|[<-|[<-|[]]]]]; cbn [sound_defaults point mark]; auto.
  - intros j tj v _ [l [X _]]. discriminate.
  - intros [|[|j]] tj v Ht [l [X Hv]]; injection X as <-; cbn [nth_error] in Ht, Hv.
    + injection Ht as <-. injection Hv as <-. right. right. reflexivity.
    + injection Ht as <-. injection Hv as <-. left. reflexivity.
    + destruct j; discriminate.
Qed.
(** the dictionary of the struct is locked for good *)
Example c56_never_changes_met :
  snd (step (run start demo) (DictSet 0 (nm "x") None)) = Fails Frozen /\
  shown (run start (demo ++ [DictSet 0 (nm "x") None; DictClear 0; RemoveType (nm "Point")])) 0
    = Some (point, [(nm "x", VAtom CInt 3); (nm "y", VNull)]).
Proof. split; vm_compute; reflexivity. Qed.
Example c56_unknown_type_met :
  (forall t, ~ registered (run start demo) (nm "Other") t) /\
  snd (step (run start demo) (NewStruct (nm "Other") (Some 1%nat))) = Ok tt /\
  shown (fst (step (run start demo) (NewStruct (nm "Other") (Some 1%nat)))) 1
    = Some (TStruct (nm "Other") [nm "at"] [point] None, [(nm "at", a_point)]).
Proof.
  rewrite after_demo_is. split; [|split; vm_compute; reflexivity].
  assert (E : mgr after_demo = [(nm "Point", point); (nm "Mark", mark)]) by (vm_compute; reflexivity).
  intros t H. unfold registered in H. rewrite E in H. destruct H as [H|[H|[]]]; discriminate.
Qed.
Example c56_failed_creation_met :
  snd (step (run start demo) (NewStruct (nm "Point") (Some 1%nat))) = Fails InvalidParameter.
Proof. vm_compute. reflexivity. Qed.
Example c56_builder_met :
  snd (step (run start (demo ++ [NewBuilder (nm "Mark")])) (BuilderSet 0 (nm "at") (Some 2%nat))) = Ok tt /\
  shown (run start (demo ++ [NewBuilder (nm "Mark"); BuilderSet 0 (nm "at") (Some 2%nat); Build 0])) 1
    = Some (mark, [(nm "label", VAtom CString 10); (nm "at", a_point)]).
Proof. split; vm_compute; reflexivity. Qed.
Definition colours : list op :=
  [ NewEnumType (nm "Colour") [nm "red"; nm "green"] 5; AddType 0; NewEnumOfType 0 (AName (nm "green")); NewEnum (nm "Colour") (AInt 5) ].
Example c56_enumeration_met :
  vals (run start colours) = [VEnum (nm "Colour") [(nm "red", 5); (nm "green", 6)] (nm "green");
                              VEnum (nm "Colour") [(nm "red", 5); (nm "green", 6)] (nm "red")].
Proof. vm_compute. reflexivity. Qed.
Example c56_equal_met :
  exists a b, In a (tys (run start (demo ++ [NewStructType (nm "Point") [nm "x"; nm "y"] [0; 0]%nat None]))) /\
    In b (tys (run start (demo ++ [NewStructType (nm "Point") [nm "x"; nm "y"] [0; 1]%nat None]))) /\
    ty_eq false point a = Some true /\ ty_eq false point b = Some false.
Proof.
  exists point, (TStruct (nm "Point") [nm "x"; nm "y"] [TSimple CInt; TSimple CString] None).
  split; [vm_compute; do 4 right; left; reflexivity|]. split; [vm_compute; do 4 right; left; reflexivity|].
  split; vm_compute; reflexivity.
Qed.

(** ** What does not hold *)

(** A field of an enumeration type takes an enumeration of another type. *)
Theorem c56_enumeration_field_refuted :
  exists h i t es, shown (run start h) i = Some (t, es) /\ ~ conforms fits t es.
Proof.
  exists [ NewEnumType (nm "Colour") [nm "red"] 0; NewEnumType (nm "Mode") [nm "on"] 0;
           NewStructType (nm "S") [nm "c"] [0%nat] None; AddType 2; NewEnumOfType 1 (AName (nm "on"));
           NewDict; DictSet 0 (nm "c") (Some 0%nat); NewStruct (nm "S") (Some 0%nat) ], 0%nat,
    (TStruct (nm "S") [nm "c"] [TEnum (nm "Colour") [(nm "red", 0)]] None), [(nm "c", VEnum (nm "Mode") [(nm "on", 0)] (nm "on"))].
  split; [vm_compute; reflexivity|]. intros [n [ns [ts [ds [E [_ [_ [_ C]]]]]]]]. injection E as <- <- <- <-.
  specialize (C 0%nat (nm "c") (TEnum (nm "Colour") [(nm "red", 0)]) (VEnum (nm "Mode") [(nm "on", 0)] (nm "on"))
    eq_refl eq_refl (or_introl eq_refl)).
  destruct C as [[C|[es' [w [C _]]]]|[l [C _]]]; discriminate.
Qed.

(** A default value is taken without being checked. *)
Theorem c56_default_values_refuted :
  exists h i n ns ts ds es, shown (run start h) i = Some (TStruct n ns ts ds, es) /\
    exists tj k v, nth_error ns 0 = Some k /\ nth_error ts 0 = Some tj /\ In (k, v) es /\ ~ nearly_fits tj v.
Proof.
  exists [ NewSimple CInt; NewAtom CString 5; NewStructType (nm "S") [nm "a"] [0%nat] (Some [Some 0%nat]); AddType 1;
           NewStruct (nm "S") None ], 0%nat, (nm "S"), [nm "a"], [TSimple CInt], (Some [VAtom CString 5]), [(nm "a", VAtom CString 5)].
  split; [vm_compute; reflexivity|]. exists (TSimple CInt), (nm "a"), (VAtom CString 5).
  split; [reflexivity|]. split; [reflexivity|]. split; [left; reflexivity|].
  intros [H|[H|H]]; discriminate.
Qed.

(** the type S { a : int = 7 } and a builder for it *)
Definition seven : list op :=
  [ NewSimple CInt; NewAtom CInt 7; NewStructType (nm "S") [nm "a"] [0%nat] (Some [Some 0%nat]); AddType 1; NewBuilder (nm "S") ].

(** Setting a field of a builder to null does not bring the default back. *)
Theorem c56_builder_null_refuted :
  exists h b n i v, snd (step (run start h) (BuilderSet b n None)) = Ok tt /\
    getField (run start (h ++ [BuilderSet b n None; Build b])) i n = Some VNull /\
    registered (run start h) (nm "S") (TStruct (nm "S") [n] [TSimple CInt] (Some [v])) /\ v <> VNull.
Proof.
  exists seven, 0%nat, (nm "a"), 0%nat, (VAtom CInt 7). split; [vm_compute; reflexivity|]. split; [vm_compute; reflexivity|].
  split; [left; vm_compute; reflexivity | discriminate].
Qed.

(** After build the builder is locked, and set throws out of the function. *)
Theorem c56_builder_after_build_refuted :
  exists h b n, snd (step (run start h) (BuilderSet b n (Some 0%nat))) = Ok tt /\
    snd (step (run start (h ++ [Build b])) (BuilderSet b n (Some 0%nat))) = Escapes Frozen.
Proof. exists seven, 0%nat, (nm "a"). split; vm_compute; reflexivity. Qed.

(** Setting all the values works with texts only. *)
Theorem c56_set_values_refuted :
  exists h b n, snd (step (run start h) (BuilderSet b n (Some 0%nat))) = Ok tt /\
    snd (step (run start h) (BuilderSetValues b [Some 0%nat])) = Escapes NoInterface.
Proof. exists seven, 0%nat, (nm "a"). split; vm_compute; reflexivity. Qed.

(** The builder refuses a value the constructor takes. *)
Theorem c56_builder_is_stricter_refuted :
  exists h n d b v, snd (step (run start h) (DictSet d (nm "r") (Some v))) = Ok tt /\
    snd (step (run start (h ++ [DictSet d (nm "r") (Some v)])) (NewStruct n (Some d))) = Ok tt /\
    snd (step (run start h) (BuilderSet b (nm "r") (Some v))) = Fails InvalidParameter.
Proof.
  exists [ NewSimple CInt; NewSimple CRatio; NewStructType (nm "Ratio") [nm "Num"; nm "Den"] [0; 0]%nat None; NewBuiltin CRatio 2 0;
           NewStructType (nm "S") [nm "r"] [1%nat] None; AddType 3; NewDict; NewBuilder (nm "S") ], (nm "S"), 0%nat, 0%nat, 0%nat.
  repeat split; vm_compute; reflexivity.
Qed.

(** A creation that fails leaves default values in the caller's dictionary. *)
Theorem c56_failed_creation_changes_dictionary_refuted :
  exists h n d es es', contents (run start h) d false es /\ snd (step (run start h) (NewStruct n (Some d))) = Fails InvalidParameter /\
    contents (fst (step (run start h) (NewStruct n (Some d)))) d false es' /\ es <> es'.
Proof.
  exists [ NewSimple CInt; NewAtom CInt 7; NewAtom CString 1;
           NewStructType (nm "S") [nm "a"; nm "b"] [0; 0]%nat (Some [Some 0%nat; Some 0%nat]); AddType 1;
           NewDict; DictSet 0 (nm "b") (Some 1%nat) ], (nm "S"), 0%nat, [(nm "b", VAtom CString 1)],
    [(nm "b", VAtom CString 1); (nm "a", VAtom CInt 7)].
  split; [vm_compute; reflexivity|]. split; [vm_compute; reflexivity|]. split; [vm_compute; reflexivity | discriminate].
Qed.

(** Two structs of one type with the same values are different when the values
    were given in another order. *)
Theorem c56_equality_order_refuted :
  exists h t es es', shown (run start h) 0 = Some (t, es) /\ shown (run start h) 1 = Some (t, es') /\
    incl es es' /\ incl es' es /\ val_eq false (VRec t es) (VRec t es') = Some false.
Proof.
  exists [ NewSimple CInt; NewAtom CInt 1; NewAtom CInt 2; NewStructType (nm "Point") [nm "x"; nm "y"] [0; 0]%nat None; AddType 1;
           NewDict; DictSet 0 (nm "x") (Some 0%nat); DictSet 0 (nm "y") (Some 1%nat); NewStruct (nm "Point") (Some 0%nat);
           NewDict; DictSet 1 (nm "y") (Some 1%nat); DictSet 1 (nm "x") (Some 0%nat); NewStruct (nm "Point") (Some 1%nat) ],
    point, [(nm "x", VAtom CInt 1); (nm "y", VAtom CInt 2)], [(nm "y", VAtom CInt 2); (nm "x", VAtom CInt 1)].
  split; [vm_compute; reflexivity|]. split; [vm_compute; reflexivity|].
  split; [intros e [<-|[<-|[]]]; [right; left | left]; reflexivity|].
  split; [intros e [<-|[<-|[]]]; [right; left | left]; reflexivity|]. vm_compute. reflexivity.
Qed.

(** Equality of types depends on which one is asked. *)
Theorem c56_equality_symmetry_refuted :
  exists h a b, In a (tys (run start h)) /\ In b (tys (run start h)) /\ ty_eq false a b = Some true /\ ty_eq false b a = Some false.
Proof.
  exists [NewSimple CStruct; NewStructType (nm "struct") [] [] None], (TSimple CStruct), (TStruct (nm "struct") [] [] None).
  split; [left; reflexivity|]. split; [right; left; vm_compute; reflexivity|]. split; vm_compute; reflexivity.
Qed.

(** Adding a type calls through a null pointer when one of two default values
    of the same field is null. *)
Theorem c56_null_default_refuted :
  exists h i, snd (step (run start h) (AddType i)) = Undefined.
Proof.
  exists [ NewSimple CInt; NewAtom CInt 1; NewStructType (nm "S") [nm "a"] [0%nat] (Some [Some 0%nat]);
           NewStructType (nm "S") [nm "a"] [0%nat] (Some [None]); AddType 1 ], 2%nat.
  vm_compute. reflexivity.
Qed.

(** A type with a field name twice is accepted, and no value suits both. *)
Theorem c56_duplicate_names_refuted :
  exists h i n ns ts ds, nth_error (tys (run start h)) i = Some (TStruct n ns ts ds) /\ ~ NoDup ns /\
    snd (step (run start h) (NewStruct n (Some 0%nat))) = Fails InvalidParameter /\
    snd (step (run start h) (NewStruct n (Some 1%nat))) = Fails InvalidParameter.
Proof.
  exists [ NewSimple CInt; NewSimple CString; NewAtom CInt 1; NewAtom CString 1;
           NewStructType (nm "S") [nm "a"; nm "a"] [0; 1]%nat None; AddType 2;
           NewDict; DictSet 0 (nm "a") (Some 0%nat); NewDict; DictSet 1 (nm "a") (Some 1%nat) ], 2%nat,
    (nm "S"), [nm "a"; nm "a"], [TSimple CInt; TSimple CString], None.
  split; [vm_compute; reflexivity|]. split.
  - intros N. inversion N as [|x l H _]; subst. apply H. left. reflexivity.
  - split; vm_compute; reflexivity.
Qed.

(** An enumerator with an empty name can be had from the type but not through
    the manager. *)
Theorem c56_empty_enumerator_refuted :
  exists h i n, snd (step (run start h) (NewEnumOfType i (AName []))) = Ok tt /\
    snd (step (run start h) (NewEnum n (AName []))) = Fails InvalidParameter /\
    snd (step (run start h) (NewEnum n (AInt 1))) = Ok tt.
Proof.
  exists [NewEnumTypeValues (nm "E") [([], 1)]; AddType 0], 0%nat, (nm "E"). repeat split; vm_compute; reflexivity.
Qed.

(** Counting past the largest number is undefined, also for the last one. *)
Theorem c56_enumerator_overflow_refuted :
  snd (step start (NewEnumType (nm "E") [nm "a"] (2 ^ 63 - 1))) = Undefined.
Proof. vm_compute. reflexivity. Qed.

Print Assumptions c56_struct_fits_its_type_partial.
Print Assumptions c56_struct_never_changes.
Print Assumptions c56_fitting_defaults.
Print Assumptions c56_values_were_made.
Print Assumptions c56_field_access.
Print Assumptions c56_creation_of_known_type.
Print Assumptions c56_creation_without_values.
Print Assumptions c56_creation_of_unknown_type.
Print Assumptions c56_failed_creation.
Print Assumptions c56_new_builder.
Print Assumptions c56_builder_set.
Print Assumptions c56_build.
Print Assumptions c56_enumeration_value.
Print Assumptions c56_enumeration_by_name.
Print Assumptions c56_enumeration_by_number.
Print Assumptions c56_enumerators_are_counted.
Print Assumptions c56_enumerators_are_distinct.
Print Assumptions c56_equal_types.
Print Assumptions c56_equal_values.
Print Assumptions c56_equal_to_itself.
Print Assumptions c56_enumeration_field_refuted.
Print Assumptions c56_default_values_refuted.
Print Assumptions c56_builder_null_refuted.
Print Assumptions c56_builder_after_build_refuted.
Print Assumptions c56_set_values_refuted.
Print Assumptions c56_builder_is_stricter_refuted.
Print Assumptions c56_failed_creation_changes_dictionary_refuted.
Print Assumptions c56_equality_order_refuted.
Print Assumptions c56_equality_symmetry_refuted.
Print Assumptions c56_null_default_refuted.
Print Assumptions c56_duplicate_names_refuted.
Print Assumptions c56_empty_enumerator_refuted.
Print Assumptions c56_enumerator_overflow_refuted.
