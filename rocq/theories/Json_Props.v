(** Theorems about writing core objects as JSON and reading them back. *)
From Coq Require Import String Ascii List Bool ZArith Lia.
From Verif Require Import Json_Model Json_Spec Json_Proofs.
Import ListNotations.
Open Scope Z_scope.

(** What is written can be read, and is the same object: every object whose
    strings have no zero byte and whose types are registered, nested as deeply
    as one likes.  Version 1 of the format forgets the element types of
    containers.  The registered types stay as they are. *)
Theorem c48_round_trip_partial : forall rt version tm v,
  object (fun f => rt f = f) tm v ->
  deserialize rt tm (serialize version v) = (Good (if version >? 1 then v else untyped v), tm).
Proof. intros rt version tm v O. exact (round_trip rt version tm v O). Qed.

(** The text of an interface id names that id and no other. *)
Theorem c48_id_round_trip : forall i, is_id i -> id_parse (id_text i) unknown_id = i.
Proof. intros i H. apply id_parse_text; [exact H|reflexivity]. Qed.

(** A structure of a type that is not registered gets a type made of its fields,
    and that type is registered from then on. *)
Theorem c48_unknown_type_partial : forall rt version tm n fs i j l, 1 < version ->
  unregistered tm n -> clean n -> identifier n -> ~ is_reserved n -> is_id i -> is_id j ->
  Forall clean (map fst l) -> Forall identifier (map fst l) -> NoDup (map fst l) ->
  Forall (object (fun f => rt f = f) tm) (map snd l) ->
  exists fs', Forall2 (fun p t => fst p = fst t /\ infers (snd p) (snd t)) l fs' /\
    deserialize rt tm (serialize version (VStruct n fs i j l)) =
      (Good (VStruct n fs' i j l), tm ++ [(n, TStruct n fs')]).
Proof. exact unknown_struct. Qed.

(** Whatever the text: registered types are never lost or changed, and an object
    that is returned is one a program could have made. *)
Theorem c48_read_anything : forall rt tm es, manager_ok tm ->
  (exists new, snd (deserialize rt tm es) = tm ++ new) /\ manager_ok (snd (deserialize rt tm es)) /\
  forall v, fst (deserialize rt tm es) = Good v ->
    object (fun g => g = 0 \/ exists f, g = rt f) (snd (deserialize rt tm es)) v.
Proof. exact any_sound. Qed.

(** Whatever the text: there is an answer. *)
Theorem c48_always_answers : forall rt tm es, fst (deserialize rt tm es) <> NoFuel.
Proof. exact no_fuel. Qed.

(** No null pointer is used, if every dictionary in the text has a list of
    entries and none of these is null. *)
Theorem c48_no_null_pointer_partial : forall rt tm es,
  (forall j, parse rt es = Some j -> dicts_ok j) -> fst (deserialize rt tm es) <> Crash.
Proof. exact no_crash. Qed.

(** What was read from any text can be written and read again. *)
Theorem c48_read_write_read : forall rt tm es v tm' version,
  rt 0 = 0 -> (forall f, rt (rt f) = rt f) -> manager_ok tm -> 1 < version ->
  deserialize rt tm es = (Good v, tm') -> deserialize rt tm' (serialize version v) = (Good v, tm').
Proof. exact again. Qed.

(** ---- What does not hold ---- *)
(** Strings with a zero byte come back shorter. *)
Theorem c48_zero_byte_refuted : forall rt tm version, exists s t,
  deserialize rt tm (serialize version (VStr s)) = (Good (VStr t), tm) /\ (String.length t < String.length s)%nat.
Proof.
  intros rt tm version. exists (String "a" (String zero (String "b" EmptyString))), "a"%string.
  split; [reflexivity|cbn; lia].
Qed.
(** A dictionary can come back with fewer entries. *)
Theorem c48_lost_entry_refuted : forall rt tm, exists i j k1 k2 v1 v2,
  k1 <> k2 /\
  deserialize rt tm (serialize 3 (VDict i j [(VStr k1, VInt v1); (VStr k2, VInt v2)])) = (Good (VDict i j [(VStr k1, VInt v2)]), tm).
Proof.
  intros rt tm. exists unknown_id, unknown_id, "a"%string, (String "a" (String zero EmptyString)), 1, 2.
  split; [discriminate|]. reflexivity.
Qed.
(** Version 1 forgets the element type of a list. *)
Theorem c48_version_1_refuted : forall rt tm, exists v,
  object (fun f => rt f = f) tm v /\ fst (deserialize rt tm (serialize 1 v)) <> Good v.
Proof.
  intros rt tm. exists (VList [1; 2; 3; 4; 5; 6; 7; 8; 9; 10; 11] []). split.
  - constructor; [|constructor]. exists 1, 2, 3, [4; 5; 6; 7; 8; 9; 10; 11]. cbn [length].
    repeat split; try lia. repeat (constructor; [lia|]). constructor.
  - vm_compute. intro E. discriminate.
Qed.
(** A dictionary without its entries: a null pointer is used. *)
Theorem c48_null_pointer_refuted : forall rt tm, exists es, fst (deserialize rt tm es) = Crash.
Proof. intros rt tm. exists [EObj; EKey "__type"; EStr "Dict"; EEndObj]%string. reflexivity. Qed.
(** A list without its elements, or a fraction without its denominator: an
    exception leaves the call that should return an error code. *)
Theorem c48_exception_refuted : forall rt tm,
  fst (deserialize rt tm [EObj; EKey "__type"; EStr "List"; EEndObj]%string) = Throws /\
  fst (deserialize rt tm [EObj; EKey "__type"; EStr "Ratio"; EKey "num"; EInt 1; EEndObj]%string) = Throws.
Proof. intros rt tm. split; reflexivity. Qed.
(** A complex number whose parts are written without a decimal point is read as
    zero, without an error. *)
Theorem c48_complex_integers_refuted : forall rt tm a b, exists es,
  es = [EObj; EKey "__type"; EStr "ComplexNumber"; EKey "real"; EInt a; EKey "imaginary"; EInt b; EEndObj]%string /\
  deserialize rt tm es = (Good (VComplex 0 0), tm).
Proof. intros rt tm a b. eexists. split; reflexivity. Qed.
(** A structure with a null field whose type is not registered comes back with
    another type, and that one is registered under the name. *)
Theorem c48_unknown_type_refuted : forall rt, exists v,
  object (fun f => rt f = f) [("P", TStruct "P" [("x", TSimple ctInt)])]%string v /\
  exists w, deserialize rt [] (serialize 3 v) = (Good w, [("P", TStruct "P" [("x", TSimple ctUndefined)])]%string) /\ w <> v.
Proof.
  intro rt. exists (VStruct "P" [("x", TSimple ctInt)] unknown_id unknown_id [("x", VNull)])%string. split.
  - constructor.
    + exists [], []. split; [reflexivity|intros []].
    + intros [E|[]]. discriminate.
    + apply id_like_is_id. exact unknown_like.
    + apply id_like_is_id. exact unknown_like.
    + constructor; [intros [E|[]]; discriminate|constructor].
    + constructor; [intros []|constructor].
    + intro x. cbn. tauto.
    + intros x t v [E|[]] [F|[]]. injection E as <- <-. injection F as <-. constructor.
    + constructor; constructor.
  - eexists. split; [vm_compute; reflexivity|discriminate].
Qed.

(** ---- The hypotheses are met ---- *)
Open Scope string_scope.
Definition ex_tm : manager := [("Kind", TEnum "Kind" ["Big"; "Small"]); ("Box", TStruct "Box" [("size", TSimple ctInt); ("kind", TEnum "Kind" ["Big"; "Small"])])].
Definition ex_id : iid := [305419896; 4660; 65535; 0; 1; 2; 3; 127; 128; 254; 255].
Definition ex_v : value :=
  VList ex_id
    [VDict unknown_id ex_id [(VStr "b", VRatio 1 2); (VInt 7, VList unknown_id [VNull; VBool true])];
     VStruct "Box" [("size", TSimple ctInt); ("kind", TEnum "Kind" ["Big"; "Small"])] ex_id unknown_id
       [("kind", VEnum "Kind" ["Big"; "Small"] "Small"); ("size", VInt (-3))];
     VComplex 5 6; VFloat 9; VStr "x y"].
Lemma clean_dec : forall s, forallb (fun c => negb (Ascii.eqb c zero)) (list_ascii_of_string s) = true -> clean s.
Proof. intros s H I. rewrite forallb_forall in H. specialize (H _ I). rewrite Ascii.eqb_refl in H. discriminate. Qed.
Lemma ex_is_id : is_id ex_id.
Proof.
  exists 305419896, 4660, 65535, [0; 1; 2; 3; 127; 128; 254; 255]. cbn [length].
  repeat split; try lia. repeat (constructor; [lia|]). constructor.
Qed.
Lemma unknown_is_id : is_id unknown_id.
Proof. apply id_like_is_id. exact unknown_like. Qed.

Example ex_object : object (fun f => f = f) ex_tm ex_v.
Proof.
  unfold ex_v. constructor; [exact ex_is_id|].
  constructor; [|constructor; [|repeat constructor]].
  - constructor; [exact unknown_is_id|exact ex_is_id| | | |]; cbn [map fst snd].
    + repeat constructor. apply clean_dec. reflexivity.
    + repeat constructor; [discriminate|exact unknown_is_id].
    + intros [E|[E|[]]]; discriminate.
    + constructor; [|constructor; [constructor|constructor]]. constructor; [|constructor]. intros [_ E]. discriminate.
  - constructor.
    + exists [("Kind", TEnum "Kind" ["Big"; "Small"])], []. split; [reflexivity|]. intros [E|[]]. discriminate.
    + apply clean_dec. reflexivity.
    + exact ex_is_id.
    + exact unknown_is_id.
    + repeat constructor; apply clean_dec; reflexivity.
    + constructor; [intros [E|[]]; discriminate|constructor; [intros []|constructor]].
    + intro x. cbn [map fst In]. tauto.
    + intros x t v [E|[E|[]]] [F|[F|[]]]; injection E as <- <-; try discriminate F; injection F as <-; [apply F_core; constructor|constructor].
    + constructor; [|repeat constructor]. constructor.
      * exists [], [("Box", TStruct "Box" [("size", TSimple ctInt); ("kind", TEnum "Kind" ["Big"; "Small"])])]. split; [reflexivity|intros []].
      * apply clean_dec. reflexivity.
      * apply clean_dec. reflexivity.
      * discriminate.
      * right. left. reflexivity.
  - apply clean_dec. reflexivity.
Qed.
Example ex_round : deserialize (fun f => f) ex_tm (serialize 3 ex_v) = (Good ex_v, ex_tm).
Proof. vm_compute. reflexivity. Qed.
Example ex_round_1 : deserialize (fun f => f) ex_tm (serialize 1 ex_v) = (Good (untyped ex_v), ex_tm).
Proof. vm_compute. reflexivity. Qed.
Example ex_id_text : id_text ex_id = "{12345678-1234-FFFF-0001-02037F80FEFF}" \/ id_text ex_id = "{12345678-1234-ffff-0001-02037f80feff}".
Proof. vm_compute. auto. Qed.
Example ex_manager : manager_ok ex_tm.
Proof. repeat constructor; apply clean_dec; reflexivity. Qed.
(** A box whose type is not registered, in which a part is. *)
Example ex_unknown :
  unregistered ex_tm "Other" /\ identifier "Other" /\ ~ is_reserved "Other" /\
  deserialize (fun f => f) ex_tm (serialize 3 (VStruct "Other" [] unknown_id unknown_id [("a", VInt 1); ("b", VNull)])) =
    (Good (VStruct "Other" [("a", TSimple ctInt); ("b", TSimple ctUndefined)] unknown_id unknown_id [("a", VInt 1); ("b", VNull)]),
     (ex_tm ++ [("Other", TStruct "Other" [("a", TSimple ctInt); ("b", TSimple ctUndefined)])])%list).
Proof.
  split; [|split; [|split]].
  - intros [E|[E|[]]]; discriminate.
  - apply valid_name_iff. reflexivity.
  - intro R. assert (X : name_ok "Other" = true) by reflexivity. apply name_ok_iff in X. tauto.
  - vm_compute. reflexivity.
Qed.
Example ex_reserved : is_reserved "Unit" /\ ~ identifier "9lives".
Proof.
  split; [exists "unit"; split; [cbn; tauto|apply lower_iff; reflexivity]|].
  intro H. apply valid_name_iff in H. discriminate.
Qed.
(** A text no serializer wrote: an entry twice, an unusual order, a missing field. *)
Example ex_foreign :
  deserialize (fun f => f) ex_tm
    [EObj; EKey "fields"; EObj; EKey "values"; EArr; EObj; EKey "value"; EInt 1; EKey "key"; EStr "size"; EEndObj;
     EObj; EKey "key"; EStr "size"; EKey "value"; EInt 2; EEndObj; EEndArr; EKey "__type"; EStr "Dict"; EEndObj;
     EKey "typeName"; EStr "Box"; EKey "__type"; EStr "Struct"; EEndObj] =
  (Good (VStruct "Box" [("size", TSimple ctInt); ("kind", TEnum "Kind" ["Big"; "Small"])] unknown_id unknown_id
     [("size", VInt 2); ("kind", VNull)]), ex_tm).
Proof. vm_compute. reflexivity. Qed.
Example ex_dicts : dicts_ok (JObj [("__type", JStr "Dict"); ("values", JArr [JObj [("key", JInt 1); ("value", JInt 2)]])]).
Proof.
  constructor.
  - constructor; [constructor|]. constructor; [|constructor]. constructor. constructor; [|constructor]. constructor.
    + constructor; [constructor|]. constructor; [constructor|constructor].
    + intros t (l1 & l2 & E & _). exfalso. destruct l1 as [|? [|? [|? l1]]]; discriminate.
  - intros t _ _. exists [JObj [("key", JInt 1); ("value", JInt 2)]]. split.
    + exists [("__type", JStr "Dict")], []. split; [reflexivity|]. intros [E|[]]. discriminate.
    + intros [E|[]]. discriminate.
Qed.

Print Assumptions c48_round_trip_partial.
Print Assumptions c48_id_round_trip.
Print Assumptions c48_unknown_type_partial.
Print Assumptions c48_read_anything.
Print Assumptions c48_always_answers.
Print Assumptions c48_no_null_pointer_partial.
Print Assumptions c48_read_write_read.
Print Assumptions c48_zero_byte_refuted.
Print Assumptions c48_lost_entry_refuted.
Print Assumptions c48_version_1_refuted.
Print Assumptions c48_null_pointer_refuted.
Print Assumptions c48_exception_refuted.
Print Assumptions c48_complex_integers_refuted.
Print Assumptions c48_unknown_type_refuted.
