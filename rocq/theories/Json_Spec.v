(** Vocabulary of the statements about serialization, independent of the
    functions of the model. *)
From Coq Require Import String Ascii List Bool ZArith.
From Verif Require Import Json_Model.
Import ListNotations.
Open Scope Z_scope.

(** No zero byte in it. *)
Definition clean (s : string) : Prop := ~ In zero (list_ascii_of_string s).

(** A 128-bit interface id: one 32-bit, two 16-bit and eight 8-bit parts. *)
Definition is_id (i : iid) : Prop :=
  exists a b c d, i = a :: b :: c :: d /\ length d = 8%nat /\
    0 <= a < 2 ^ 32 /\ 0 <= b < 2 ^ 16 /\ 0 <= c < 2 ^ 16 /\ Forall (fun x => 0 <= x < 2 ^ 8) d.

(** What is found under a name: the first entry counts. *)
Definition first_is {A} (k : string) (l : list (string * A)) (x : A) : Prop :=
  exists l1 l2, l = l1 ++ (k, x) :: l2 /\ ~ In k (map fst l1).
Definition registered (tm : manager) (n : string) (t : ty) : Prop := first_is n tm t.
Definition unregistered (tm : manager) (n : string) : Prop := ~ In n (map fst tm).

Inductive has_core : ctype -> value -> Prop :=
| HC_bool b : has_core ctBool (VBool b)
| HC_int z : has_core ctInt (VInt z)
| HC_float f : has_core ctFloat (VFloat f)
| HC_str s : has_core ctString (VStr s)
| HC_list i l : has_core ctList (VList i l)
| HC_dict i j l : has_core ctDict (VDict i j l)
| HC_ratio a b : has_core ctRatio (VRatio a b)
| HC_complex a b : has_core ctComplex (VComplex a b)
| HC_enum n vs v : has_core ctEnum (VEnum n vs v)
| HC_struct n fs i j l : has_core ctStruct (VStruct n fs i j l).

(** What may stand in a field of a structure. *)
Inductive fits : ty -> value -> Prop :=
| F_null t : fits t VNull
| F_any v : fits (TSimple ctUndefined) v
| F_core c v : has_core c v -> fits (TSimple c) v
| F_enum n vs m ws v : fits (TEnum n vs) (VEnum m ws v)
| F_struct n fs i j l : fits (TStruct n fs) (VStruct n fs i j l).

(** Objects that are compared by their value when they are keys; any other two
    objects are two different keys. *)
Definition by_value (v : value) : Prop :=
  match v with
  | VBool _ | VInt _ | VFloat _ | VStr _ | VComplex _ _ | VEnum _ _ _ => True
  | _ => False
  end.
Definition different_keys (a b : value) : Prop := ~ (by_value a /\ a = b).

(** The objects a program can have, given the registered types [tm]; [exact f]
    says that the number [f] survives being written and read.
    A structure has exactly the fields of its registered type. *)
Inductive object (exact : Z -> Prop) (tm : manager) : value -> Prop :=
| O_null : object exact tm VNull
| O_bool b : object exact tm (VBool b)
| O_int z : object exact tm (VInt z)
| O_float f : exact f -> object exact tm (VFloat f)
| O_str s : clean s -> object exact tm (VStr s)
| O_list i l : is_id i -> Forall (object exact tm) l -> object exact tm (VList i l)
| O_dict i j l :
    is_id i -> is_id j ->
    Forall (object exact tm) (map fst l) -> Forall (object exact tm) (map snd l) ->
    ~ In VNull (map fst l) -> ForallOrdPairs different_keys (map fst l) ->
    object exact tm (VDict i j l)
| O_ratio a b : b <> 0 -> object exact tm (VRatio a b)
| O_complex a b : exact a -> exact b -> object exact tm (VComplex a b)
| O_enum n vs v :
    registered tm n (TEnum n vs) -> clean n -> clean v -> v <> EmptyString -> In v vs ->
    object exact tm (VEnum n vs v)
| O_struct n fs i j l :
    registered tm n (TStruct n fs) -> clean n -> is_id i -> is_id j ->
    Forall clean (map fst l) -> NoDup (map fst l) ->
    (forall x, In x (map fst l) <-> In x (map fst fs)) ->
    (forall x t v, In (x, t) fs -> In (x, v) l -> fits t v) ->
    Forall (object exact tm) (map snd l) ->
    object exact tm (VStruct n fs i j l).

(** Forget the element types of containers. *)
Fixpoint untyped (v : value) : value :=
  match v with
  | VList _ l => VList unknown_id (map untyped l)
  | VDict _ _ l => VDict unknown_id unknown_id (map (fun p => (untyped (fst p), untyped (snd p))) l)
  | VStruct n fs _ _ l => VStruct n fs unknown_id unknown_id (map (fun p => (fst p, untyped (snd p))) l)
  | _ => v
  end.

(** Registered types carry their own name; their field names have no zero byte. *)
Definition own_name (p : string * ty) : Prop :=
  match snd p with
  | TStruct n fs => n = fst p /\ Forall clean (map fst fs)
  | TEnum n _ => n = fst p
  | TSimple _ => True
  end.
Definition manager_ok (tm : manager) : Prop := Forall own_name tm.

(** The type that stands for a field of an unknown structure. *)
Inductive infers : value -> ty -> Prop :=
| I_null : infers VNull (TSimple ctUndefined)
| I_core c v : has_core c v -> c <> ctEnum -> c <> ctStruct -> infers v (TSimple c)
| I_enum n vs v : infers (VEnum n vs v) (TEnum n vs)
| I_struct n fs i j l : infers (VStruct n fs i j l) (TStruct n fs).

(** Every dictionary in a document has a list of entries, none of them null. *)
Inductive dicts_ok : json -> Prop :=
| D_null : dicts_ok JNull
| D_bool b : dicts_ok (JBool b)
| D_int z : dicts_ok (JInt z)
| D_float f : dicts_ok (JFloat f)
| D_str s : dicts_ok (JStr s)
| D_arr l : Forall dicts_ok l -> dicts_ok (JArr l)
| D_obj ms :
    Forall dicts_ok (map snd ms) ->
    (forall t, first_is "__type"%string ms (JStr t) -> String.prefix "Dict" t = true ->
       exists items, first_is "values"%string ms (JArr items) /\ ~ In JNull items) ->
    dicts_ok (JObj ms).

(** Names that types and their fields may have. *)
Definition is_upper (c : ascii) : Prop := (65 <= nat_of_ascii c <= 90)%nat.
Definition name_start (c : ascii) : Prop := is_upper c \/ (97 <= nat_of_ascii c <= 122)%nat \/ nat_of_ascii c = 95%nat.
Definition name_char (c : ascii) : Prop := name_start c \/ (48 <= nat_of_ascii c <= 57)%nat.
Definition identifier (s : string) : Prop :=
  exists c r, list_ascii_of_string s = c :: r /\ name_start c /\ Forall name_char r.
Definition in_lower_case (s t : string) : Prop :=
  Forall2 (fun c d => (is_upper c /\ nat_of_ascii d = (nat_of_ascii c + 32)%nat) \/ (~ is_upper c /\ d = c))
    (list_ascii_of_string s) (list_ascii_of_string t).
Definition is_reserved (s : string) : Prop := exists r, In r reserved /\ in_lower_case s r.
