(** Struct and enumeration values and their types:
    core/coretypes/include/coretypes/struct_impl.h,
    core/coretypes/src/struct_type_impl.cpp, struct_builder_impl.cpp,
    enumeration_type_impl.cpp, enumeration_impl.cpp, simple_type_impl.cpp,
    include/coretypes/type_impl.h, with the part of type_manager_impl.cpp and
    of core/corecontainers (dictobject_impl.cpp, listobject_impl.cpp) they use.
    Dictionaries, structs and builders are objects that are shared; types and
    the values inside of a dictionary are immutable trees (a struct used as a
    value is a copy of what it shows, see [UseStruct]).
    Simplified: a value that is neither a struct nor an enumeration is its core
    type and a number standing for its content, two of them are equal when both
    agree (so 1 and 1.0 are different here, see Cont for those); dictionaries
    have string keys; names have no NUL bytes; null names, null type managers,
    failing allocation and calls from several threads are left out. *)
From Coq Require Import String.
From Verif Require Import Base.
From Verif Require Types_Model.
Local Open Scope Z_scope.

Definition name := list Z.
Definition name_eqb (a b : name) : bool := Types_Model.name_eqb a b.
Definition bytes (s : string) : name := Types_Model.bytes s.

(** coretype.h: CoreType *)
Inductive ct := CBool | CInt | CFloat | CString | CList | CDict | CRatio | CProc | CObject
  | CBinary | CFunc | CComplex | CStruct | CEnum | CUndef.
Scheme Equality for ct.

Inductive ty :=
| TSimple (c : ct)                                                   (** SimpleType *)
| TStruct (n : name) (ns : list name) (ts : list ty) (ds : option (list val))  (** StructType *)
| TEnum (n : name) (es : list (name * Z))                            (** EnumerationType *)
| TClass (n : name)                                                  (** any other registered type *)
with val :=
| VNull                                                    (** a null pointer *)
| VAtom (c : ct) (i : Z)                                   (** an object that is no struct *)
| VBuiltin (c : ct) (t : ty) (i : Z)                       (** a ratio, a unit, ...: an object with a struct type *)
| VEnum (n : name) (es : list (name * Z)) (v : name)       (** an enumeration and its type *)
| VRec (t : ty) (fs : list (name * val)).                  (** a struct and its type *)

(** simple_type_impl.cpp:66-101 *)
Definition coreTypeToString (c : ct) : name :=
  bytes match c with
        | CBool => "bool" | CInt => "int" | CFloat => "float" | CString => "string" | CList => "list"
        | CDict => "dict" | CRatio => "ratio" | CProc => "proc" | CObject => "object"
        | CBinary => "binaryData" | CFunc => "func" | CComplex => "complexNumber" | CStruct => "struct"
        | CEnum => "enumeration" | CUndef => "undefined"
        end%string.

(** type_impl.h:51-58 *)
Definition label (t : ty) : name :=
  match t with TSimple c => coreTypeToString c | TStruct n _ _ _ => n | TEnum n _ => n | TClass n => n end.

(** type_impl.h:78-85 with the core types passed by the constructors *)
Definition core (t : ty) : ct :=
  match t with TSimple c => c | TStruct _ _ _ _ => CStruct | TEnum _ _ => CEnum | TClass _ => CObject end.

(** getCoreType of a value; struct_impl.h:320-327, enumeration_impl.cpp:126-132 *)
Definition vcore (v : val) : ct :=
  match v with VNull => CUndef | VAtom c _ => c | VBuiltin c _ _ => c | VEnum _ _ _ => CEnum | VRec _ _ => CStruct end.

(** the type of a value that implements IStruct *)
Definition struct_type (v : val) : option ty :=
  match v with VRec t _ => Some t | VBuiltin _ t _ => Some t | _ => None end.

(** ** Dictionaries in insertion order (dictobject_impl.cpp, tsl::ordered_map) *)
Section Dict.
  Context {A : Type}.
  Fixpoint lookup (k : name) (l : list (name * A)) : option A :=
    match l with [] => None | (k', v) :: r => if name_eqb k' k then Some v else lookup k r end.
  Fixpoint assign (k : name) (v : A) (l : list (name * A)) : list (name * A) :=
    match l with [] => [(k, v)] | (k', v') :: r => if name_eqb k' k then (k', v) :: r else (k', v') :: assign k v r end.
  Definition erase (k : name) (l : list (name * A)) : list (name * A) := filter (fun e => negb (name_eqb (fst e) k)) l.
  Definition dict_of (l : list (name * A)) : list (name * A) := fold_left (fun d e => assign (fst e) (snd e) d) l [].
End Dict.

(** ** Equality.  [None] is a call through a null pointer. *)

Definition and_then (a : option bool) (b : option bool) : option bool :=
  match a with Some true => b | _ => a end.

(** listobject_impl.cpp:125-147, the items of two lists of the same size *)
Section ListEq.
  Context {A : Type} (eq : A -> A -> option bool).
  Fixpoint items_eq (l k : list A) : option bool :=
    match l, k with
    | [], [] => Some true
    | x :: l', y :: k' => and_then (eq x y) (items_eq l' k')
    | _, _ => Some false
    end.
  Definition list_eq (l k : list A) : option bool :=
    if (length l =? length k)%nat then items_eq l k else Some false.
End ListEq.

Fixpoint names_eqb (l k : list name) : bool :=
  match l, k with
  | [], [] => true
  | x :: l', y :: k' => name_eqb x y && names_eqb l' k'
  | _, _ => false
  end.

(** dictobject_impl.cpp:359-393 on the enumerators; [mine] is the receiver *)
Definition enumerators_eq (mine theirs : list (name * Z)) : bool :=
  ((length theirs =? length mine)%nat) &&
  forallb (fun e => match lookup (fst e) mine with Some z => snd e =? z | None => false end) theirs.

(** type_impl.h:61-76 *)
Definition generic_eq (a b : ty) : bool := name_eqb (label b) (label a) && ct_beq (core a) (core b).

(** listobject_impl.cpp:139-140: the items may be null, [fl] says that the
    second one is the receiver *)
Definition item_eq (eq : bool -> val -> val -> option bool) (fl : bool) (a b : val) : option bool :=
  match a, b with
  | VNull, VNull => Some true
  | VNull, _ => if fl then Some false else None
  | _, VNull => if fl then None else Some false
  | _, _ => eq fl a b
  end.

(** objectptr.h:1086-1101 on two lists that may be null *)
Definition defaults_eq (eq : val -> val -> option bool) (a b : option (list val)) : option bool :=
  match a, b with
  | None, None => Some true
  | Some l, Some k => list_eq eq l k
  | _, _ => Some false
  end.

(** struct_type_impl.cpp:90-110, enumeration_type_impl.cpp:77-95, type_impl.h:61-76,
    struct_impl.h:233-248, enumeration_impl.cpp:85-99.
    [ty_eq false a b] is a.equals(b), [ty_eq true a b] is b.equals(a): every
    equals asks the other object's parts, so the direction flips. *)
Fixpoint ty_eq (fl : bool) (a b : ty) {struct a} : option bool :=
  match a, b with
  | TStruct n ns ts ds, TStruct n' ns' ts' ds' =>
    and_then (list_eq (fun x y => ty_eq (negb fl) x y) ts ts')
      (and_then (defaults_eq (fun x y => item_eq (fun f u v => val_eq f u v) (negb fl) x y) ds ds')
        (and_then (Some (names_eqb ns ns')) (Some (name_eqb n n'))))
  | TEnum n es, TEnum n' es' =>
    Some ((if fl then enumerators_eq es es' else enumerators_eq es' es) && name_eqb n n')
  | _, _ =>
    match (if fl then b else a) with
    | TStruct _ _ _ _ => Some false
    | TEnum _ _ => Some false
    | _ => Some (generic_eq a b)
    end
  end
with val_eq (fl : bool) (a b : val) {struct a} : option bool :=
  match a, b with
  | VAtom c i, VAtom d j => Some (ct_beq c d && (i =? j))
  | VBuiltin c _ i, VBuiltin d _ j => Some (ct_beq c d && (i =? j))
  | VEnum n es v, VEnum n' es' v' =>
    Some ((if fl then enumerators_eq es' es else enumerators_eq es es') && name_eqb n n' && name_eqb v v')
  | VRec t fs, VRec t' fs' =>
    and_then (list_eq (fun (x y : name * val) => item_eq (fun f u v => val_eq f u v) (negb fl) (snd x) (snd y)) fs fs')
      (and_then (Some (names_eqb (map fst fs) (map fst fs'))) (ty_eq (negb fl) t t'))
  | _, _ => Some false
  end.

(** ** Results *)
Inductive code := InvalidParameter | NoInterface | NotFound | Frozen | Reserved | ValidateFailed | AlreadyExists
  | NotAssigned | OutOfRange.
Inductive res (A : Type) :=
| Ok (a : A)
| Fails (c : code)      (** an error code *)
| Escapes (c : code)    (** an exception leaves an interface function *)
| Undefined.            (** undefined behaviour *)
Arguments Ok {A} a. Arguments Fails {A} c. Arguments Escapes {A} c. Arguments Undefined {A}.

(** ** Types *)

(** struct_type_impl.cpp:9-10 *)
Definition accepted (c : ct) : bool :=
  match c with
  | CBool | CInt | CFloat | CString | CList | CDict | CRatio | CComplex | CStruct | CEnum | CUndef => true
  | CProc | CObject | CBinary | CFunc => false
  end.

(** struct_type_impl.cpp:13-64, both constructors *)
Definition newStructType (n : name) (ns : list name) (ts : list ty) (ds : option (list val)) : res ty :=
  if negb (match ds with Some d => (length ns =? length d)%nat | None => true end && (length ns =? length ts)%nat)
  then Fails InvalidParameter
  else if negb (forallb Types_Model.validateTypeName ns) then Fails InvalidParameter
  else if negb (forallb (fun t => accepted (core t)) ts) then Fails InvalidParameter
  else Ok (TStruct n ns ts ds).

(** enumeration_type_impl.cpp:10-18; the dictionary has each key once *)
Definition newEnumTypeWithValues (n : name) (es : list (name * Z)) : res ty :=
  match dict_of es with
  | [] => Fails InvalidParameter
  | d => Ok (TEnum n d)
  end.

(** enumeration_type_impl.cpp:29-38; the counter is a signed 64-bit number *)
Fixpoint number (ns : list name) (z : Z) (d : list (name * Z)) : res (list (name * Z)) :=
  match ns with
  | [] => Ok d
  | k :: r =>
    match lookup k d with
    | Some _ => Fails InvalidParameter
    | None => if in_i64 (z + 1) then number r (z + 1) (assign k z d) else Undefined
    end
  end.

(** enumeration_type_impl.cpp:20-41 *)
Definition newEnumType (n : name) (ns : list name) (first : Z) : res ty :=
  match ns with
  | [] => Fails InvalidParameter
  | _ => match number ns first [] with
         | Ok d => Ok (TEnum n d)
         | Fails c => Fails c
         | Escapes c => Escapes c
         | Undefined => Undefined
         end
  end.

(** type_manager_impl.cpp:31-70, without the core event *)
Definition manager := list (name * ty).
Definition addType (m : manager) (t : ty) : manager * res unit :=
  match label t with
  | [] => (m, Fails InvalidParameter)
  | _ =>
    if existsb (name_eqb (Types_Model.toLowerCase (label t))) Types_Model.reservedTypeNames then (m, Fails Reserved)
    else if negb (Types_Model.validateTypeName (label t)) then (m, Fails ValidateFailed)
    else match lookup (label t) m with
         | Some t' => match ty_eq false t' t with
                      | Some true => (m, Ok tt)
                      | Some false => (m, Fails AlreadyExists)
                      | None => (m, Undefined)
                      end
         | None => (assign (label t) t m, Ok tt)
         end
  end.

(** ** Enumerations *)

(** what an enumeration is made from *)
Inductive arg := AName (s : name) | AInt (z : Z) | AOther.

(** enumeration_impl.cpp:35-43 and 64-72: the first name with the number *)
Definition name_of (es : list (name * Z)) (z : Z) : option name :=
  match find (fun e => snd e =? z) es with Some e => Some (fst e) | None => None end.

(** enumeration_impl.cpp:49-75 *)
Definition newEnumOfType (t : ty) (a : arg) : res val :=
  match t with
  | TEnum n es =>
    match a with
    | AName s => match lookup s es with Some _ => Ok (VEnum n es s) | None => Fails InvalidParameter end
    | AInt z => match name_of es z with Some s => Ok (VEnum n es s) | None => Fails InvalidParameter end
    | AOther => Fails InvalidParameter
    end
  | _ => Fails NoInterface
  end.

(** enumeration_impl.cpp:6-47 *)
Definition newEnum (m : manager) (n : name) (a : arg) : res val :=
  match lookup n m with
  | None => Fails InvalidParameter
  | Some t =>
    match a with
    | AOther => Fails InvalidParameter
    | AName [] => Fails InvalidParameter
    | _ => newEnumOfType t a
    end
  end.

(** enumeration_impl.cpp:110-124 *)
Definition getIntValue (v : val) : res Z :=
  match v with
  | VEnum _ es s => match lookup s es with Some z => Ok z | None => Escapes NotFound end
  | _ => Fails NoInterface
  end.

(** ** Structs *)

Definition entries := list (name * val).

(** struct_impl.h:110-115 and 193-198 *)
Definition default_of (ds : option (list val)) : val :=
  match ds with Some (d :: _) => d | _ => VNull end.

(** struct_impl.h:118-137 and 202-221: does a field that is given suit its type *)
Definition checkField (t : ty) (v : val) : res unit :=
  match v with
  | VNull => Ok tt
  | _ =>
    match t with
    | TStruct _ _ _ _ =>
      match struct_type v with
      | None => Fails NoInterface
      | Some tv => match ty_eq false tv t with
                   | Some true => Ok tt
                   | Some false => Fails InvalidParameter
                   | None => Undefined
                   end
      end
    | _ => if ct_beq (core t) CUndef || ct_beq (vcore v) (core t) then Ok tt else Fails InvalidParameter
    end
  end.

(** struct_impl.h:105-138 and 188-222 *)
Fixpoint checkFields (fz : bool) (ns : list name) (ts : list ty) (ds : option (list val)) (es : entries)
  : entries * res unit :=
  match ns, ts with
  | n :: ns', t :: ts' =>
    match lookup n es with
    | None => if fz then (es, Fails Frozen)
              else checkFields fz ns' ts' (option_map (@tl val) ds) (assign n (default_of ds) es)
    | Some v => match checkField t v with
                | Ok _ => checkFields fz ns' ts' (option_map (@tl val) ds) es
                | r => (es, r)
                end
    end
  | _, _ => (es, Ok tt)
  end.

(** struct_impl.h:101-103 and 184-186 *)
Definition knownFields (ns : list name) (es : entries) : bool :=
  forallb (fun e => existsb (name_eqb (fst e)) ns) es.

(** struct_impl.h:149-164: the type a value shows *)
Definition typeOf (v : val) : ty :=
  match v with
  | VNull => TSimple CUndef
  | VRec t _ => t
  | VEnum n es _ => TEnum n es
  | VAtom c _ => TSimple c
  | VBuiltin CStruct t _ => t
  | VBuiltin c _ _ => TSimple c
  end.

(** struct_impl.h:81-171, the core of the constructor: the manager, the fields
    given (with what was added to them) and the type of the struct *)
Definition makeStruct (m : manager) (n : name) (fz : bool) (given : option entries)
  : manager * entries * res ty :=
  match lookup n m with
  | Some (TStruct n' ns ts ds) =>
    let es := match given with Some es => es | None => [] end in
    if knownFields ns es then
      match checkFields fz ns ts ds es with
      | (es', Ok _) => (m, es', Ok (TStruct n' ns ts ds))
      | (es', Fails c) => (m, es', Fails c)
      | (es', Escapes c) => (m, es', Escapes c)
      | (es', Undefined) => (m, es', Undefined)
      end
    else (m, es, Fails InvalidParameter)
  | Some _ => (m, match given with Some es => es | None => [] end, Fails NoInterface)
  | None =>
    match given with
    | None => (m, [], Fails InvalidParameter)
    | Some es =>
      match newStructType n (map fst es) (map (fun e => typeOf (snd e)) es) None with
      | Ok t => match addType m t with
                | (m', Ok _) => (m', es, Ok t)
                | (m', Fails c) => (m', es, Fails c)
                | (m', Escapes c) => (m', es, Escapes c)
                | (m', Undefined) => (m', es, Undefined)
                end
      | Fails c => (m, es, Fails c)
      | Escapes c => (m, es, Escapes c)
      | Undefined => (m, es, Undefined)
      end
    end
  end.

(** struct_impl.h:174-230 *)
Definition makeFromBuilder (t : ty) (fz : bool) (es : entries) : entries * res unit :=
  match t with
  | TStruct _ ns ts ds => if knownFields ns es then checkFields fz ns ts ds es else (es, Fails InvalidParameter)
  | _ => (es, Fails NoInterface)
  end.

(** ** Builders *)

(** struct_builder_impl.cpp:12-22 *)
Fixpoint initFields (ns : list name) (ds : option (list val)) (es : entries) : entries :=
  match ns with
  | [] => es
  | n :: r => initFields r (option_map (@tl val) ds) (assign n (default_of ds) es)
  end.

(** struct_builder_impl.cpp:98-112: the type of the value against every field
    type with the name *)
Definition valueType (v : val) : ty :=
  match struct_type v with
  | Some t => t
  | None => match v with VEnum n es _ => TEnum n es | _ => TSimple (vcore v) end
  end.
Fixpoint builderCheck (ns : list name) (ts : list ty) (n : name) (v : val) : res unit :=
  match ns, ts with
  | k :: ns', t :: ts' =>
    if name_eqb k n then
      match ty_eq false (valueType v) t with
      | Some true => builderCheck ns' ts' n v
      | Some false => Fails InvalidParameter
      | None => Undefined
      end
    else builderCheck ns' ts' n v
  | _, _ => Ok tt
  end.

(** struct_builder_impl.cpp:70-119.  With a null value the default is looked
    up but the null pointer is what is stored (line 117). *)
Definition builderSet (t : ty) (fz : bool) (es : entries) (n : name) (v : val) : entries * res unit :=
  match t with
  | TStruct _ ns ts _ =>
    match lookup n es with
    | None => (es, Fails NotFound)
    | Some _ =>
      match match v with VNull => Ok tt | _ => builderCheck ns ts n v end with
      | Ok _ => if fz then (es, Escapes Frozen) else (assign n v es, Ok tt)
      | r => (es, r)
      end
    end
  | _ => (es, Fails NoInterface)
  end.

(** struct_builder_impl.cpp:57-60.  The list is read as a list of strings: any
    other object makes the conversion throw, a null one getCoreType. *)
Fixpoint valuesCheck (ts : list ty) (vs : list val) : res unit :=
  match vs with
  | [] => Ok tt
  | VNull :: _ => Escapes InvalidParameter
  | VAtom CString i :: r =>
    match ts with
    | [] => Escapes OutOfRange
    | t :: ts' => if generic_eq (TSimple CString) t then valuesCheck ts' r else Fails InvalidParameter
    end
  | _ :: _ => Escapes NoInterface
  end.

(** struct_builder_impl.cpp:48-68: the fields of the new dictionary *)
Definition builderSetValues (t : ty) (es : entries) (vs : list val) : res entries :=
  match t with
  | TStruct _ _ ts _ =>
    if (length vs =? length es)%nat then
      match valuesCheck ts vs with
      | Ok _ => Ok (combine (map fst es) vs)
      | Fails c => Fails c
      | Escapes c => Escapes c
      | Undefined => Undefined
      end
    else Fails InvalidParameter
  | _ => Fails NoInterface
  end.

(** ** Objects *)

Record dict := { frozen : bool; items : entries }.
Record st := {
  tys : list ty;               (** types that were made *)
  vals : list val;             (** values that were made *)
  dicts : list dict;
  structs : list (ty * nat);   (** a struct: its type and its dictionary *)
  builders : list (ty * nat);
  mgr : manager }.
Definition start : st := {| tys := []; vals := []; dicts := []; structs := []; builders := []; mgr := [] |}.

Definition with_ty (s : st) (t : ty) : st :=
  {| tys := tys s ++ [t]; vals := vals s; dicts := dicts s; structs := structs s; builders := builders s; mgr := mgr s |}.
Definition with_val (s : st) (v : val) : st :=
  {| tys := tys s; vals := vals s ++ [v]; dicts := dicts s; structs := structs s; builders := builders s; mgr := mgr s |}.
Definition with_mgr (s : st) (m : manager) : st :=
  {| tys := tys s; vals := vals s; dicts := dicts s; structs := structs s; builders := builders s; mgr := m |}.
Definition with_dict (s : st) (d : dict) : st :=
  {| tys := tys s; vals := vals s; dicts := dicts s ++ [d]; structs := structs s; builders := builders s; mgr := mgr s |}.
Definition with_struct (s : st) (t : ty) (d : nat) : st :=
  {| tys := tys s; vals := vals s; dicts := dicts s; structs := structs s ++ [(t, d)]; builders := builders s; mgr := mgr s |}.
Definition with_builder (s : st) (t : ty) (d : nat) : st :=
  {| tys := tys s; vals := vals s; dicts := dicts s; structs := structs s; builders := builders s ++ [(t, d)]; mgr := mgr s |}.

Fixpoint put {A : Type} (i : nat) (x : A) (l : list A) : list A :=
  match i, l with
  | _, [] => []
  | O, _ :: r => x :: r
  | S i', y :: r => y :: put i' x r
  end.
Definition put_dict (s : st) (d : nat) (x : dict) : st :=
  {| tys := tys s; vals := vals s; dicts := put d x (dicts s); structs := structs s; builders := builders s; mgr := mgr s |}.
Definition put_builder (s : st) (b : nat) (x : ty * nat) : st :=
  {| tys := tys s; vals := vals s; dicts := dicts s; structs := structs s; builders := put b x (builders s); mgr := mgr s |}.

(** a value argument: null or a value that was made *)
Definition ref (s : st) (r : option nat) : option val :=
  match r with None => Some VNull | Some i => nth_error (vals s) i end.
Fixpoint refs {A : Type} (f : A -> option val) (l : list A) : option (list val) :=
  match l with
  | [] => Some []
  | x :: r => match f x, refs f r with Some v, Some k => Some (v :: k) | _, _ => None end
  end.
Fixpoint ty_refs (s : st) (l : list nat) : option (list ty) :=
  match l with
  | [] => Some []
  | x :: r => match nth_error (tys s) x, ty_refs s r with Some v, Some k => Some (v :: k) | _, _ => None end
  end.

(** what a caller can do; numbers refer to objects made before *)
Inductive op :=
| NewSimple (c : ct)
| NewStructType (n : name) (ns : list name) (ts : list nat) (ds : option (list (option nat)))
| NewEnumTypeValues (n : name) (es : list (name * Z))
| NewEnumType (n : name) (ns : list name) (first : Z)
| NewClass (n : name)
| AddType (t : nat)
| RemoveType (n : name)
| NewAtom (c : ct) (i : Z)
| NewBuiltin (c : ct) (t : nat) (i : Z)
| NewEnum (n : name) (a : arg)
| NewEnumOfType (t : nat) (a : arg)
| NewDict
| DictSet (d : nat) (n : name) (v : option nat)
| DictRemove (d : nat) (n : name)
| DictClear (d : nat)
| DictFreeze (d : nat)
| NewStruct (n : name) (d : option nat)
| UseStruct (i : nat)                       (** the struct becomes a value *)
| NewBuilder (n : name)
| NewBuilderFrom (i : nat)
| BuilderSet (b : nat) (n : name) (v : option nat)
| BuilderSetValues (b : nat) (vs : list (option nat))
| Build (b : nat).

Definition done (s : st) : st * res unit := (s, Ok tt).
(** the operation refers to an object that does not exist: nothing happens *)
Definition nothing (s : st) : st * res unit := (s, Fails NotAssigned).

Definition add_ty (s : st) (r : res ty) : st * res unit :=
  match r with
  | Ok t => done (with_ty s t) | Fails c => (s, Fails c) | Escapes c => (s, Escapes c) | Undefined => (s, Undefined)
  end.
Definition add_val (s : st) (r : res val) : st * res unit :=
  match r with
  | Ok t => done (with_val s t) | Fails c => (s, Fails c) | Escapes c => (s, Escapes c) | Undefined => (s, Undefined)
  end.

(** an atom is an object that is neither a struct nor an enumeration *)
Definition atomic (c : ct) : bool := match c with CStruct | CEnum | CUndef => false | _ => true end.

(** dictobject_impl.cpp:58-87 *)
Definition dictSet (s : st) (d : nat) (n : name) (v : val) : st * res unit :=
  match nth_error (dicts s) d with
  | Some x => if frozen x then (s, Fails Frozen)
              else done (put_dict s d {| frozen := false; items := assign n v (items x) |})
  | None => nothing s
  end.
(** dictobject_impl.cpp:89-146 *)
Definition dictRemove (s : st) (d : nat) (n : name) : st * res unit :=
  match nth_error (dicts s) d with
  | Some x => if frozen x then (s, Fails Frozen)
              else match lookup n (items x) with
                   | None => (s, Fails NotFound)
                   | Some _ => done (put_dict s d {| frozen := false; items := erase n (items x) |})
                   end
  | None => nothing s
  end.
(** dictobject_impl.cpp:148-159 *)
Definition dictClear (s : st) (d : nat) : st * res unit :=
  match nth_error (dicts s) d with
  | Some x => if frozen x then (s, Fails Frozen) else done (put_dict s d {| frozen := false; items := [] |})
  | None => nothing s
  end.
(** dictobject_impl.cpp:279-287 *)
Definition dictFreeze (s : st) (d : nat) : st * res unit :=
  match nth_error (dicts s) d with
  | Some x => done (put_dict s d {| frozen := true; items := items x |})
  | None => nothing s
  end.

(** struct_impl.h:81-171: the struct keeps the dictionary it was given, fills
    it in and freezes it *)
Definition newStruct (s : st) (n : name) (d : option nat) : st * res unit :=
  match d with
  | None =>
    match makeStruct (mgr s) n false None with
    | (m, es, Ok t) =>
      done (with_struct (with_dict (with_mgr s m) {| frozen := true; items := es |}) t (length (dicts s)))
    | (m, _, Fails c) => (with_mgr s m, Fails c)
    | (m, _, Escapes c) => (with_mgr s m, Escapes c)
    | (m, _, Undefined) => (with_mgr s m, Undefined)
    end
  | Some i =>
    match nth_error (dicts s) i with
    | None => nothing s
    | Some x =>
      match makeStruct (mgr s) n (frozen x) (Some (items x)) with
      | (m, es, Ok t) => done (with_struct (put_dict (with_mgr s m) i {| frozen := true; items := es |}) t i)
      | (m, es, Fails c) => (put_dict (with_mgr s m) i {| frozen := frozen x; items := es |}, Fails c)
      | (m, es, Escapes c) => (put_dict (with_mgr s m) i {| frozen := frozen x; items := es |}, Escapes c)
      | (m, es, Undefined) => (put_dict (with_mgr s m) i {| frozen := frozen x; items := es |}, Undefined)
      end
    end
  end.

(** what a struct shows: its type and its fields in order (struct_impl.h:251-301) *)
Definition shown (s : st) (i : nat) : option (ty * entries) :=
  match nth_error (structs s) i with
  | None => None
  | Some (t, d) => match nth_error (dicts s) d with Some x => Some (t, items x) | None => None end
  end.

(** struct_impl.h:278-292 and 304-317 *)
Definition getField (s : st) (i : nat) (n : name) : option val :=
  match shown s i with
  | None => None
  | Some (_, es) => match lookup n es with Some v => Some v | None => Some VNull end
  end.
Definition hasField (s : st) (i : nat) (n : name) : option bool :=
  match shown s i with
  | None => None
  | Some (_, es) => match lookup n es with Some _ => Some true | None => Some false end
  end.

(** a struct used as a value *)
Definition useStruct (s : st) (i : nat) : st * res unit :=
  match shown s i with Some (t, es) => done (with_val s (VRec t es)) | None => nothing s end.

(** struct_builder_impl.cpp:8-23 *)
Definition newBuilder (s : st) (n : name) : st * res unit :=
  match lookup n (mgr s) with
  | None => (s, Fails NotFound)
  | Some (TStruct n' ns ts ds) =>
    done (with_builder (with_dict s {| frozen := false; items := initFields ns ds [] |}) (TStruct n' ns ts ds) (length (dicts s)))
  | Some _ => (s, Fails NoInterface)
  end.
(** struct_builder_impl.cpp:25-31 *)
Definition newBuilderFrom (s : st) (i : nat) : st * res unit :=
  match shown s i with
  | None => nothing s
  | Some (t, es) => done (with_builder (with_dict s {| frozen := false; items := dict_of es |}) t (length (dicts s)))
  end.
Definition setInBuilder (s : st) (b : nat) (n : name) (v : val) : st * res unit :=
  match nth_error (builders s) b with
  | None => nothing s
  | Some (t, d) =>
    match nth_error (dicts s) d with
    | None => nothing s
    | Some x => let r := builderSet t (frozen x) (items x) n v in
                (put_dict s d {| frozen := frozen x; items := fst r |}, snd r)
    end
  end.
Definition setValuesInBuilder (s : st) (b : nat) (vs : list val) : st * res unit :=
  match nth_error (builders s) b with
  | None => nothing s
  | Some (t, d) =>
    match nth_error (dicts s) d with
    | None => nothing s
    | Some x =>
      match builderSetValues t (items x) vs with
      | Ok es => done (put_builder (with_dict s {| frozen := false; items := es |}) b (t, length (dicts s)))
      | Fails c => (s, Fails c)
      | Escapes c => (s, Escapes c)
      | Undefined => (s, Undefined)
      end
    end
  end.
(** struct_builder_impl.cpp:33-46: the struct shares the builder's dictionary *)
Definition buildStruct (s : st) (b : nat) : st * res unit :=
  match nth_error (builders s) b with
  | None => nothing s
  | Some (t, d) =>
    match nth_error (dicts s) d with
    | None => nothing s
    | Some x =>
      match makeFromBuilder t (frozen x) (items x) with
      | (es, Ok _) => done (with_struct (put_dict s d {| frozen := true; items := es |}) t d)
      | (es, r) => (put_dict s d {| frozen := frozen x; items := es |}, r)
      end
    end
  end.

(** type_manager_impl.cpp:72-95 *)
Definition removeType (m : manager) (n : name) : manager * res unit :=
  match lookup n m with None => (m, Fails NotFound) | Some _ => (erase n m, Ok tt) end.

Definition step (s : st) (o : op) : st * res unit :=
  match o with
  | NewSimple c => done (with_ty s (TSimple c))
  | NewStructType n ns ts ds =>
    match ty_refs s ts, match ds with None => Some None | Some l => option_map Some (refs (ref s) l) end with
    | Some ts', Some ds' => add_ty s (newStructType n ns ts' ds')
    | _, _ => nothing s
    end
  | NewEnumTypeValues n es => add_ty s (newEnumTypeWithValues n es)
  | NewEnumType n ns z => add_ty s (newEnumType n ns z)
  | NewClass n => done (with_ty s (TClass n))
  | AddType i => match nth_error (tys s) i with
                 | Some t => (with_mgr s (fst (addType (mgr s) t)), snd (addType (mgr s) t))
                 | None => nothing s
                 end
  | RemoveType n => (with_mgr s (fst (removeType (mgr s) n)), snd (removeType (mgr s) n))
  | NewAtom c i => if atomic c then done (with_val s (VAtom c i)) else nothing s
  | NewBuiltin c t i => match nth_error (tys s) t with
                        | Some (TStruct n ns ts ds) =>
                          if atomic c || ct_beq c CStruct then done (with_val s (VBuiltin c (TStruct n ns ts ds) i)) else nothing s
                        | _ => nothing s
                        end
  | NewEnum n a => add_val s (newEnum (mgr s) n a)
  | NewEnumOfType i a => match nth_error (tys s) i with Some t => add_val s (newEnumOfType t a) | None => nothing s end
  | NewDict => done (with_dict s {| frozen := false; items := [] |})
  | DictSet d n v => match ref s v with Some w => dictSet s d n w | None => nothing s end
  | DictRemove d n => dictRemove s d n
  | DictClear d => dictClear s d
  | DictFreeze d => dictFreeze s d
  | NewStruct n d => newStruct s n d
  | UseStruct i => useStruct s i
  | NewBuilder n => newBuilder s n
  | NewBuilderFrom i => newBuilderFrom s i
  | BuilderSet b n v => match ref s v with Some w => setInBuilder s b n w | None => nothing s end
  | BuilderSetValues b vs => match refs (ref s) vs with Some ws => setValuesInBuilder s b ws | None => nothing s end
  | Build b => buildStruct s b
  end.

(** oldest operation first *)
Definition run (s : st) (h : list op) : st := fold_left (fun s o => fst (step s o)) h s.
