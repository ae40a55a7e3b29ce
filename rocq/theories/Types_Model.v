(** The type manager and property object classes.
    core/coretypes/src/type_manager_impl.cpp, core/coretypes/include/coretypes/
    ctutils.h (validateTypeName), core/coreobjects/src/property_object_class_impl.cpp.

    Names are byte strings.  Struct, enumeration and simple types compare by
    content (struct_type_impl.cpp:90-110, enumeration_type_impl.cpp:77-95,
    type_impl.h:62-79): a content is a number here.  Property object classes
    compare by object identity (intfs.h:285-299).  std::isalpha and tolower are
    those of the "C" locale.  The core event callback and serialization are not
    modelled. *)
From Verif Require Import Base.
From Coq Require Import String Ascii.
Local Open Scope Z_scope.

Definition name := list Z.
Fixpoint bytes (s : string) : name :=
  match s with EmptyString => [] | String c r => Z.of_nat (nat_of_ascii c) :: bytes r end.

Fixpoint name_eqb (a b : name) : bool :=
  match a, b with
  | [], [] => true
  | x :: a', y :: b' => (x =? y) && name_eqb a' b'
  | _, _ => false
  end.

(** property_object_class_impl.h: identity, parent name, own properties
    (ordered map), custom order *)
Record cls := { obj : Z; parent : option name; props : list (name * Z); order : list name }.
Inductive body := Plain (content : Z) | Class (c : cls).
Record ty := { tname : name; tbody : body }.

(** == on type pointers (objectptr.h:1086-1107 through equals) *)
Definition ty_equal (a b : ty) : bool :=
  match tbody a, tbody b with
  | Plain x, Plain y => (x =? y) && name_eqb (tname a) (tname b)
  | Class c, Class d => obj c =? obj d
  | _, _ => false
  end.

(** type_manager_impl.cpp:12-28 *)
Definition reservedTypeNames : list name := map bytes
  ["argumentinfo"; "callableinfo"; "unit"; "complexnumber"; "ratio"; "devicetype"; "functionblocktype";
   "servertype"; "datadescriptor"; "datarule"; "dimension"; "dimensionrule"; "range"; "scaling"]%string.

(** coretype_utils.h:191-198 *)
Definition tolower (c : Z) : Z := if (65 <=? c) && (c <=? 90) then c + 32 else c.
Definition toLowerCase (n : name) : name := map tolower n.

(** ctutils.h:701-714 *)
Definition isalpha (c : Z) : bool := ((65 <=? c) && (c <=? 90)) || ((97 <=? c) && (c <=? 122)).
Definition isdigit (c : Z) : bool := (48 <=? c) && (c <=? 57).
Definition validateTypeName (n : name) : bool :=
  match n with
  | [] => false
  | c :: r => (isalpha c || (c =? 95)) && forallb (fun c => isalpha c || isdigit c || (c =? 95)) r
  end.

(** the types dictionary, in insertion order *)
Definition manager := list (name * ty).

Fixpoint get (n : name) (m : manager) : option ty :=
  match m with [] => None | (k, t) :: r => if name_eqb k n then Some t else get n r end.

Inductive code := Success | InvalidParameter | Reserved | ValidateFailed | AlreadyExists | NotFound | InvalidType.

(** type_manager_impl.cpp:30-66 *)
Definition addType (t : ty) (m : manager) : manager * code :=
  match tname t with
  | [] => (m, InvalidParameter)
  | _ =>
    if existsb (name_eqb (toLowerCase (tname t))) reservedTypeNames then (m, Reserved)
    else if negb (validateTypeName (tname t)) then (m, ValidateFailed)
    else match get (tname t) m with
         | Some t' => if ty_equal t' t then (m, Success) else (m, AlreadyExists)
         | None => (m ++ [(tname t, t)], Success)
         end
  end.

(** type_manager_impl.cpp:68-92 *)
Definition removeType (n : name) (m : manager) : manager * code :=
  match get n m with
  | None => (m, NotFound)
  | Some _ => (filter (fun e => negb (name_eqb (fst e) n)) m, Success)
  end.

(** type_manager_impl.cpp:94-127 *)
Definition getType (n : name) (m : manager) : option ty := get n m.
Definition getTypes (m : manager) : list name := map fst m.
Definition hasType (n : name) (m : manager) : bool := match get n m with Some _ => true | None => false end.

Inductive op := AddType (t : ty) | RemoveType (n : name).
Definition step (m : manager) (o : op) : manager * code :=
  match o with AddType t => addType t m | RemoveType n => removeType n m end.

(** newest operation first *)
Fixpoint after (h : list op) : manager :=
  match h with [] => [] | o :: r => fst (step (after r) o) end.

(** ** Property object classes *)

Inductive answer (A : Type) := Found (a : A) | Fails (c : code) | OutOfStack.
Arguments Found {A}. Arguments Fails {A}. Arguments OutOfStack {A}.

Fixpoint find_prop (n : name) (l : list (name * Z)) : option Z :=
  match l with [] => None | (k, p) :: r => if name_eqb k n then Some p else find_prop n r end.

(** property_object_class_impl.cpp:42-72.  The recursion over parents is
    bounded only by the stack: [depth] calls. *)
Fixpoint getProperty (depth : nat) (m : manager) (c : cls) (n : name) : answer Z :=
  match depth with
  | O => OutOfStack
  | S depth' =>
    match find_prop n (props c) with
    | Some p => Found p
    | None =>
      match parent c with
      | None => Fails NotFound
      | Some q => match get q m with
                  | None => Fails NotFound
                  | Some t => match tbody t with
                              | Class c' => getProperty depth' m c' n
                              | Plain _ => Fails InvalidType
                              end
                  end
      end
    end
  end.

(** property_object_class_impl.cpp:74-104 *)
Fixpoint hasProperty (depth : nat) (m : manager) (c : cls) (n : name) : answer bool :=
  match depth with
  | O => OutOfStack
  | S depth' =>
    match find_prop n (props c) with
    | Some p => Found true
    | None =>
      match parent c with
      | None => Found false
      | Some q => match get q m with
                  | None => Fails NotFound
                  | Some t => match tbody t with
                              | Class c' => hasProperty depth' m c' n
                              | Plain _ => Fails InvalidType
                              end
                  end
      end
    end
  end.

(** ordered map: insert_or_assign keeps the position of an existing key *)
Fixpoint assign (n : name) (p : Z) (l : list (name * Z)) : list (name * Z) :=
  match l with [] => [(n, p)] | (k, q) :: r => if name_eqb k n then (k, p) :: r else (k, q) :: assign n p r end.
Definition remove_key (n : name) (l : list (name * Z)) : list (name * Z) := filter (fun e => negb (name_eqb (fst e) n)) l.

(** property_object_class_impl.cpp:186-199 *)
Fixpoint take_ordered (ord : list name) (l : list (name * Z)) : list (name * Z) :=
  match ord with
  | [] => l
  | n :: r => match find_prop n l with
              | Some p => (n, p) :: take_ordered r (remove_key n l)
              | None => take_ordered r l
              end
  end.

(** property_object_class_impl.cpp:106-214 (getInheritedProperties,
    getWithNormalOrder, getWithCustomOrder, getProperties with
    includeInherited = true) *)
Fixpoint getProperties (depth : nat) (m : manager) (c : cls) : answer (list (name * Z)) :=
  match depth with
  | O => OutOfStack
  | S depth' =>
    let inherited :=
      match parent c with
      | None => Found []
      | Some q => match get q m with
                  | None => Fails NotFound
                  | Some t => match tbody t with
                              | Class c' => getProperties depth' m c'
                              | Plain _ => Fails InvalidType
                              end
                  end
      end in
    match inherited with
    | Found l =>
        match order c with
        | [] => Found (l ++ props c)
        | _ =>
          let lookup := fold_left (fun a e => assign (fst e) (snd e) a) (l ++ props c) [] in
          Found (take_ordered (order c) lookup)
        end
    | Fails e => Fails e
    | OutOfStack => OutOfStack
    end
  end.
