(** Serialization of core objects to JSON and back.
    Models core/coretypes/src/json_serializer_impl.cpp, json_deserializer_impl.cpp,
    json_serialized_object.cpp, json_serialized_list.cpp, util.cpp, the serialize
    and Deserialize functions of the core types (integer_impl.h, float_impl.h,
    boolean_impl.h, stringobject_impl.cpp, ratio_impl.cpp, complex_number_impl.cpp,
    enumeration_impl.cpp, struct_impl.h) and of the containers
    (core/corecontainers/src/listobject_impl.cpp, dictobject_impl.cpp).

    Simplifications.  The text is a list of events, one per call of the JSON
    writer; the third-party writer and parser (rapidjson) are trusted to carry
    the same events, except that a finite number is read back as [rt f] for an
    arbitrary function [rt]: the parser is compiled without full precision.
    A floating-point number is an opaque code ([0] is 0.0; not-a-number and the
    infinities have codes too: external/rapidjson/src/CMakeLists.txt 6-8 makes
    the writer and the parser handle them).  An integer number of the text
    that does not fit 64 bits is a float number of the tree.  The default values
    of structure types, the integer values of enumerators and the `frozen` flags
    are not modelled; recursion never exhausts the stack. *)
From Coq Require Import String Ascii List Bool ZArith.
Import ListNotations.
Open Scope Z_scope.

(** An interface id: Data1, Data2, Data3 and the eight bytes of Data4. *)
Definition iid := list Z.
(** baseobject.h 23. *)
Definition unknown_id : iid := [0; 0; 0; 192; 0; 0; 0; 0; 0; 0; 70].

Fixpoint ids_eqb (a b : iid) : bool :=
  match a, b with
  | [], [] => true
  | x :: a', y :: b' => (x =? y) && ids_eqb a' b'
  | _, _ => false
  end.

(** CoreType, coretype.h, for the objects modelled. *)
Inductive ctype := ctBool | ctInt | ctFloat | ctString | ctList | ctDict | ctRatio
                 | ctComplex | ctStruct | ctEnum | ctUndefined.

(** Types: a simple type, an enumeration type, a structure type. *)
Inductive ty :=
| TSimple (c : ctype)
| TEnum (name : string) (values : list string)
| TStruct (name : string) (fields : list (string * ty)).

(** Objects.  A structure holds its type and a dictionary of its fields. *)
Inductive value :=
| VNull
| VBool (b : bool)
| VInt (z : Z)
| VFloat (f : Z)
| VStr (s : string)
| VList (id : iid) (items : list value)
| VDict (kid vid : iid) (items : list (value * value))
| VRatio (n d : Z)
| VComplex (re im : Z)
| VEnum (tname : string) (tvalues : list string) (v : string)
| VStruct (tname : string) (tfields : list (string * ty)) (kid vid : iid) (fields : list (string * value)).

(** Calls of the JSON writer. *)
Inductive event :=
| EObj | EEndObj | EArr | EEndArr
| EKey (s : string) | ENull | EBool (b : bool) | EInt (z : Z) | EFloat (f : Z) | EStr (s : string).

(** ---- Interface ids as text: util.cpp. ---- *)

Definition hex_digits : list ascii :=
  ["0"; "1"; "2"; "3"; "4"; "5"; "6"; "7"; "8"; "9"; "A"; "B"; "C"; "D"; "E"; "F"]%char.
Definition dig (d : Z) : ascii := nth (Z.to_nat d) hex_digits "0"%char.

(** `{:0wX}`: [w] upper-case hexadecimal digits. *)
Fixpoint hex (w : nat) (z : Z) : string :=
  match w with
  | O => EmptyString
  | S w' => String (dig (z / 16 ^ Z.of_nat w' mod 16)) (hex w' z)
  end.

(** util.cpp 9-36, daqInterfaceIdToString. *)
Definition id_text (i : iid) : string :=
  let f n := nth n i 0 in
  ("{" ++ hex 8 (f 0%nat) ++ "-" ++ hex 4 (f 1%nat) ++ "-" ++ hex 4 (f 2%nat) ++ "-"
   ++ hex 2 (f 3%nat) ++ hex 2 (f 4%nat) ++ "-"
   ++ hex 2 (f 5%nat) ++ hex 2 (f 6%nat) ++ hex 2 (f 7%nat)
   ++ hex 2 (f 8%nat) ++ hex 2 (f 9%nat) ++ hex 2 (f 10%nat) ++ "}")%string.

(** util.cpp 41-82, hexStringToUint32: one character. *)
Definition hex_val (c : ascii) : option Z :=
  let n := Z.of_nat (nat_of_ascii c) in
  if (48 <=? n) && (n <=? 57) then Some (n - 48)
  else if (97 <=? n) && (n <=? 102) then Some (n - 97 + 10)
  else if (65 <=? n) && (n <=? 70) then Some (n - 65 + 10)
  else None.
Fixpoint hex_num (acc : Z) (s : string) : option Z :=
  match s with
  | EmptyString => Some acc
  | String c s' =>
      match hex_val c with
      | None => None
      | Some d => if (4294967295 - d) / 16 <? acc then None else hex_num (acc * 16 + d) s'
      end
  end.

Definition char_is (s : string) (pos : nat) (c : ascii) : bool :=
  match String.get pos s with Some x => Ascii.eqb x c | None => false end.

Fixpoint set_nth (n : nat) (x : Z) (l : list Z) : list Z :=
  match l, n with
  | [], _ => []
  | _ :: l', O => x :: l'
  | y :: l', S n' => y :: set_nth n' x l'
  end.

(** util.cpp 86-125, daqStringToInterfaceId: the steps after the checks of the
    length and the braces; a step that fails leaves what was stored before. *)
Inductive idstep := SField (n pos w : nat) | SDash (pos : nat).
Definition id_steps : list idstep :=
  [SField 0 1 8; SDash 9; SField 1 10 4; SDash 14; SField 2 15 4; SDash 19;
   SField 3 20 2; SField 4 22 2; SDash 24;
   SField 5 25 2; SField 6 27 2; SField 7 29 2; SField 8 31 2; SField 9 33 2; SField 10 35 2].
Fixpoint id_run (steps : list idstep) (s : string) (i : iid) : iid :=
  match steps with
  | [] => i
  | SDash pos :: rest => if char_is s pos "-"%char then id_run rest s i else i
  | SField n pos w :: rest =>
      match hex_num 0 (substring pos w s) with
      | Some x => id_run rest s (set_nth n x i)
      | None => i
      end
  end.
Definition id_parse (s : string) (i : iid) : iid :=
  if negb (Nat.eqb (String.length s) 38) then i
  else if char_is s 0 "{"%char && char_is s 37 "}"%char then id_run id_steps s i
  else i.

(** ---- serialize ---- *)

(** `key(k); writeString(id, 38)`, only when the id is not IUnknown's and the
    version is greater than 1: listobject_impl.cpp 437-444, dictobject_impl.cpp
    396-412. *)
Definition id_events (version : Z) (k : string) (i : iid) : list event :=
  if (version >? 1) && negb (ids_eqb i unknown_id) then [EKey k; EStr (id_text i)] else [].

(** startTaggedObject, json_serializer_impl.cpp 22-35. *)
Definition tagged (id : string) : list event := [EObj; EKey "__type"; EStr id].

Section Serialize.
Variable version : Z.

Fixpoint serialize (v : value) : list event :=
  match v with
  | VNull => [ENull]                     (* a null element of a container *)
  | VBool b => [EBool b]                 (* boolean_impl.h 50-57 *)
  | VInt z => [EInt z]                   (* integer_impl.h 24-31 *)
  | VFloat f => [EFloat f]               (* float_impl.h 37-44 *)
  | VStr s => [EStr s]                   (* stringobject_impl.cpp 238-247 *)
  | VList id items =>                    (* listobject_impl.cpp 425-479 *)
      let body := EArr :: (fix go l := match l with [] => [] | x :: l' => serialize x ++ go l' end) items ++ [EEndArr] in
      if version >? 1
      then tagged "List" ++ id_events version "itemIntfID" id ++ [EKey "values"] ++ body ++ [EEndObj]
      else body
  | VDict kid vid items =>               (* dictobject_impl.cpp 388-462 *)
      tagged "Dict" ++ id_events version "keyIntfID" kid ++ id_events version "valueIntfID" vid ++
      [EKey "values"; EArr] ++
      (fix go l := match l with
                   | [] => []
                   | (k, x) :: l' =>
                       [EObj; EKey "key"] ++ serialize k ++ [EKey "value"] ++ serialize x ++ [EEndObj] ++ go l'
                   end) items ++
      [EEndArr; EEndObj]
  | VRatio n d =>                        (* ratio_impl.cpp 103-116 *)
      tagged "Ratio" ++ [EKey "num"; EInt n; EKey "den"; EInt d; EEndObj]
  | VComplex re im =>                    (* complex_number_impl.cpp 162-171 *)
      tagged "ComplexNumber" ++ [EKey "real"; EFloat re; EKey "imaginary"; EFloat im; EEndObj]
  | VEnum tn _ v =>                      (* enumeration_impl.cpp 168-184 *)
      tagged "Enumeration" ++ [EKey "typeName"; EStr tn; EKey "value"; EStr v; EEndObj]
  | VStruct tn _ kid vid fields =>       (* struct_impl.h 329-354; the fields are a dictionary *)
      tagged "Struct" ++ [EKey "typeName"; EStr tn; EKey "fields"] ++
      (tagged "Dict" ++ id_events version "keyIntfID" kid ++ id_events version "valueIntfID" vid ++
       [EKey "values"; EArr] ++
       (fix go l := match l with
                    | [] => []
                    | (k, x) :: l' =>
                        [EObj; EKey "key"; EStr k; EKey "value"] ++ serialize x ++ [EEndObj] ++ go l'
                    end) fields ++
       [EEndArr; EEndObj]) ++
      [EEndObj]
  end.
End Serialize.

(** ---- The parsed document ---- *)

Inductive json :=
| JNull | JBool (b : bool) | JInt (z : Z) | JFloat (f : Z) | JStr (s : string)
| JArr (items : list json) | JObj (members : list (string * json)).

(** rapidjson: from the text to the tree.  [None]: a parse error.  [fuel] bounds
    the number of events read. *)
Fixpoint parse_value (rt : Z -> Z) (fuel : nat) (es : list event) : option (json * list event) :=
  match fuel with
  | O => None
  | S n =>
      match es with
      | ENull :: es' => Some (JNull, es')
      | EBool b :: es' => Some (JBool b, es')
      | EInt z :: es' => Some (JInt z, es')
      | EFloat f :: es' => Some (JFloat (rt f), es')
      | EStr s :: es' => Some (JStr s, es')
      | EArr :: es' => match parse_items rt n es' with Some (l, r) => Some (JArr l, r) | None => None end
      | EObj :: es' => match parse_members rt n es' with Some (l, r) => Some (JObj l, r) | None => None end
      | _ => None
      end
  end
with parse_items (rt : Z -> Z) (fuel : nat) (es : list event) : option (list json * list event) :=
  match fuel with
  | O => None
  | S n =>
      match es with
      | EEndArr :: es' => Some ([], es')
      | _ => match parse_value rt n es with
             | Some (j, r) => match parse_items rt n r with Some (l, r') => Some (j :: l, r') | None => None end
             | None => None
             end
      end
  end
with parse_members (rt : Z -> Z) (fuel : nat) (es : list event) : option (list (string * json) * list event) :=
  match fuel with
  | O => None
  | S n =>
      match es with
      | EEndObj :: es' => Some ([], es')
      | EKey k :: es' =>
          match parse_value rt n es' with
          | Some (j, r) => match parse_members rt n r with Some (l, r') => Some ((k, j) :: l, r') | None => None end
          | None => None
          end
      | _ => None
      end
  end.
(** json_deserializer_impl.cpp 155-159: nothing may follow. *)
Definition parse (rt : Z -> Z) (es : list event) : option json :=
  match parse_value rt (S (length es)) es with Some (j, []) => Some j | _ => None end.

(** ---- deserialize ---- *)

(** What a call ends with: an object, an error code, a C++ exception that leaves
    the call, a null pointer that is used.  [NoFuel] is an artefact of the model
    (never returned by [deserialize]). *)
Inductive res := Good (v : value) | Fail | Throws | Crash | NoFuel.

(** The type manager given as the context: the types by name. *)
Definition manager := list (string * ty).
Fixpoint find {A} (k : string) (l : list (string * A)) : option A :=
  match l with
  | [] => None
  | (k', x) :: l' => if String.eqb k k' then Some x else find k l'
  end.

(** createString from a C string: up to the first zero byte. *)
Fixpoint cstr (s : string) : string :=
  match s with
  | EmptyString => EmptyString
  | String c s' => if Ascii.eqb c zero then EmptyString else String c (cstr s')
  end.

(** Equality of two keys of a dictionary: dictobject_impl.h 30-50 with getHashCode
    and equals of the classes.  The other objects have the hash code of their
    address, so two of them are different keys. *)
Definition key_eqb (a b : value) : bool :=
  match a, b with
  | VBool x, VBool y => Bool.eqb x y
  | VInt x, VInt y => x =? y
  | VFloat x, VFloat y => x =? y
  | VStr x, VStr y => Nat.eqb (String.length x) (String.length y) && String.eqb (cstr x) (cstr y)
  | VComplex x x', VComplex y y' => (x =? y) && (x' =? y')
  | VEnum t _ x, VEnum u _ y => String.eqb t u && String.eqb x y
  | _, _ => false
  end.
(** dictobject_impl.cpp 59-86, set: a null key is refused; an existing key keeps
    its place. *)
Fixpoint dict_put (k v : value) (l : list (value * value)) : list (value * value) :=
  match l with
  | [] => [(k, v)]
  | (k', v') :: l' => if key_eqb k' k then (k', v) :: l' else (k', v') :: dict_put k v l'
  end.
Definition dict_set (k v : value) (l : list (value * value)) : list (value * value) :=
  match k with VNull => l | _ => dict_put k v l end.

(** getCoreType. *)
Definition core_type (v : value) : ctype :=
  match v with
  | VNull => ctUndefined
  | VBool _ => ctBool | VInt _ => ctInt | VFloat _ => ctFloat | VStr _ => ctString
  | VList _ _ => ctList | VDict _ _ _ => ctDict | VRatio _ _ => ctRatio
  | VComplex _ _ => ctComplex | VEnum _ _ _ => ctEnum | VStruct _ _ _ _ _ => ctStruct
  end.
Definition ctype_eqb (a b : ctype) : bool :=
  match a, b with
  | ctBool, ctBool | ctInt, ctInt | ctFloat, ctFloat | ctString, ctString | ctList, ctList
  | ctDict, ctDict | ctRatio, ctRatio | ctComplex, ctComplex | ctStruct, ctStruct
  | ctEnum, ctEnum | ctUndefined, ctUndefined => true
  | _, _ => false
  end.

Fixpoint strs_eqb (a b : list string) : bool :=
  match a, b with
  | [], [] => true
  | x :: a', y :: b' => String.eqb x y && strs_eqb a' b'
  | _, _ => false
  end.
(** equals of types: struct_type_impl.cpp 82-106, names, types and name. *)
Fixpoint ty_eqb (a b : ty) : bool :=
  match a, b with
  | TSimple c, TSimple d => ctype_eqb c d
  | TEnum n v, TEnum m w => String.eqb n m && strs_eqb v w
  | TStruct n f, TStruct m g =>
      String.eqb n m &&
      (fix go (l : list (string * ty)) (k : list (string * ty)) : bool :=
         match l, k with
         | [], [] => true
         | (x, t) :: l', (y, u) :: k' => String.eqb x y && ty_eqb t u && go l' k'
         | _, _ => false
         end) f g
  | _, _ => false
  end.

(** The type of an object as the type of a field: struct_impl.h 144-158. *)
Definition type_of (v : value) : ty :=
  match v with
  | VEnum n vs _ => TEnum n vs
  | VStruct n fs _ _ _ => TStruct n fs
  | _ => TSimple (core_type v)
  end.

(** struct_impl.h 109-127: is this object accepted for a field of this type? *)
Definition field_ok (t : ty) (v : value) : bool :=
  match v with
  | VNull => true
  | _ =>
      match t with
      | TStruct _ _ => match v with VStruct n fs _ _ _ => ty_eqb (TStruct n fs) t | _ => false end
      | TSimple c => ctype_eqb c ctUndefined || ctype_eqb (core_type v) c
      | TEnum _ _ => ctype_eqb (core_type v) ctEnum
      end
  end.

(** The fields of the dictionary as names and objects; a key that is not a
    string makes the conversion throw. *)
Fixpoint named (l : list (value * value)) : option (list (string * value)) :=
  match l with
  | [] => Some []
  | (VStr s, v) :: l' => match named l' with Some r => Some ((s, v) :: r) | None => None end
  | _ :: _ => None
  end.

(** struct_impl.h 99-129: fields that are missing are added (with null, no
    default values here), those present are checked. *)
Fixpoint fill (tfs : list (string * ty)) (fields : list (string * value)) : option (list (string * value)) :=
  match tfs with
  | [] => Some fields
  | (n, t) :: tfs' =>
      match find n fields with
      | None => fill tfs' (fields ++ [(n, VNull)])
      | Some v => if field_ok t v then fill tfs' fields else None
      end
  end.

(** ctutils.h 701-714, validateTypeName. *)
Definition is_letter (c : ascii) : bool :=
  let n := Z.of_nat (nat_of_ascii c) in
  ((65 <=? n) && (n <=? 90)) || ((97 <=? n) && (n <=? 122)) || (n =? 95).
Definition is_digit (c : ascii) : bool :=
  let n := Z.of_nat (nat_of_ascii c) in (48 <=? n) && (n <=? 57).
Fixpoint all_chars (s : string) : bool :=
  match s with
  | EmptyString => true
  | String c s' => (is_letter c || is_digit c) && all_chars s'
  end.
Definition valid_name (s : string) : bool :=
  match s with EmptyString => false | String c s' => is_letter c && all_chars s' end.
Definition lower (c : ascii) : ascii :=
  let n := Z.of_nat (nat_of_ascii c) in
  if (65 <=? n) && (n <=? 90) then ascii_of_nat (nat_of_ascii c + 32) else c.
Fixpoint lower_str (s : string) : string :=
  match s with EmptyString => EmptyString | String c s' => String (lower c) (lower_str s') end.
(** type_manager_impl.cpp 14-28. *)
Definition reserved : list string :=
  ["argumentinfo"; "callableinfo"; "unit"; "complexnumber"; "ratio"; "devicetype"; "functionblocktype";
   "servertype"; "datadescriptor"; "datarule"; "dimension"; "dimensionrule"; "range"; "scaling"]%string.
Definition name_ok (s : string) : bool :=
  negb (existsb (String.eqb (lower_str s)) reserved) && valid_name s.

(** struct_impl.h 79-165, the constructor used by createStruct. *)
Definition create_struct (tn : string) (kid vid : iid) (items : list (value * value)) (tm : manager) : res * manager :=
  match find tn tm with
  | Some (TStruct n tfs) =>
      match named items with
      | None => (Fail, tm)
      | Some fields =>
          if forallb (fun f => existsb (fun t => String.eqb (fst f) (fst t)) tfs) fields
          then match fill tfs fields with
               | Some fields' => (Good (VStruct n tfs kid vid fields'), tm)
               | None => (Fail, tm)
               end
          else (Fail, tm)
      end
  | Some _ => (Fail, tm)
  | None =>
      match named items with
      | None => (Fail, tm)
      | Some fields =>
          let tfs := map (fun f => (fst f, type_of (snd f))) fields in
          if forallb (fun f => valid_name (fst f)) fields && name_ok tn
          then (Good (VStruct tn tfs kid vid fields), tm ++ [(tn, TStruct tn tfs)])
          else (Fail, tm)
      end
  end.

(** enumeration_impl.cpp 6-47, for a string. *)
Definition create_enum (tn v : string) (tm : manager) : res :=
  match find tn tm with
  | Some (TEnum n vs) => if existsb (String.eqb v) vs && negb (String.eqb v EmptyString) then Good (VEnum n vs v) else Fail
  | _ => Fail
  end.

(** The optional interface id of a container: listobject_impl.cpp 496-505,
    dictobject_impl.cpp 466-485.  [None]: a value that is not a string makes
    getCharPtr of an empty pointer throw. *)
Definition read_id (k : string) (ms : list (string * json)) : option iid :=
  match find k ms with
  | None => Some unknown_id
  | Some (JStr s) => Some (id_parse (cstr s) unknown_id)
  | Some _ => None
  end.

(** readString, readInt, readFloat of json_serialized_object.cpp. *)
Definition read_string (k : string) (ms : list (string * json)) : option string :=
  match find k ms with Some (JStr s) => Some (cstr s) | _ => None end.
Definition read_int (k : string) (ms : list (string * json)) : option Z :=
  match find k ms with Some (JInt z) => Some z | _ => None end.
Definition read_float (k : string) (ms : list (string * json)) : option Z :=
  match find k ms with Some (JFloat f) => Some f | _ => None end.

(** The loops over the elements of an array: [d] deserializes one. *)
Section Loops.
Variable d : manager -> json -> res * manager.

(** DeserializeList, json_deserializer_impl.cpp 61-80: an error is returned. *)
Fixpoint plain_items (tm : manager) (l : list json) : (res + list value) * manager :=
  match l with
  | [] => (inr [], tm)
  | j :: l' =>
      match d tm j with
      | (Good v, tm1) =>
          match plain_items tm1 l' with
          | (inr vs, tm2) => (inr (v :: vs), tm2)
          | (inl e, tm2) => (inl e, tm2)
          end
      | (e, tm1) => (inl e, tm1)
      end
  end.
(** deserializeList, listobject_impl.cpp 509-513: an error is thrown. *)
Definition thrown (e : res) : res := match e with Fail => Throws | _ => e end.
Fixpoint list_items (tm : manager) (l : list json) : (res + list value) * manager :=
  match l with
  | [] => (inr [], tm)
  | j :: l' =>
      match d tm j with
      | (Good v, tm1) =>
          match list_items tm1 l' with
          | (inr vs, tm2) => (inr (v :: vs), tm2)
          | (inl e, tm2) => (inl e, tm2)
          end
      | (e, tm1) => (inl (thrown e), tm1)
      end
  end.
(** readObject of a member, json_serialized_object.cpp 74-83. *)
Definition read_object (k : string) (tm : manager) (ms : list (string * json)) : res * manager :=
  match find k ms with None => (Fail, tm) | Some j => d tm j end.
(** deserializeDict, dictobject_impl.cpp 487-519: the loop.  A null element gives
    no object, and the null pointer is used. *)
Fixpoint dict_items (tm : manager) (acc : list (value * value)) (l : list json) : (res + list (value * value)) * manager :=
  match l with
  | [] => (inr acc, tm)
  | JObj ms :: l' =>
      match read_object "key" tm ms with
      | (Good k, tm1) =>
          match read_object "value" tm1 ms with
          | (Good v, tm2) => dict_items tm2 (dict_set k v acc) l'
          | (e, tm2) => (inl e, tm2)
          end
      | (e, tm1) => (inl e, tm1)
      end
  | JNull :: _ => (inl Crash, tm)
  | _ :: _ => (inl Fail, tm)
  end.
End Loops.

(** json_deserializer_impl.cpp 13-59 and 83-133, without a factory callback. *)
Fixpoint deser (fuel : nat) (tm : manager) (j : json) : res * manager :=
  match fuel with
  | O => (NoFuel, tm)
  | S n =>
      match j with
      | JNull => (Good VNull, tm)
      | JBool b => (Good (VBool b), tm)
      | JInt z => (Good (VInt z), tm)
      | JFloat f => (Good (VFloat f), tm)
      | JStr s => (Good (VStr (cstr s)), tm)
      | JArr l =>
          match plain_items (deser n) tm l with
          | (inr vs, tm') => (Good (VList unknown_id vs), tm')
          | (inl e, tm') => (e, tm')
          end
      | JObj ms =>
          match find "__type" ms with
          | Some (JStr id) =>
              let id := cstr id in
              if String.eqb id "List" then
                match read_id "itemIntfID" ms with
                | None => (Throws, tm)
                | Some i =>
                    match find "values" ms with
                    | Some (JArr l) =>
                        match list_items (deser n) tm l with
                        | (inr vs, tm') => (Good (VList i vs), tm')
                        | (inl e, tm') => (e, tm')
                        end
                    | _ => (Throws, tm)
                    end
                end
              else if String.eqb id "Dict" then
                match read_id "keyIntfID" ms, read_id "valueIntfID" ms with
                | Some ki, Some vi =>
                    match find "values" ms with
                    | Some (JArr l) =>
                        match dict_items (deser n) tm [] l with
                        | (inr kvs, tm') => (Good (VDict ki vi kvs), tm')
                        | (inl e, tm') => (e, tm')
                        end
                    | _ => (Crash, tm)
                    end
                | _, _ => (Throws, tm)
                end
              else if String.eqb id "Ratio" then
                match read_int "num" ms, read_int "den" ms with
                | Some a, Some b => (if b =? 0 then Fail else Good (VRatio a b), tm)
                | _, _ => (Throws, tm)
                end
              else if String.eqb id "ComplexNumber" then
                match read_float "real" ms with
                | Some a => (Good (VComplex a (match read_float "imaginary" ms with Some b => b | None => 0 end)), tm)
                | None => (Good (VComplex 0 0), tm)
                end
              else if String.eqb id "Enumeration" then
                match read_string "typeName" ms with
                | None => (Fail, tm)
                | Some tn =>
                    match read_string "value" ms with
                    | None => (Fail, tm)
                    | Some v => (create_enum tn v tm, tm)
                    end
                end
              else if String.eqb id "Struct" then
                match read_string "typeName" ms with
                | None => (Fail, tm)
                | Some tn =>
                    match read_object (deser n) "fields" tm ms with
                    | (Good (VDict ki vi kvs), tm') => create_struct tn ki vi kvs tm'
                    | (Good _, tm') => (Fail, tm')
                    | (e, tm') => (e, tm')
                    end
                end
              else (Fail, tm)
          | _ => (Fail, tm)
          end
      end
  end.

(** The depth of a tree, used as the bound on the recursion. *)
Fixpoint depth (j : json) : nat :=
  match j with
  | JArr l => S ((fix go l := match l with [] => O | x :: l' => Nat.max (depth x) (go l') end) l)
  | JObj ms => S ((fix go (l : list (string * json)) := match l with [] => O | (_, x) :: l' => Nat.max (depth x) (go l') end) ms)
  | _ => O
  end.

(** json_deserializer_impl.cpp 135-175. *)
Definition deserialize (rt : Z -> Z) (tm : manager) (es : list event) : res * manager :=
  match parse rt es with
  | None => (Fail, tm)
  | Some j => deser (S (depth j)) tm j
  end.
