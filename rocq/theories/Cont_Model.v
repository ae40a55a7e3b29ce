(** Lists and dictionaries: core/corecontainers/src/listobject_impl.cpp and
    dictobject_impl.cpp, with the equality, hash codes and ordering of the
    values they hold (core/coretypes: ordinalobject_impl.h, boolean_impl.h,
    stringobject_impl.cpp, ratio_impl.cpp, intfs.h, objectptr.h).
    An object is its address and its content; the content of an object does
    not change while it is compared.  A floating point number is an IEEE
    number of SpecFloat.  Reading through a null pointer and an undefined
    conversion are a separate outcome.  A 64-bit build is assumed.
    Not modelled: interface ids of elements, iterators, serialization (see
    Json), printing, objects that contain themselves, failing allocation. *)
From Verif Require Import Base.
From Coq Require Import SpecFloat.
Local Open Scope Z_scope.

Inductive scalar :=
| SInt (i : Z)                (** IInteger *)
| SFlt (f : spec_float)       (** IFloat *)
| SBool (b : bool)            (** IBoolean *)
| SStr (s : list Z)           (** IString: its bytes, 0..255 *)
| SRat (n d : Z)              (** IRatio *)
| SOther.                     (** any object with the default equals and hash *)

Inductive obj :=
| OScal (a : Z) (s : scalar)
| OList (a : Z) (xs : list (option obj))
| ODict (a : Z) (es : list (obj * option obj)).

Definition addr (x : obj) : Z := match x with OScal a _ => a | OList a _ => a | ODict a _ => a end.

(** two interface pointers are the same pointer *)
Definition same_ptr (x y : option obj) : bool :=
  match x, y with
  | None, None => true
  | Some x, Some y => addr x =? addr y
  | _, _ => false
  end.

(** ** Hash codes *)

(** stringobject_impl.cpp:50-59, one round; char is signed, uint32_t wraps *)
Definition mask32 : Z := 2 ^ 32 - 1.
Definition schar (b : Z) : Z := if b <? 128 then b else b - 256.
Definition hash_round (h b : Z) : Z :=
  let h := Z.land (Z.land (Z.shiftl h 4) mask32 + schar b) mask32 in
  let high := Z.land h 4026531840 in
  let h := if high =? 0 then h else Z.lxor h (Z.shiftr high 24) in
  Z.land h (Z.lxor mask32 high).

(** the bytes before the first NUL *)
Fixpoint c_str (s : list Z) : list Z :=
  match s with
  | [] => []
  | b :: r => if b =? 0 then [] else b :: c_str r
  end.

(** stringobject_impl.cpp:41-66 *)
Definition str_hash (s : list Z) : Z := fold_left hash_round (c_str s) 0.

(** static_cast<SizeT>(Float): undefined outside of the range *)
Definition to_size (f : spec_float) : option Z :=
  match f with
  | S754_zero _ => Some 0
  | S754_finite s m e =>
      let t := if 0 <=? e then Z.pos m * 2 ^ e else Z.pos m / 2 ^ (- e) in
      if s then (if t =? 0 then Some 0 else None) else (if t <? two64 then Some t else None)
  | _ => None
  end.

(** ordinalobject_impl.h:128-138, boolean_impl.h:36-47, stringobject_impl.cpp:41-66;
    intfs.h:277-283 for ratios, lists, dictionaries and other objects.
    None: undefined *)
Definition hash (x : obj) : option Z :=
  match x with
  | OScal a s =>
      match s with
      | SInt i => Some (w64 i)
      | SFlt f => to_size f
      | SBool b => Some (if b then 1 else 0)
      | SStr s => Some (str_hash s)
      | SRat _ _ => Some a
      | SOther => Some a
      end
  | OList a _ => Some a
  | ODict a _ => Some a
  end.

(** ** equals *)

Inductive eres := Yes | No | Undef | Stuck.
Definition b2e (b : bool) : eres := if b then Yes else No.

(** ctutils.h:494-503 without overflow *)
Definition simp (n d : Z) : Z * Z :=
  let g := Z.gcd n d in if g <=? 1 then (n, d) else (Z.quot n g, Z.quot d g).

(** ratio_impl.cpp:139-170 on two ratios *)
Definition rat_equal (n1 d1 n2 d2 : Z) : bool :=
  let '(a, b) := simp n1 d1 in let '(c, d) := simp n2 d2 in (a =? c) && (b =? d).

Fixpoint bytes_eqb (a b : list Z) : bool :=
  match a, b with
  | [], [] => true
  | x :: a, y :: b => (x =? y) && bytes_eqb a b
  | _, _ => false
  end.

(** stringobject_impl.cpp:69-107 on two strings: same length and strcmp *)
Definition str_equal (s t : list Z) : bool :=
  (Z.of_nat (length s) =? Z.of_nat (length t)) && bytes_eqb (c_str s) (c_str t).

(** ordinalobject_impl.h:81-105 (no null check), stringobject_impl.cpp:69-107,
    ratio_impl.cpp:139-170, intfs.h:285-309 *)
Definition scal_equal (a : Z) (s : scalar) (y : option obj) : eres :=
  match s with
  | SInt i => match y with
              | None => Undef
              | Some (OScal _ (SInt j)) => b2e (j =? i)
              | Some _ => No
              end
  | SFlt f => match y with
              | None => Undef
              | Some (OScal _ (SFlt g)) => b2e (SFeqb g f)
              | Some _ => No
              end
  | SBool b => match y with
               | None => Undef
               | Some (OScal _ (SBool c)) => b2e (Bool.eqb c b)
               | Some _ => No
               end
  | SStr s => match y with
              | Some (OScal _ (SStr t)) => b2e (str_equal s t)
              | _ => No
              end
  | SRat n d => match y with
                | Some (OScal _ (SRat n' d')) => b2e (rat_equal n d n' d')
                | _ => No
                end
  | SOther => match y with
              | None => No
              | Some y => b2e (a =? addr y)
              end
  end.

(** listobject_impl.cpp:131-143: the loop; [eq] is the equals of the items *)
Fixpoint items_equal (eq : obj -> option obj -> eres) (xs ys : list (option obj)) : eres :=
  match xs, ys with
  | x :: xs, y :: ys =>
      if same_ptr x y then items_equal eq xs ys
      else match x with
           | None => Undef
           | Some x => match eq x y with
                       | Yes => items_equal eq xs ys
                       | r => r
                       end
           end
  | _, _ => Yes
  end.

(** listobject_impl.cpp:103-146 *)
Definition list_equal (eq : obj -> option obj -> eres) (xs : list (option obj)) (y : option obj) : eres :=
  match y with
  | Some (OList _ ys) => if negb (Nat.eqb (length xs) (length ys)) then No else items_equal eq xs ys
  | _ => No
  end.

(** tsl::ordered_map::find with BaseObjectHash and BaseObjectEqualTo
    (dictobject_impl.h:30-51): entries with the hash code of the key are
    compared, the key being the receiver.  Simplified: the table compares 32
    bits of the hash code; here all of them. *)
Inductive fres := FAt (i : nat) | FNone | FUndef.

Fixpoint find_from (eq : obj -> option obj -> eres) (h : Z) (k : option obj) (es : list (obj * option obj)) (i : nat) : fres :=
  match es with
  | [] => FNone
  | (k', _) :: r =>
      match hash k' with
      | None => FUndef
      | Some h' =>
          if h' =? h
          then match k with
               | None => FUndef
               | Some k => match eq k (Some k') with
                           | Yes => FAt i
                           | No => find_from eq h (Some k) r (S i)
                           | _ => FUndef
                           end
               end
          else find_from eq h k r (S i)
      end
  end.

(** BaseObjectHash: 0 for a null key *)
Definition key_hash (k : option obj) : option Z := match k with None => Some 0 | Some k => hash k end.

Definition find (eq : obj -> option obj -> eres) (es : list (obj * option obj)) (k : option obj) : fres :=
  match key_hash k with
  | None => FUndef
  | Some h => find_from eq h k es 0
  end.

(** objectptr.h:1427-1444 *)
Definition ptr_equals (eq : obj -> option obj -> eres) (x y : option obj) : eres :=
  match x with
  | None => match y with None => Yes | Some _ => No end
  | Some x => eq x y
  end.

(** dictobject_impl.cpp:379-390: the loop over the entries of the other *)
Fixpoint entries_equal (eq : obj -> option obj -> eres) (xs ys : list (obj * option obj)) : eres :=
  match ys with
  | [] => Yes
  | (k, v) :: r =>
      match find eq xs (Some k) with
      | FUndef => Undef
      | FNone => No
      | FAt i => match nth_error xs i with
                 | None => Undef
                 | Some (_, w) => match ptr_equals eq v w with
                                  | Yes => entries_equal eq xs r
                                  | o => o
                                  end
                 end
      end
  end.

(** dictobject_impl.cpp:360-399 *)
Definition dict_equal (eq : obj -> option obj -> eres) (xs : list (obj * option obj)) (y : option obj) : eres :=
  match y with
  | Some (ODict _ ys) => if negb (Nat.eqb (length ys) (length xs)) then No else entries_equal eq xs ys
  | _ => No
  end.

(** the call x->equals(y); [n] bounds the nesting *)
Fixpoint eqn (n : nat) (x : obj) (y : option obj) : eres :=
  match n with
  | O => Stuck
  | S n =>
      match x with
      | OScal a s => scal_equal a s y
      | OList _ xs => list_equal (eqn n) xs y
      | ODict _ es => dict_equal (eqn n) es y
      end
  end.

(** how deep an object nests *)
Fixpoint depth (x : obj) : nat :=
  match x with
  | OScal _ _ => 1
  | OList _ xs => S (fold_right (fun i m => Nat.max (match i with None => O | Some i => depth i end) m) O xs)
  | ODict _ es =>
      S (fold_right (fun e m => Nat.max (Nat.max (depth (fst e)) (match snd e with None => O | Some i => depth i end)) m) O es)
  end.

Definition equals (x : obj) (y : option obj) : eres :=
  eqn (depth x + match y with None => O | Some y => depth y end) x y.

(** ** Clones: listobject_impl.cpp:69-101, dictobject_impl.cpp:309-358.
    Lists and dictionaries are cloneable, the scalars are not; [nx] is the
    address of the next object that is made. *)
Definition clone_item (cl : Z -> obj -> obj * Z) (nx : Z) (x : option obj) : option obj * Z :=
  match x with
  | None => (None, nx)
  | Some x => let r := cl nx x in (Some (fst r), snd r)
  end.

Fixpoint clone_items (cl : Z -> obj -> obj * Z) (nx : Z) (xs : list (option obj)) : list (option obj) * Z :=
  match xs with
  | [] => ([], nx)
  | x :: xs => let r := clone_item cl nx x in
               let q := clone_items cl (snd r) xs in
               (fst r :: fst q, snd q)
  end.

(** the key and the value of each entry; insert of a key that is already there
    does not happen *)
Fixpoint clone_entries (cl : Z -> obj -> obj * Z) (nx : Z) (es : list (obj * option obj)) : list (obj * option obj) * Z :=
  match es with
  | [] => ([], nx)
  | (k, v) :: es => let rk := cl nx k in
                    let rv := clone_item cl (snd rk) v in
                    let q := clone_entries cl (snd rv) es in
                    ((fst rk, fst rv) :: fst q, snd q)
  end.

Fixpoint clonen (n : nat) (nx : Z) (x : obj) : obj * Z :=
  match n with
  | O => (x, nx)
  | S n =>
      match x with
      | OScal _ _ => (x, nx)
      | OList _ xs => let r := clone_items (clonen n) (nx + 1) xs in (OList nx (fst r), snd r)
      | ODict _ es => let r := clone_entries (clonen n) (nx + 1) es in (ODict nx (fst r), snd r)
      end
  end.

Definition clone (nx : Z) (x : obj) : obj := fst (clonen (depth x) nx x).

(** ** The list object *)

Inductive err := EFrozen | EOutOfRange | ENotFound | EArgNull.
Inductive res :=
| ROk
| RIgnored                          (** OPENDAQ_IGNORED *)
| RObj (x : option obj)             (** an object, with a reference for the caller *)
| RNum (n : nat)
| RBool (b : bool)
| RObjs (l : list (option obj))
| RErr (e : err)
| RUndef.

(** references the container takes and gives up: addRef and releaseRef calls *)
Inductive refev := Inc (a : Z) | Dec (a : Z).
Definition inc (x : option obj) : list refev := match x with None => [] | Some x => [Inc (addr x)] end.
Definition dec (x : option obj) : list refev := match x with None => [] | Some x => [Dec (addr x)] end.

Record lst := { lfrozen : bool; litems : list (option obj) }.
Definition lnew : lst := {| lfrozen := false; litems := [] |}.
Definition lput (l : lst) (xs : list (option obj)) : lst := {| lfrozen := lfrozen l; litems := xs |}.

(** std::vector: insert before, erase and assign at a position *)
Fixpoint vinsert {A} (i : nat) (x : A) (xs : list A) : list A :=
  match i, xs with
  | O, _ => x :: xs
  | S i, y :: r => y :: vinsert i x r
  | S _, [] => [x]
  end.
Fixpoint verase {A} (i : nat) (xs : list A) : list A :=
  match i, xs with
  | _, [] => []
  | O, _ :: r => r
  | S i, y :: r => y :: verase i r
  end.
Fixpoint vset {A} (i : nat) (x : A) (xs : list A) : list A :=
  match i, xs with
  | _, [] => []
  | O, _ :: r => x :: r
  | S i, y :: r => y :: vset i x r
  end.

Inductive lop :=
| LGet (i : nat) | LCount | LSet (i : nat) (x : option obj)
| LPushBack (x : option obj) | LPushFront (x : option obj)
| LMoveBack (x : option obj) | LMoveFront (x : option obj)
| LPopBack | LPopFront
| LInsert (i : nat) (x : option obj) | LRemove (i : nat) | LDelete (i : nat)
| LClear | LFreeze | LIsFrozen.

(** listobject_impl.cpp:148-162 *)
Definition l_get (l : lst) (i : nat) : lst * res * list refev :=
  match nth_error (litems l) i with
  | None => (l, RErr EOutOfRange, [])
  | Some x => (l, RObj x, inc x)
  end.

(** :170-190 *)
Definition l_set (l : lst) (i : nat) (x : option obj) : lst * res * list refev :=
  if lfrozen l then (l, RErr EFrozen, []) else
  match nth_error (litems l) i with
  | None => (l, RErr EOutOfRange, [])
  | Some old => (lput l (vset i x (litems l)), ROk, dec old ++ inc x)
  end.

(** :192-228 pushBack, pushFront and :230-250 moveBack, moveFront *)
Definition l_push_back (l : lst) (x : option obj) : lst * res * list refev :=
  if lfrozen l then (l, RErr EFrozen, []) else (lput l (litems l ++ [x]), ROk, inc x).
Definition l_push_front (l : lst) (x : option obj) : lst * res * list refev :=
  if lfrozen l then (l, RErr EFrozen, []) else (lput l (vinsert 0 x (litems l)), ROk, inc x).
Definition l_move_back (l : lst) (x : option obj) : lst * res * list refev :=
  if lfrozen l then (l, RErr EFrozen, []) else (lput l (litems l ++ [x]), ROk, []).
Definition l_move_front (l : lst) (x : option obj) : lst * res * list refev :=
  if lfrozen l then (l, RErr EFrozen, []) else (lput l (vinsert 0 x (litems l)), ROk, []).

(** :252-290: the reference of the list goes to the caller *)
Definition l_pop_back (l : lst) : lst * res * list refev :=
  if lfrozen l then (l, RErr EFrozen, []) else
  match nth_error (litems l) (length (litems l) - 1) with
  | None => (l, RErr ENotFound, [])
  | Some x => (lput l (verase (length (litems l) - 1) (litems l)), RObj x, [])
  end.
Definition l_pop_front (l : lst) : lst * res * list refev :=
  if lfrozen l then (l, RErr EFrozen, []) else
  match litems l with
  | [] => (l, RErr ENotFound, [])
  | x :: _ => (lput l (verase 0 (litems l)), RObj x, [])
  end.

(** :292-307 *)
Definition l_insert (l : lst) (i : nat) (x : option obj) : lst * res * list refev :=
  if lfrozen l then (l, RErr EFrozen, []) else
  if (length (litems l) <=? i)%nat then (l, RErr EOutOfRange, [])
  else (lput l (vinsert i x (litems l)), ROk, inc x).

(** :309-322: the reference of the list goes to the caller *)
Definition l_remove (l : lst) (i : nat) : lst * res * list refev :=
  if lfrozen l then (l, RErr EFrozen, []) else
  match nth_error (litems l) i with
  | None => (l, RErr EOutOfRange, [])
  | Some x => (lput l (verase i (litems l)), RObj x, [])
  end.

(** :324-346 *)
Definition l_delete (l : lst) (i : nat) : lst * res * list refev :=
  if lfrozen l then (l, RErr EFrozen, []) else
  match nth_error (litems l) i with
  | None => (l, RErr EOutOfRange, [])
  | Some x => (lput l (verase i (litems l)), ROk, dec x)
  end.

(** :392-404 *)
Definition release_items (xs : list (option obj)) : list refev := flat_map dec xs.

(** :348-358 *)
Definition l_clear (l : lst) : lst * res * list refev :=
  if lfrozen l then (l, RErr EFrozen, []) else (lput l [], ROk, release_items (litems l)).

(** :415-423 *)
Definition l_freeze (l : lst) : lst * res * list refev :=
  if lfrozen l then (l, RIgnored, []) else ({| lfrozen := true; litems := litems l |}, ROk, []).

Definition lstep (l : lst) (o : lop) : lst * res * list refev :=
  match o with
  | LGet i => l_get l i
  | LCount => (l, RNum (length (litems l)), [])
  | LSet i x => l_set l i x
  | LPushBack x => l_push_back l x
  | LPushFront x => l_push_front l x
  | LMoveBack x => l_move_back l x
  | LMoveFront x => l_move_front l x
  | LPopBack => l_pop_back l
  | LPopFront => l_pop_front l
  | LInsert i x => l_insert l i x
  | LRemove i => l_remove l i
  | LDelete i => l_delete l i
  | LClear => l_clear l
  | LFreeze => l_freeze l
  | LIsFrozen => (l, RBool (lfrozen l), [])
  end.

(** :406-409: the list is destroyed *)
Definition l_dispose (l : lst) : list refev := release_items (litems l).

(** ** The dictionary object *)

Record dct := { dfrozen : bool; dents : list (obj * option obj) }.
Definition dnew : dct := {| dfrozen := false; dents := [] |}.
Definition dput (d : dct) (es : list (obj * option obj)) : dct := {| dfrozen := dfrozen d; dents := es |}.

Inductive dop :=
| DGet (k : option obj) | DSet (k : option obj) (v : option obj)
| DRemove (k : option obj) | DDelete (k : option obj)
| DClear | DCount | DHas (k : option obj) | DKeys | DVals | DFreeze | DIsFrozen.

(** dictobject_impl.cpp:44-58 *)
Definition d_get (d : dct) (k : option obj) : dct * res * list refev :=
  match k with
  | None => (d, RErr EArgNull, [])
  | Some _ =>
      match find equals (dents d) k with
      | FUndef => (d, RUndef, [])
      | FNone => (d, RErr ENotFound, [])
      | FAt i => match nth_error (dents d) i with
                 | None => (d, RUndef, [])
                 | Some (_, v) => (d, RObj v, inc v)
                 end
      end
  end.

(** :60-89 *)
Definition d_set (d : dct) (k v : option obj) : dct * res * list refev :=
  if dfrozen d then (d, RErr EFrozen, []) else
  match k with
  | None => (d, RErr EArgNull, [])
  | Some k0 =>
      match find equals (dents d) k with
      | FUndef => (d, RUndef, [])
      | FNone => (dput d (dents d ++ [(k0, v)]), ROk, inc k ++ inc v)
      | FAt i => match nth_error (dents d) i with
                 | None => (d, RUndef, [])
                 | Some (k', old) => (dput d (vset i (k', v) (dents d)), ROk, dec old ++ inc v)
                 end
      end
  end.

(** :91-116 (with the value for the caller) and :118-154 (value released) *)
Definition d_take (give : bool) (d : dct) (k : option obj) : dct * res * list refev :=
  if dfrozen d then (d, RErr EFrozen, []) else
  match k with
  | None => (d, RErr EArgNull, [])
  | Some _ =>
      match find equals (dents d) k with
      | FUndef => (d, RUndef, [])
      | FNone => (d, RErr ENotFound, [])
      | FAt i => match nth_error (dents d) i with
                 | None => (d, RUndef, [])
                 | Some (k', v) =>
                     (dput d (verase i (dents d)), (if give then RObj v else ROk),
                      dec (Some k') ++ (if give then [] else dec v))
                 end
      end
  end.

(** :254-262 *)
Definition release_entries (es : list (obj * option obj)) : list refev :=
  flat_map (fun e => dec (Some (fst e)) ++ dec (snd e)) es.

(** :156-167 *)
Definition d_clear (d : dct) : dct * res * list refev :=
  if dfrozen d then (d, RErr EFrozen, []) else (dput d [], ROk, release_entries (dents d)).

(** :177-182: no null check *)
Definition d_has (d : dct) (k : option obj) : dct * res * list refev :=
  (d, match find equals (dents d) k with FUndef => RUndef | FNone => RBool false | FAt _ => RBool true end, []).

(** :270-278 *)
Definition d_freeze (d : dct) : dct * res * list refev :=
  if dfrozen d then (d, RIgnored, []) else ({| dfrozen := true; dents := dents d |}, ROk, []).

(** :184-218: the list that is returned holds its own references, not counted here *)
Definition dstep (d : dct) (o : dop) : dct * res * list refev :=
  match o with
  | DGet k => d_get d k
  | DSet k v => d_set d k v
  | DRemove k => d_take true d k
  | DDelete k => d_take false d k
  | DClear => d_clear d
  | DCount => (d, RNum (length (dents d)), [])
  | DHas k => d_has d k
  | DKeys => (d, RObjs (map (fun e => Some (fst e)) (dents d)), [])
  | DVals => (d, RObjs (map snd (dents d)), [])
  | DFreeze => d_freeze d
  | DIsFrozen => (d, RBool (dfrozen d), [])
  end.

Definition d_dispose (d : dct) : list refev := release_entries (dents d).

(** ** Ordering, the == of pointers and the write of a property value *)

Inductive cmp := CLower | CEqual | CGreater | CError | CUndef.

(** static_cast<Int>(Float): undefined outside of the range *)
Definition to_int (f : spec_float) : option Z :=
  match f with
  | S754_zero _ => Some 0
  | S754_finite s m e =>
      let t := if 0 <=? e then Z.pos m * 2 ^ e else Z.pos m / 2 ^ (- e) in
      let t := if s then - t else t in
      if in_i64 t then Some t else None
  | _ => None
  end.
Definition to_float (i : Z) : spec_float := binary_normalize 53 1024 i 0 false.
Definition b2z (b : bool) : Z := if b then 1 else 0.

Definition cmp_z (i j : Z) : cmp := if j <? i then CGreater else if i <? j then CLower else CEqual.
Definition cmp_f (f g : spec_float) : cmp := if SFltb g f then CGreater else if SFltb f g then CLower else CEqual.
(** ordinalobject_impl.h:167-175 on an Int: static_cast<uint8_t>; float_impl.h:23-34 on a Float *)
Definition w8 (i : Z) : Z := i mod 256.
Definition f_nonzero (f : spec_float) : bool := negb (SFeqb f (S754_zero false)).

(** strcmp of the two: the first difference, bytes unsigned *)
Fixpoint strcmp (s t : list Z) : cmp :=
  match s, t with
  | [], [] => CEqual
  | [], _ :: _ => CLower
  | _ :: _, [] => CGreater
  | a :: s, b :: t => if a <? b then CLower else if b <? a then CGreater else strcmp s t
  end.

(** ordinalobject_impl.h:186-226 with coretype_traits.h:73-173 (conversion of
    the other number), stringobject_impl.cpp:197-231.  Comparing a number with
    a string and other kinds of objects is not modelled: CError. *)
Definition compare (s t : scalar) : cmp :=
  match s, t with
  | SInt i, SInt j => cmp_z i j
  | SInt i, SFlt g => match to_int g with Some j => cmp_z i j | None => CUndef end
  | SInt i, SBool b => cmp_z i (b2z b)
  | SFlt f, SFlt g => cmp_f f g
  | SFlt f, SInt j => cmp_f f (to_float j)
  | SFlt f, SBool b => cmp_f f (to_float (b2z b))
  | SBool b, SBool c => cmp_z (b2z b) (b2z c)
  | SBool b, SInt j => cmp_z (b2z b) (w8 j)
  | SBool b, SFlt g => cmp_z (b2z b) (b2z (f_nonzero g))
  | SStr a, SStr b => strcmp (c_str a) (c_str b)
  | _, _ => CError
  end.

(** objectptr.h:1086-1107 on two assigned pointers to such objects *)
Definition ptr_eq (s t : scalar) : option bool :=
  match compare s t with
  | CEqual => Some true
  | CLower => Some false
  | CGreater => Some false
  | _ => None
  end.

(** objectptr.h:2134-2175 for the three kinds of numbers: convertTo.  A Bool
    object is true or false (coretypes boolean factory).  None: undefined, or a
    conversion that is not modelled *)
Inductive ctype := TInt | TFlt | TBool.
Definition convert (t : ctype) (s : scalar) : option scalar :=
  match t, s with
  | TInt, SInt i => Some (SInt i)
  | TInt, SFlt f => option_map SInt (to_int f)
  | TInt, SBool b => Some (SInt (b2z b))
  | TFlt, SInt i => Some (SFlt (to_float i))
  | TFlt, SFlt f => Some (SFlt f)
  | TFlt, SBool b => Some (SFlt (to_float (b2z b)))
  | TBool, SInt i => Some (SBool (negb (w8 i =? 0)))
  | TBool, SFlt f => Some (SBool (f_nonzero f))
  | TBool, SBool b => Some (SBool b)
  | _, _ => None
  end.

(** property_object_impl.h:1264-1296: the value stored for a property and its
    default; an exception while comparing with the default means "write" *)
Definition write_value (stored : option scalar) (dflt : scalar) (v : scalar) : option (option scalar) :=
  match stored with
  | Some old => match ptr_eq old v with
                | None => None
                | Some true => Some stored
                | Some false => Some (Some v)
                end
  | None => match ptr_eq dflt v with
            | Some true => Some None
            | _ => Some (Some v)
            end
  end.

(** property_object_impl.h: the stored value if there is one, else the default *)
Definition read_value (stored : option scalar) (dflt : scalar) : scalar :=
  match stored with Some v => v | None => dflt end.
