(** The property object: setting, clearing and reading property values,
    listeners which run inside a write, and batch updates.

    Source: core/coreobjects/include/coreobjects/property_object_impl.h and
    property_object_utils.h (all line numbers below are in these files).

    Simplifications.  Properties are flat and hold integers: no property whose
    value is another property object, no reference property, no list, struct
    or selection of values.  The set of properties does not change.
    Listeners are arbitrary programs over the object, one per event; a list of
    handlers of one event is one program, because they run in turn with the
    same arguments.  A listener does not begin a batch, freeze the object or
    change its set of properties.  The recursive lock is not modelled: one
    thread. *)
From Coq Require Import ZArith List Bool Lia.
Import ListNotations.
Local Open Scope Z_scope.

Definition name := nat.

(** What a caller passes as a value: an integer, or a text, which reads as an
    integer or does not (checkPropertyTypeAndConvert, 1202-1240: convertTo the
    type of the property, otherwise InvalidType). *)
Inductive value := VInt (z : Z) | VText (o : option Z).

(** One property: property_impl.h. Only the fields the modelled code reads. *)
Record prop := {
  p_default : Z;
  p_readonly : bool;
  p_local : bool;                  (* added to the object; otherwise it comes from the object's class *)
  p_items : option nat;            (* an index selection with this many items *)
  p_coerce : option (Z -> option Z);  (* None: the coercer failed *)
  p_valid : option (Z -> bool);
  p_min : option Z;
  p_max : option Z }.

Inductive err := ENotFound | EDenied | EFrozen | EType | ECoerce | EValid | EState | EListener.

(** Result of a call. [OUb] marks undefined behaviour. *)
Inductive out := OOk | OIgn | OErr (e : err) | OUb.

(** A listener: a program over the object.  It can end, throw, replace the
    value in its arguments, and read, set or clear properties of the object,
    whatever the results so far. *)
Inductive prog :=
| PDone
| PFail
| PArg (x : value) (k : prog)
| PGet (p : name) (k : option Z -> prog)
| PSet (prot : bool) (p : name) (x : value) (k : out -> prog)
| PClear (prot : bool) (p : name) (k : out -> prog).

(** PropertyValueEventArgs: the new value, the old one, and whether the write
    is a clear. *)
Record evt := { e_new : Z; e_old : Z; e_clear : bool }.

Definition listener := option (evt -> prog).

Record cfg := {
  c_names : list name;                 (* the order of getAllProperties *)
  c_prop : name -> option prop;
  c_class : name -> listener;          (* write event of the class *)
  c_named : name -> listener;          (* getOnPropertyValueWrite(name) *)
  c_any : name -> listener }.          (* getOnAnyPropertyValueWrite, told the name *)

(** PropertyUpdateStack (property_object_utils.h:69-190). [None] as the value
    of an item: the property is being cleared. *)
Record item := { i_value : option Z; i_level : nat; i_pushed : bool }.

(** UpdatingAction. *)
Record action := { a_name : name; a_set : bool; a_prot : bool; a_value : value }.

(** What an observer sees: a write event being emitted, a core event
    PropertyValueChanged, a core event PropertyObjectUpdateEnd. *)
Inductive note :=
| NEvent (p : name) (v : option Z)
| NChanged (p : name) (v : option value)
| NUpdateEnd (l : list (name * option Z)).

Record state := {
  s_vals : name -> option Z;           (* propValues *)
  s_stk : name -> option item;         (* updatePropertyStack *)
  s_frozen : bool;
  s_count : nat;                       (* updateCount *)
  s_pend : list action;                (* updatingPropsAndValues *)
  s_notes : list note }.               (* newest first *)

Definition init : state :=
  {| s_vals := fun _ => None; s_stk := fun _ => None; s_frozen := false;
     s_count := 0; s_pend := []; s_notes := [] |}.

Definition put {A} (f : name -> A) (p : name) (a : A) : name -> A :=
  fun q => if Nat.eqb q p then a else f q.

Definition with_vals (st : state) (f : name -> option Z) : state :=
  {| s_vals := f; s_stk := s_stk st; s_frozen := s_frozen st;
     s_count := s_count st; s_pend := s_pend st; s_notes := s_notes st |}.

Definition with_stk (st : state) (f : name -> option item) : state :=
  {| s_vals := s_vals st; s_stk := f; s_frozen := s_frozen st;
     s_count := s_count st; s_pend := s_pend st; s_notes := s_notes st |}.

Definition noted (st : state) (x : note) : state :=
  {| s_vals := s_vals st; s_stk := s_stk st; s_frozen := s_frozen st;
     s_count := s_count st; s_pend := s_pend st; s_notes := x :: s_notes st |}.

Definition with_batch (st : state) (k : nat) (l : list action) : state :=
  {| s_vals := s_vals st; s_stk := s_stk st; s_frozen := s_frozen st;
     s_count := k; s_pend := l; s_notes := s_notes st |}.

Definition with_frozen (st : state) : state :=
  {| s_vals := s_vals st; s_stk := s_stk st; s_frozen := true;
     s_count := s_count st; s_pend := s_pend st; s_notes := s_notes st |}.

Definition same_opt (a b : option Z) : bool :=
  match a, b with
  | Some x, Some y => x =? y
  | None, None => true
  | _, _ => false
  end.

(** registerPropertyUpdating (property_object_utils.h:131-141, setValue
    94-104): [None] when the same value is already being written. *)
Definition register (st : state) (p : name) (v : option Z) : option state :=
  match s_stk st p with
  | None =>
      Some (with_stk st (put (s_stk st) p
        (Some {| i_value := v; i_level := 1; i_pushed := true |})))
  | Some it =>
      if same_opt (i_value it) v then None
      else Some (with_stk st (put (s_stk st) p
        (Some {| i_value := v; i_level := S (i_level it); i_pushed := true |})))
  end.

(** unregisterPropertyUpdating (property_object_utils.h:143-160): the result
    says whether nothing was registered for the property since. *)
Definition unregister (st : state) (p : name) : state * bool :=
  match s_stk st p with
  | None => (st, false)
  | Some it =>
      (with_stk st (put (s_stk st) p
         (if Nat.leb (i_level it) 1 then None
          else Some {| i_value := i_value it; i_level := i_level it - 1;
                       i_pushed := false |})),
       i_pushed it)
  end.

(** isBaseStackLevel (property_object_utils.h:172-178). *)
Definition is_base (st : state) (p : name) : bool :=
  match s_stk st p with Some it => Nat.eqb (i_level it) 1 | None => false end.

(** readLocalValue with the default as a fallback (720-727, 1600-1607). *)
Definition local_or_default (st : state) (p : name) (pr : prop) : Z :=
  match s_vals st p with Some z => z | None => p_default pr end.

(** shouldWriteLocalValue (1243-1261). *)
Definition should_write (st : state) (p : name) (pr : prop) (z : Z) : bool :=
  negb (local_or_default st p pr =? z).

(** writeLocalValue (1263-1294), never forced: the state, and whether it
    wrote. *)
Definition write_local (st : state) (p : name) (pr : prop) (z : Z) : state * bool :=
  match s_vals st p with
  | Some y => if y =? z then (st, false)
              else (with_vals st (put (s_vals st) p (Some z)), true)
  | None => if p_default pr =? z then (st, false)
            else (with_vals st (put (s_vals st) p (Some z)), true)
  end.

(** checkPropertyTypeAndConvert, checkSelectionValues (1026-1070; the index is
    read as an unsigned number), coercePropertyWrite (808-833),
    validatePropertyWrite (835-859), coerceMinMax (861-896), in the order of
    setPropertyValueInternal (1146-1154). *)
Definition coerce_min (o : option Z) (z : Z) : Z :=
  match o with Some m => if z <? m then m else z | None => z end.
Definition coerce_max (o : option Z) (z : Z) : Z :=
  match o with Some m => if m <? z then m else z | None => z end.

Definition convert (x : value) : option Z :=
  match x with VInt z => Some z | VText o => o end.

Definition in_items (o : option nat) (z : Z) : bool :=
  match o with
  | None => true
  | Some n => (0 <=? z) && (z <? Z.of_nat n)
  end.

Inductive checked := CVal (z : Z) | CErr (e : err).

Definition check (pr : prop) (x : value) : checked :=
  match convert x with
  | None => CErr EType
  | Some z =>
      if in_items (p_items pr) z then
        match (match p_coerce pr with None => Some z | Some f => f z end) with
        | None => CErr ECoerce
        | Some w =>
            if match p_valid pr with None => true | Some f => f w end
            then CVal (coerce_max (p_max pr) (coerce_min (p_min pr) w))
            else CErr EValid
        end
      else CErr ENotFound
  end.

(** getPropertyAndValueInternal (1554-1630) with retrieveUpdatingValue, as
    getPropertyValue calls it: the value being written, if there is one.
    Read listeners are left out. *)
Definition get (c : cfg) (st : state) (p : name) : option Z :=
  match c_prop c p with
  | None => None
  | Some pr =>
      match s_stk st p with
      | Some it => match i_value it with Some z => Some z | None => Some (p_default pr) end
      | None => Some (local_or_default st p pr)
      end
  end.

(** The same without retrieveUpdatingValue (endApplyUpdate, 2771). *)
Definition get_local (c : cfg) (st : state) (p : name) : option Z :=
  match c_prop c p with
  | None => None
  | Some pr => Some (local_or_default st p pr)
  end.

(** setPropertyValueInternal with triggerEvent = false, protectedAccess =
    true, batch = false (call at 772): the checks, then writeLocalValue. *)
Definition set_direct (st : state) (p : name) (pr : prop) (x : value) : state * out :=
  if s_frozen st then (st, OErr EFrozen)
  else match check pr x with
       | CErr e => (st, OErr e)
       | CVal z => let '(st1, w) := write_local st p pr z in
                   (st1, if w then OOk else OIgn)
       end.

Definition arg_is (x : value) (z : Z) : bool :=
  match x with VInt y => y =? z | VText _ => false end.

(** The result of running a listener. *)
Inductive ran := RDone (x : value) | RFail | RUb.

(** Fuel bounds the depth of calls; [None] means that the call has not
    returned yet.

    [call_write]: callPropertyValueWrite (702-775). The new value is [Some z]
    for Update and [None] for Clear. The third result is newValue afterwards.
    A throw of a class listener or of an any-listener leaves the update stack
    as it is (737-753).

    [set_in]: setPropertyValueInternal (1078-1201) with triggerEvent = true
    and batch = false.

    [clear_in]: clearPropertyValueInternal (2021-2136) with batch = false;
    propValues.erase of an entry that is not there (2124-2127) is [OUb].

    [run]: a listener. *)
Fixpoint call_write (n : nat) (c : cfg) (st : state) (p : name) (pr : prop)
         (v : option Z) {struct n} : option (state * out * option value) :=
  match n with
  | O => None
  | S n =>
      let nv := match v with Some z => Some (VInt z) | None => None end in
      match register st p v with
      | None => Some (st, OIgn, nv)
      | Some st1 =>
          if is_base st1 p &&
             match v with Some z => negb (should_write st1 p pr z) | None => false end
          then Some (fst (unregister st1 p), OIgn, nv)
          else
            let old := local_or_default st1 p pr in
            let shown := match v with Some z => z | None => p_default pr end in
            let ev := {| e_new := shown; e_old := old;
                         e_clear := match v with Some _ => false | None => true end |} in
            let st2 := noted st1 (NEvent p v) in
            match (if p_local pr then Some (st2, RDone (VInt shown))
                   else fire n c st2 (c_class c p) ev (VInt shown)) with
            | None => None
            | Some (st3, RUb) => Some (st3, OUb, nv)
            | Some (st3, RFail) => Some (st3, OErr EListener, nv)
            | Some (st3, RDone a1) =>
                match fire n c st3 (c_named c p) ev a1 with
                | None => None
                | Some (st4, RUb) => Some (st4, OUb, nv)
                | Some (st4, r2) =>
                    let a2 := match r2 with RDone a => a | _ => a1 end in
                    match fire n c st4 (c_any c p) ev a2 with
                    | None => None
                    | Some (st5, RUb) => Some (st5, OUb, nv)
                    | Some (st5, RFail) => Some (st5, OErr EListener, nv)
                    | Some (st5, RDone a3) =>
                        let '(st6, mine) := unregister st5 p in
                        match r2 with
                        | RFail => Some (st6, OErr EListener, nv)
                        | _ =>
                            if mine then
                              if match v with
                                 | None => arg_is a3 (p_default pr)
                                 | Some z => arg_is a3 z
                                 end
                              then Some (st6, OOk, nv)
                              else
                                let '(st7, o) := set_direct st6 p pr a3 in
                                Some (st7, o, Some a3)
                            else Some (st6, OIgn, nv)
                        end
                    end
                end
            end
      end
  end

with fire (n : nat) (c : cfg) (st : state) (l : listener) (ev : evt) (a : value)
          {struct n} : option (state * ran) :=
  match n with
  | O => None
  | S n =>
      match l with
      | None => Some (st, RDone a)
      | Some f => run n c st (f ev) a
      end
  end

with run (n : nat) (c : cfg) (st : state) (g : prog) (a : value) {struct n}
  : option (state * ran) :=
  match n with
  | O => None
  | S n =>
      match g with
      | PDone => Some (st, RDone a)
      | PFail => Some (st, RFail)
      | PArg x k => run n c st k x
      | PGet p k => run n c st (k (get c st p)) a
      | PSet prot p x k =>
          match set_in n c st p x prot false with
          | None => None
          | Some (st1, OUb) => Some (st1, RUb)
          | Some (st1, o) => run n c st1 (k o) a
          end
      | PClear prot p k =>
          match clear_in n c st p prot false with
          | None => None
          | Some (st1, OUb) => Some (st1, RUb)
          | Some (st1, o) => run n c st1 (k o) a
          end
      end
  end

with set_in (n : nat) (c : cfg) (st : state) (p : name) (x : value)
            (prot updating : bool) {struct n} : option (state * out) :=
  match n with
  | O => None
  | S n =>
      if s_frozen st then Some (st, OErr EFrozen)
      else match c_prop c p with
      | None => Some (st, OErr ENotFound)
      | Some pr =>
          if negb prot && p_readonly pr then Some (st, OErr EDenied)
          else match check pr x with
          | CErr e => Some (st, OErr e)
          | CVal z =>
              match call_write n c st p pr (Some z) with
              | None => None
              | Some (st1, OErr e, _) => Some (st1, OErr e)
              | Some (st1, OUb, _) => Some (st1, OUb)
              | Some (st1, OIgn, _) => Some (st1, OOk)
              | Some (st1, OOk, nv) =>
                  let st2 := match nv with
                             | Some (VInt y) => if y =? z then fst (write_local st1 p pr y) else st1
                             | _ => st1
                             end in
                  Some (if updating then st2 else noted st2 (NChanged p nv), OOk)
              end
          end
      end
  end

with clear_in (n : nat) (c : cfg) (st : state) (p : name)
              (prot updating : bool) {struct n} : option (state * out) :=
  match n with
  | O => None
  | S n =>
      if s_frozen st then Some (st, OErr EFrozen)
      else match c_prop c p with
      | None => Some (st, OErr ENotFound)
      | Some pr =>
          if negb prot && p_readonly pr then Some (st, OErr EDenied)
          else match s_vals st p with
          | None => Some (st, OIgn)
          | Some _ =>
              match call_write n c st p pr None with
              | None => None
              | Some (st1, OErr e, _) => Some (st1, OErr e)
              | Some (st1, OUb, _) => Some (st1, OUb)
              | Some (st1, OIgn, _) => Some (st1, OOk)
              | Some (st1, OOk, nv) =>
                  match nv, s_vals st1 p with
                  | None, None => Some (st1, OUb)
                  | _, _ =>
                      let st2 := match nv with
                                 | None => with_vals st1 (put (s_vals st1) p None)
                                 | Some _ => st1
                                 end in
                      Some (if updating then st2 else noted st2 (NChanged p nv), OOk)
                  end
              end
          end
      end
  end.

(** setPropertyValue and setProtectedPropertyValue (899-922): outside a batch
    the write happens now, inside it is queued with no check but the one for a
    frozen object (1091-1108). *)
Definition set_value (n : nat) (c : cfg) (st : state) (prot : bool) (p : name) (x : value)
  : option (state * out) :=
  if Nat.eqb (s_count st) 0 then set_in n c st p x prot false
  else if s_frozen st then Some (st, OErr EFrozen)
  else Some (with_batch st (s_count st)
               (s_pend st ++ [{| a_name := p; a_set := true; a_prot := prot; a_value := x |}]), OOk).

(** clearPropertyValue, clearProtectedPropertyValue (2021-2042). *)
Definition clear_value (n : nat) (c : cfg) (st : state) (prot : bool) (p : name)
  : option (state * out) :=
  if Nat.eqb (s_count st) 0 then clear_in n c st p prot false
  else if s_frozen st then Some (st, OErr EFrozen)
  else Some (with_batch st (s_count st)
               (s_pend st ++ [{| a_name := p; a_set := false; a_prot := prot; a_value := VInt 0 |}]), OOk).

(** clearPropertyValuesInternal (1969-2016): read-only properties are passed
    over, and so are those of the object's class. *)
Fixpoint clear_each (n : nat) (c : cfg) (st : state) (prot : bool) (l : list name)
  : option (state * out) :=
  match l with
  | [] => Some (st, OOk)
  | p :: l =>
      match c_prop c p with
      | None => clear_each n c st prot l
      | Some pr =>
          if (negb prot && p_readonly pr) || negb (p_local pr) then clear_each n c st prot l
          else match clear_value n c st prot p with
               | None => None
               | Some (st1, OErr e) => Some (st1, OErr e)
               | Some (st1, OUb) => Some (st1, OUb)
               | Some (st1, _) => clear_each n c st1 prot l
               end
      end
  end.

Definition clear_all (n : nat) (c : cfg) (st : state) (prot : bool) : option (state * out) :=
  if s_frozen st then Some (st, OErr EFrozen) else clear_each n c st prot (c_names c).

(** The loop of endApplyUpdate (2757-2776): it throws at the first action that
    fails. [acc] is appliedUpdates, in order. *)
Fixpoint apply_each (n : nat) (c : cfg) (st : state) (l : list action)
         (acc : list (name * option Z)) : option (state * out) :=
  match l with
  | [] =>
      (* endApplyProperties (3631-3650): the event only if something was applied *)
      Some (match acc with [] => st | _ => noted st (NUpdateEnd acc) end, OOk)
  | a :: l =>
      match (if a_set a then set_in n c st (a_name a) (a_value a) (a_prot a) true
             else clear_in n c st (a_name a) (a_prot a) true) with
      | None => None
      | Some (st1, OErr e) => Some (st1, OErr e)
      | Some (st1, OUb) => Some (st1, OUb)
      | Some (st1, OIgn) => apply_each n c st1 l acc
      | Some (st1, OOk) =>
          apply_each n c st1 l (acc ++ [(a_name a, get_local c st1 (a_name a))])
      end
  end.

(** beginUpdateInternal (2664-2677). *)
Definition begin_update (st : state) : state * out :=
  if s_frozen st then (st, OErr EFrozen)
  else (with_batch st (S (s_count st)) (s_pend st), OOk).

(** endUpdateInternal (2679-2719) and endApplyUpdate (2750-2780). *)
Definition end_update (n : nat) (c : cfg) (st : state) : option (state * out) :=
  match s_count st with
  | O => Some (st, OErr EState)
  | S O => apply_each n c (with_batch st 0 []) (s_pend st) []
  | S k => Some (with_batch st k (s_pend st), OOk)
  end.

(** freeze (3500-3507). *)
Definition freeze (st : state) : state * out :=
  if s_frozen st then (st, OIgn) else (with_frozen st, OOk).

Inductive op :=
| Set_ (prot : bool) (p : name) (x : value)
| Clear (prot : bool) (p : name)
| ClearAll (prot : bool)
| Get (p : name)
| Begin | End_ | Freeze.

Inductive reply := Rout (o : out) | Rval (v : option Z).

Definition step (n : nat) (c : cfg) (st : state) (o : op) : option (state * reply) :=
  let lift r := match r with Some (st1, x) => Some (st1, Rout x) | None => None end in
  match o with
  | Set_ prot p x => lift (set_value n c st prot p x)
  | Clear prot p => lift (clear_value n c st prot p)
  | ClearAll prot => lift (clear_all n c st prot)
  | Get p => Some (st, Rval (get c st p))
  | Begin => let '(st1, x) := begin_update st in Some (st1, Rout x)
  | End_ => lift (end_update n c st)
  | Freeze => let '(st1, x) := freeze st in Some (st1, Rout x)
  end.

(** A history of calls, oldest first, with the replies. A history stops at
    undefined behaviour. *)
Fixpoint runs (n : nat) (c : cfg) (st : state) (h : list op) : option (state * list reply) :=
  match h with
  | [] => Some (st, [])
  | o :: h =>
      match step n c st o with
      | None => None
      | Some (st1, Rout OUb) => Some (st1, [Rout OUb])
      | Some (st1, r) =>
          match runs n c st1 h with
          | None => None
          | Some (st2, rs) => Some (st2, r :: rs)
          end
      end
  end.
