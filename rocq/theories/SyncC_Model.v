(** * SyncC_Model: the synchronization component

    Models core/opendaq/synchronization/include/opendaq/sync_component_impl.h:69-272
    and the parts of
    core/coreobjects/include/coreobjects/property_object_impl.h:1025-1201,
    2286-2377, 2664-2790 that its three properties use.

    Simplifications: an interface object is a number; only the writes of the
    three properties are modelled, without listeners, coercers and freezing; a
    null type manager is left out; beginUpdate and endUpdate are those of the
    component. *)
From Coq Require Import String List Bool Arith ZArith.
Import ListNotations.
Open Scope string_scope.
Open Scope nat_scope.
Open Scope list_scope.

(** errors.h: the codes that occur *)
Inductive res := Ok | NotFound | AlreadyExists | InvalidArgument | InvalidState | Overflow.

(** A registered type: a property object class with its parent, or another
    type. *)
Inductive ty := Class (parent : option string) | Other.

Definition types := list (string * ty).

Fixpoint findType (tm : types) (c : string) : option ty :=
  match tm with
  | [] => None
  | (k, t) :: r => if String.eqb k c then Some t else findType r c
  end.

Definition base : string := "SyncInterfaceBase".

(** sync_component_impl.h:153-178 checkClassNameIsSyncInterface; [stack]: how
    deep calls may nest. *)
Fixpoint checkClass (stack : nat) (tm : types) (c : string) : res :=
  match stack with
  | 0 => Overflow
  | S stack =>
      match findType tm c with
      | Some (Class (Some p)) => if String.eqb p base then Ok else checkClass stack tm p
      | _ => InvalidArgument
      end
  end.

(** A write that waits for the end of an update. *)
Inductive change := ToSource (z : Z) | ToLocked (b : bool).

(** [ifs]: the object properties of "Interfaces" in the order they were
    added; [source], [locked]: "Source" and "SynchronizationLocked";
    [depth]: updateCount; [pend]: updatingPropsAndValues. *)
Record comp := Comp { ifs : list (string * nat); source : nat; locked : bool; depth : nat; pend : list change }.

(** sync_component_impl.h:69-80 the constructor *)
Definition init : comp := Comp [] 0 false 0 [].

Definition names (s : comp) : list string := map fst (ifs s).

(** property_object_impl.h:1025-1075 checkSelectionValues: a negative value
    becomes a large index. *)
Definition inRange (z : Z) (l : list (string * nat)) : bool := (0 <=? z)%Z && (z <? Z.of_nat (length l))%Z.

(** property_object_impl.h:1138-1196 setPropertyValueInternal outside of
    updates *)
Definition write (c : change) (s : comp) : comp * res :=
  match c with
  | ToSource z =>
      if inRange z (ifs s) then (Comp (ifs s) (Z.to_nat z) (locked s) (depth s) (pend s), Ok) else (s, NotFound)
  | ToLocked b => (Comp (ifs s) (source s) b (depth s) (pend s), Ok)
  end.

(** property_object_impl.h:1098-1102 setPropertyValueInternal: in an update
    writes are collected. *)
Definition setValue (c : change) (s : comp) : comp * res :=
  if 0 <? depth s then (Comp (ifs s) (source s) (locked s) (depth s) (pend s ++ [c]), Ok) else write c s.

Definition has (n : string) (l : list (string * nat)) : bool := existsb (fun p => String.eqb (fst p) n) l.

(** property_object_impl.h:2286-2348 addProperty *)
Definition addProperty (n : string) (o : nat) (s : comp) : comp * res :=
  if has n (ifs s) then (s, AlreadyExists) else (Comp (ifs s ++ [(n, o)]) (source s) (locked s) (depth s) (pend s), Ok).

(** sync_component_impl.h:180-219 addInterface; [c]: the class of the object *)
Definition addInterface (stack : nat) (tm : types) (c : option string) (o : nat) (s : comp) : comp * res :=
  match c with
  | None => (s, InvalidArgument)
  | Some c =>
      if String.eqb c base then (s, InvalidArgument)
      else match checkClass stack tm c with
           | Ok => addProperty c o s
           | e => (s, e)
           end
  end.

(** The loop of sync_component_impl.h:236-262: the index of the name. *)
Fixpoint indexOf (n : string) (l : list (string * nat)) (i : nat) : option nat :=
  match l with
  | [] => None
  | (k, _) :: r => if String.eqb k n then Some i else indexOf n r (S i)
  end.

(** property_object_impl.h:2351-2377 removeProperty *)
Definition removeProperty (n : string) (l : list (string * nat)) : list (string * nat) :=
  filter (fun p => negb (String.eqb (fst p) n)) l.

(** sync_component_impl.h:221-264 removeInterface *)
Definition removeInterface (n : string) (s : comp) : comp * res :=
  match indexOf n (ifs s) 0 with
  | None => (s, NotFound)
  | Some i =>
      let s1 := Comp (removeProperty n (ifs s)) (source s) (locked s) (depth s) (pend s) in
      if source s =? i then
        match setValue (ToSource 0) s1 with
        | (s2, Ok) | (s2, NotFound) => (s2, Ok)
        | (s2, e) => (s2, e)
        end
      else if i <? source s then (fst (setValue (ToSource (Z.of_nat (source s) - 1)) s1), Ok)
      else (s1, Ok)
  end.

(** property_object_impl.h:2750-2770 endApplyUpdate: the first failing write
    ends it and drops the rest. *)
Fixpoint apply (l : list change) (s : comp) : comp * res :=
  match l with
  | [] => (s, Ok)
  | c :: r => match write c s with (s', Ok) => apply r s' | (s', e) => (s', e) end
  end.

Inductive op :=
| Add (stack : nat) (tm : types) (c : option string) (o : nat)
| Remove (n : string)
| Select (z : Z)
| SetLocked (b : bool)
| Begin
| End.

Definition step (p : op) (s : comp) : comp * res :=
  match p with
  | Add k tm c o => addInterface k tm c o s
  | Remove n => removeInterface n s
  | Select z => setValue (ToSource z) s
  | SetLocked b => setValue (ToLocked b) s
  | Begin => (Comp (ifs s) (source s) (locked s) (S (depth s)) (pend s), Ok)
  | End =>
      match depth s with
      | 0 => (s, InvalidState)
      | 1 => apply (pend s) (Comp (ifs s) (source s) (locked s) 0 [])
      | S d => (Comp (ifs s) (source s) (locked s) d (pend s), Ok)
      end
  end.

Fixpoint run (l : list op) (s : comp) : comp :=
  match l with [] => s | p :: r => run r (fst (step p s)) end.
