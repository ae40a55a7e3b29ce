(** * SyncC_Spec: vocabulary of property C67 *)
From Coq Require Import String List Bool Arith ZArith.
From Verif Require Import SyncC_Model.
Import ListNotations.
Open Scope string_scope.
Open Scope nat_scope.
Open Scope list_scope.

(** The name of the interface that "Source" selects. *)
Definition chosen (s : comp) : option string := nth_error (names s) (source s).

(** A call that is not part of an update. *)
Definition direct (p : op) : Prop := match p with Begin | End => False | _ => True end.

(** States after calls outside of updates. *)
Definition reached (s : comp) : Prop := exists l, Forall direct l /\ s = run l init.

(** [c] inherits from the base class by [k] steps. *)
Inductive inherits (tm : types) : string -> nat -> Prop :=
| inh_base c : findType tm c = Some (Class (Some base)) -> inherits tm c 1
| inh_step c p k : findType tm c = Some (Class (Some p)) -> p <> base -> inherits tm p k -> inherits tm c (S k).

(** The ancestors of [c] end after [k] steps at something else. *)
Inductive strange (tm : types) : string -> nat -> Prop :=
| str_end c : (forall p, findType tm c <> Some (Class (Some p))) -> strange tm c 1
| str_step c p k : findType tm c = Some (Class (Some p)) -> p <> base -> strange tm p k -> strange tm c (S k).

(** The list without the name. *)
Definition without (n : string) (l : list string) : list string := filter (fun k => negb (String.eqb k n)) l.

(** A write of one of the two values that the component can take. *)
Definition fits (s : comp) (p : op) : Prop :=
  match p with
  | Select z => exists i, z = Z.of_nat i /\ i < length (names s)
  | SetLocked _ => True
  | _ => False
  end.
