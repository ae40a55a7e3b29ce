(** * OMode_Spec: which components belong to a device, and what they know *)
From Coq Require Import List Bool Arith.
From Verif Require Import OMode_Model.
Import ListNotations.

(** [x] is reached from [n] by the positions [p], and everything above it is
    no device. *)
Inductive inside : node -> list nat -> node -> Prop :=
| inside_here : forall n, inside n [] n
| inside_step : forall t a l i y p x, nth_error l i = Some y -> inside y p x -> inside (Plain t a l) (i :: p) x.

(** The sub-device [x] at the positions [p] of device folders below [n]. *)
Inductive sub : node -> list nat -> node -> Prop :=
| sub_here : forall t a c av d cs ds, sub (Device t a c av d cs ds) [] (Device t a c av d cs ds)
| sub_step : forall t a c av d cs ds i y p x, nth_error ds i = Some y -> sub y p x ->
    sub (Device t a c av d cs ds) (i :: p) x.

Definition isDevice (n : node) : Prop := match n with Device _ _ _ _ _ _ _ => True | Plain _ _ _ => False end.

Definition heard (n : node) : list mode :=
  match n with Plain t _ _ => t | Device t _ _ _ _ _ _ => t end.
Definition handler (n : node) : mode -> bool :=
  match n with Plain _ a _ => a | Device _ a _ _ _ _ _ => a end.
Definition modeOf (n : node) : option mode :=
  match n with Plain _ _ _ => None | Device _ _ c _ _ _ _ => Some c end.
Definition defaultOf (n : node) : option mode :=
  match n with Plain _ _ _ => None | Device _ _ _ _ d _ _ => Some d end.
Definition supported (n : node) (m : mode) : Prop :=
  match n with Plain _ _ _ => False | Device _ _ _ av _ _ _ => In m av end.
Definition componentsOf (n : node) : list node :=
  match n with Plain _ _ l => l | Device _ _ _ _ _ cs _ => cs end.
Definition devicesOf (n : node) : list node :=
  match n with Plain _ _ _ => [] | Device _ _ _ _ _ _ ds => ds end.

(** [x] is a component of the device [n], at [i :: p]. *)
Definition own (n : node) (p : list nat) (x : node) : Prop :=
  isDevice n /\ exists i q y, p = i :: q /\ nth_error (componentsOf n) i = Some y /\ inside y q x.

(** The mode a component is asked to take when its device takes [m]: a device
    somewhere among the components takes its default. *)
Definition asked (m : mode) (x : node) : mode := match defaultOf x with Some d => d | None => m end.

(** Every component of the device was last told the mode of the device. *)
Definition agrees (n : node) : Prop :=
  forall p x m, own n p x -> ~ isDevice x -> modeOf n = Some m -> exists r, heard x = m :: r.

(** All device folders hold devices. *)
Inductive proper : node -> Prop :=
| proper_device : forall t a c av d cs ds, Forall proper ds -> proper (Device t a c av d cs ds).
