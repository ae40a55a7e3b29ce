(** * OMode_Model: operation modes of devices and their components

    Models core/opendaq/device/include/opendaq/device_impl.h:363-372,
    1143-1262 (devices),
    core/opendaq/component/include/opendaq/component_impl.h:799-811, 869-876
    (components), core/opendaq/component/include/opendaq/folder_impl.h:201-214,
    229-261, 576-596 (folders) and
    core/opendaq/signal/include/opendaq/signal_container_impl.h:779-796
    (function blocks and channels).

    Simplifications: onOperationModeChanged is a handler that accepts or
    refuses a mode, and [told] lists the modes it accepted, the last first; a
    device sends a core event for each of those it was told; folders,
    function blocks, channels and signals are all [Plain] nodes with their
    items; every item has IComponentPrivate; locks are left out; a component
    has a parent unless it is the root. *)
From Coq Require Import List Bool Arith.
Import ListNotations.

(** component.h: OperationModeType *)
Inductive mode := Unknown | Idle | Operation | SafeOperation.

Definition eqMode (a b : mode) : bool :=
  match a, b with
  | Unknown, Unknown | Idle, Idle | Operation, Operation | SafeOperation, SafeOperation => true
  | _, _ => false
  end.

(** [avail]: onGetAvailableOperationModes; [def]: onGetDefaultOperationMode;
    [comps]: the components without the folder of the sub-devices [devs]. *)
Inductive node :=
| Plain (told : list mode) (accepts : mode -> bool) (items : list node)
| Device (told : list mode) (accepts : mode -> bool) (current : mode) (avail : list mode) (def : mode)
         (comps devs : list node).

(** device_impl.h:1178-1195 updateOperationModeInternal; [false]: the handler
    failed. *)
Definition enter (m : mode) (n : node) : node * bool :=
  match n with
  | Device t a c av d cs ds => if a m then (Device (m :: t) a m av d cs ds, true) else (n, false)
  | Plain _ _ _ => (n, true)
  end.

(** A loop over items that stops at the first failure. *)
Definition each (f : node -> node * bool) : list node -> list node * bool :=
  fix loop (l : list node) : list node * bool :=
  match l with
  | [] => ([], true)
  | x :: r =>
      match f x with
      | (x', false) => (x' :: r, false)
      | (x', true) => match loop r with (r', ok) => (x' :: r', ok) end
      end
  end.

(** updateOperationMode: component_impl.h:869-876, folder_impl.h:576-596 and
    signal_container_impl.h:779-796; a device (device_impl.h:1197-1203) enters
    its default mode and does not tell its components. *)
Fixpoint update (m : mode) (n : node) {struct n} : node * bool :=
  match n with
  | Plain t a items =>
      if a m then match each (update m) items with (items', ok) => (Plain (m :: t) a items', ok) end
      else (n, false)
  | Device _ _ _ _ d _ _ => enter d n
  end.

Inductive answer := Success | Ignored | Failed.

(** device_impl.h:1213-1238 setOperationMode *)
Definition setMode (m : mode) (n : node) : node * answer :=
  match n with
  | Plain _ _ _ => (n, Failed)
  | Device t a c av d cs ds =>
      if negb (existsb (eqMode m) av) then (n, Ignored)
      else match enter m n with
           | (Device t' a' c' av' d' cs0 ds0, true) =>
               match each (update m) cs0 with
               | (cs', ok) => (Device t' a' c' av' d' cs' ds0, if ok then Success else Failed)
               end
           | (n', _) => (n', Failed)
           end
  end.

(** device_impl.h:1240-1252 setOperationModeRecursive *)
Fixpoint setRecursive (m : mode) (n : node) {struct n} : node * bool :=
  match n with
  | Plain _ _ _ => (n, false)
  | Device t a c av d cs ds =>
      match each (setRecursive m) ds with
      | (ds', okd) =>
          match setMode m n with
          | (n', Failed) => (n', false)
          | (Device t' a' c' av' d' cs' _, _) => (Device t' a' c' av' d' cs' ds', okd)
          | (n', _) => (n', false)
          end
      end
  end.

(** device_impl.h:363-372 setAsRoot; the answer of the handler is ignored. *)
Definition setAsRoot (n : node) : node :=
  match n with Device _ _ _ _ d _ _ => fst (enter d n) | Plain _ _ _ => n end.

(** getOperationMode (component_impl.h:799-811, device_impl.h:1254-1260):
    [ups] are the component and its parents, nearest first; [None]: Ignored,
    the mode is Unknown. *)
Fixpoint getMode (ups : list node) : option mode :=
  match ups with
  | [] => None
  | Device _ _ c _ _ _ _ :: _ => Some c
  | Plain _ _ _ :: r => getMode r
  end.

(** folder_impl.h:201-214, 258: what an added component becomes; [ups] are
    the folder and its parents.  Its failure is ignored. *)
Definition sync (ups : list node) (x : node) : node :=
  match getMode ups with
  | Some m => fst (update m x)
  | None => x
  end.
