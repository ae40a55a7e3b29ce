(** Events and their handlers: core/coretypes/src/event_impl.cpp.

    The mutex is recursive: while an event is being triggered only the thread
    that triggers it can call the event again, from inside a handler.  Handlers
    are arbitrary code, so the environment decides what a running handler does
    next: call the event again (possibly triggering it) or return.  [stack]
    holds the loop index of every trigger call in progress, innermost first.
    Null arguments and allocation failures are not modelled. *)
From Verif Require Import Base.

(** event_handler_impl.h:26-62, delegate.hpp:100-118: a handler and its hash
    code (a hash of the addresses of the callable and its object) *)
Record handler := { hid : Z; hhash : Z }.
(** event_impl.h:60-64 *)
Record entry := { hd : handler; hmuted : bool }.
(** event_impl.h:100-104 *)
Record event := { handlers : list entry; muted : bool; frozen : bool; stack : list nat }.

Definition new_event : event := {| handlers := []; muted := false; frozen := false; stack := [] |}.

Definition set_handlers (l : list entry) (e : event) : event :=
  {| handlers := l; muted := muted e; frozen := frozen e; stack := stack e |}.
Definition set_stack (s : list nat) (e : event) : event :=
  {| handlers := handlers e; muted := muted e; frozen := frozen e; stack := s |}.

Inductive op :=
| Add (h : handler) | Remove (h : handler) | Clear
| Mute | Unmute | MuteOne (h : handler) | UnmuteOne (h : handler)
| Freeze | Trigger
| Return (ok : bool).  (* the innermost running handler returns *)

(** [Called n h]: the n-th nested trigger (outermost = 1) calls h;
    [Finished n ok]: it returns. *)
Inductive out := Accepted | Ignored | FrozenError | Called (level : nat) (h : handler) | Finished (level : nat) (ok : bool).

(** event_impl.cpp:26-51: the first entry with an equal hash is erased *)
Fixpoint erase_hash (x : Z) (l : list entry) : list entry :=
  match l with [] => [] | a :: r => if (hhash (hd a) =? x)%Z then r else a :: erase_hash x r end.
(** event_impl.cpp:170-189 *)
Fixpoint set_muted (x : Z) (b : bool) (l : list entry) : list entry :=
  match l with
  | [] => []
  | a :: r => if (hhash (hd a) =? x)%Z then {| hd := hd a; hmuted := b |} :: r else a :: set_muted x b r
  end.

(** event_impl.cpp:99-109: the loop from index i; the handler called next and its index *)
Fixpoint next_from (i : nat) (l : list entry) : option (nat * handler) :=
  match l with
  | [] => None
  | a :: r => if hmuted a then next_from (S i) r else Some (i, hd a)
  end.
Definition advance (i : nat) (e : event) : event * list out :=
  let level := S (length (stack e)) in
  match next_from i (skipn i (handlers e)) with
  | Some (j, h) => (set_stack (j :: stack e) e, [Called level h])
  | None => (e, [Finished level true])
  end.

(** event_impl.cpp:11-65 addHandler, removeHandler, clear; 90-112 trigger;
    114-123 freeze; 139-168 mute ... unmuteListener *)
Definition step (e : event) (o : op) : event * list out :=
  match o with
  | Add h => if frozen e then (e, [FrozenError]) else (set_handlers (handlers e ++ [{| hd := h; hmuted := false |}]) e, [Accepted])
  | Remove h => if frozen e then (e, [FrozenError]) else (set_handlers (erase_hash (hhash h) (handlers e)) e, [Accepted])
  | Clear => if frozen e then (e, [FrozenError]) else (set_handlers [] e, [Accepted])
  | Mute => ({| handlers := handlers e; muted := true; frozen := frozen e; stack := stack e |}, [Accepted])
  | Unmute => ({| handlers := handlers e; muted := false; frozen := frozen e; stack := stack e |}, [Accepted])
  | MuteOne h => (set_handlers (set_muted (hhash h) true (handlers e)) e, [Accepted])
  | UnmuteOne h => (set_handlers (set_muted (hhash h) false (handlers e)) e, [Accepted])
  | Freeze => if frozen e then (e, [Ignored]) else ({| handlers := handlers e; muted := muted e; frozen := true; stack := stack e |}, [Accepted])
  | Trigger => if muted e then (e, [Accepted]) else advance 0 e
  | Return ok =>
      match stack e with
      | [] => (e, [])
      | i :: s => if ok then advance (S i) (set_stack s e) else (set_stack s e, [Finished (S (length s)) false])
      end
  end.

Fixpoint run (e : event) (l : list op) : event * list out :=
  match l with
  | [] => (e, [])
  | o :: r => let (e1, o1) := step e o in let (e2, o2) := run e1 r in (e2, o1 ++ o2)
  end.
