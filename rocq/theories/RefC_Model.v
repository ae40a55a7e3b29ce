(** Reference counting of objects that support weak references.
    Models core/coretypes/include/coretypes/intfs.h (ObjInstanceSupportsWeakRef,
    RefCount), weakref_impl.h (WeakRefImpl), weakrefobj.h (getWeakRef,
    getWeakRefInternal) and impl.h (createObject).

    Every atomic operation is one step; what a thread does in between is a
    separate step, so that all interleavings are covered.  Instead of threads
    there are agents: each reference somebody holds, and each operation in
    progress, is an agent, and a schedule picks any agent next.  (A thread that
    holds several references is a set of agents, so every schedule of threads is
    a schedule of agents.)

    Simplifications: the memory is sequentially consistent; the counters do not
    overflow; memory for a weak reference object is always available; the code
    of destructors is not modelled, only the moment the object is destroyed. *)
From Coq Require Import List Bool ZArith.
Import ListNotations.
Open Scope Z_scope.

Inductive agent :=
| Building (added : bool)            (* the constructor, run by createObject; [added]: refAdded *)
| Ref                                (* a reference to the object *)
| Dec                                (* releaseRef: [strong] became 0; next: [weak] *)
| Del (own : bool)                   (* before `delete this`; [own]: refCount not released *)
| Weak (k : nat)                     (* a reference to the weak reference object [k] *)
| WDec (k : nat)                     (* ~WeakRefImpl of [k]: before [weak] is decremented *)
| WDel                               (* ~WeakRefImpl: before `delete refCount` *)
| Load (k : nat) (sup : bool)        (* getRefAs: before the load; [sup]: the interface is supported *)
| Cas (k : nat) (sup : bool) (c : Z) (* getRefAs: before compare_exchange_weak *)
| Undo (k : nat).                    (* getRefAs: the interface is not there; before releaseRef *)

Record state := mkS {
  s_strong : Z;
  s_weak : Z;
  s_wcnt : list Z;                   (* reference counts of the weak reference objects *)
  s_destroyed : nat;                 (* how many times the object has been destroyed *)
  s_freed : nat;                     (* how many times refCount has been deleted *)
  s_ub : bool;                       (* memory was used after it was given back *)
  s_agents : list agent
}.

(** intfs.h 525-533, 539-542: the object is being constructed. *)
Definition init : state := mkS 0 1 [] 0 0 false [Building false].

Inductive action :=
| CSelf | CInternal | CWeak | CDone | CThrow | CThrowGuard   (* of a constructor *)
| AAdd | ARelease | AWeak                                   (* of a reference *)
| WAdd | WRelease | WGet (sup : bool)                       (* of a weak reference *)
| Tick | Spurious.                                          (* go on with an operation *)

(** What is returned by getRefAs, and the two deallocations. *)
Inductive event := Got (k : nat) | Expired (k : nat) | Destroyed | Freed.

Definition bad (st : state) (b : bool) : state :=
  mkS (s_strong st) (s_weak st) (s_wcnt st) (s_destroyed st) (s_freed st) (s_ub st || b) (s_agents st).
(** Using the object, or the counters, after they are gone. *)
Definition use_obj (st : state) : state := bad st (Nat.ltb 0 (s_destroyed st)).
Definition use_blk (st : state) : state := bad st (Nat.ltb 0 (s_freed st)).
Definition use_weak (k : nat) (st : state) : state := bad st (nth k (s_wcnt st) 0 <=? 0).

Definition add_strong (st : state) (d : Z) : state :=
  mkS (s_strong st + d) (s_weak st) (s_wcnt st) (s_destroyed st) (s_freed st) (s_ub st) (s_agents st).
Definition add_weak (st : state) (d : Z) : state :=
  mkS (s_strong st) (s_weak st + d) (s_wcnt st) (s_destroyed st) (s_freed st) (s_ub st) (s_agents st).
Fixpoint add_at (k : nat) (d : Z) (l : list Z) : list Z :=
  match l, k with
  | [], _ => []
  | c :: l, O => (c + d) :: l
  | c :: l, S k => c :: add_at k d l
  end.
Definition add_wcnt (st : state) (k : nat) (d : Z) : state :=
  mkS (s_strong st) (s_weak st) (add_at k d (s_wcnt st)) (s_destroyed st) (s_freed st) (s_ub st) (s_agents st).
Definition new_weak (st : state) : state :=
  mkS (s_strong st) (s_weak st) (s_wcnt st ++ [1]) (s_destroyed st) (s_freed st) (s_ub st) (s_agents st).
Definition destroy (st : state) : state :=
  mkS (s_strong st) (s_weak st) (s_wcnt st) (S (s_destroyed st)) (s_freed st) (s_ub st) (s_agents st).
Definition free (st : state) : state :=
  mkS (s_strong st) (s_weak st) (s_wcnt st) (s_destroyed st) (S (s_freed st)) (s_ub st) (s_agents st).

(** intfs.h 551-554: addRef. *)
Definition do_add (st : state) : state := add_strong (use_blk (use_obj st)) 1.

(** intfs.h 556-561: the first half of releaseRef. *)
Definition do_release (st : state) : state * list agent :=
  let st := add_strong (use_blk (use_obj st)) (-1) in
  (st, if s_strong st =? 0 then [Dec] else []).

(** weakrefobj.h 36-46 (and 48-56): getWeakRef. *)
Definition do_get_weak (st : state) : state * list agent :=
  let st := add_weak (use_blk (use_obj st)) 1 in
  (new_weak st, [Weak (length (s_wcnt st))]).

(** One step of one agent: what becomes of it, and what is returned. *)
Definition act (a : agent) (x : action) (st : state) : option (state * list agent * list event) :=
  match a, x with
  (* thisPtr() in a constructor *)
  | Building added, CSelf => Some (do_add st, [Building added; Ref], [])
  (* intfs.h 577-585: internalAddRef *)
  | Building true, CInternal => Some (st, [Building true], [])
  | Building false, CInternal => Some (do_add st, [Building true], [])
  | Building added, CWeak => let '(st, w) := do_get_weak st in Some (st, Building added :: w, [])
  (* impl.h 92-116: createObject: borrowInterface or queryInterface *)
  | Building true, CDone => Some (use_obj st, [Ref], [])
  | Building false, CDone => Some (do_add st, [Ref], [])
  (* the constructor throws; its bases and members are destroyed *)
  | Building added, CThrow => Some (st, [Del true], [])
  (* intfs.h 587-603: releaseWeakRefOnException, then the constructor throws *)
  | Building added, CThrowGuard =>
      let st := add_strong (use_blk (use_obj st)) (-1) in
      Some (st, if s_strong st =? 0 then [Dec] else [Del true], [])
  | Ref, AAdd => Some (do_add st, [Ref; Ref], [])
  | Ref, ARelease => let '(st, w) := do_release st in Some (st, w, [])
  | Ref, AWeak => let '(st, w) := do_get_weak st in Some (st, Ref :: w, [])
  (* intfs.h 565-569 *)
  | Dec, Tick =>
      let st := add_weak (use_blk (use_obj st)) (-1) in
      Some (st, [Del (s_weak st =? 0)], [])
  (* intfs.h 570 *)
  | Del own, Tick =>
      let st := destroy (use_obj st) in
      if own then Some (free (use_blk st), [], [Destroyed; Freed]) else Some (st, [], [Destroyed])
  (* addRef and releaseRef of the weak reference object: intfs.h 478-497 *)
  | Weak k, WAdd => Some (add_wcnt (use_weak k st) k 1, [Weak k; Weak k], [])
  | Weak k, WRelease =>
      let st := add_wcnt (use_weak k st) k (-1) in
      Some (st, if nth k (s_wcnt st) 0 =? 0 then [WDec k] else [], [])
  (* weakref_impl.h 43-49 *)
  | WDec k, Tick =>
      let st := add_weak (use_blk st) (-1) in
      Some (st, if s_weak st =? 0 then [WDel] else [], [])
  | WDel, Tick => Some (free (use_blk st), [], [Freed])
  (* weakref_impl.h 51-88 *)
  | Weak k, WGet sup => Some (use_weak k st, [Load k sup], [])
  | Load k sup, Tick =>
      let st := use_blk (use_weak k st) in
      if s_strong st =? 0 then Some (st, [Weak k], [Expired k]) else Some (st, [Cas k sup (s_strong st)], [])
  | Cas k sup c, Spurious => Some (use_blk (use_weak k st), [Load k sup], [])
  | Cas k sup c, Tick =>
      let st := use_blk (use_weak k st) in
      if s_strong st =? c then
        let st := use_obj (add_strong st 1) in
        if sup then Some (st, [Ref; Weak k], [Got k]) else Some (st, [Undo k], [])
      else Some (st, [Load k sup], [])
  | Undo k, Tick =>
      let '(st, w) := do_release st in Some (st, w ++ [Weak k], [Expired k])
  | _, _ => None
  end.

Definition with_agents (st : state) (l : list agent) : state :=
  mkS (s_strong st) (s_weak st) (s_wcnt st) (s_destroyed st) (s_freed st) (s_ub st) l.

(** Agent number [i] does [x]; nothing happens when it cannot. *)
Definition step (st : state) (ix : nat * action) : state * list event :=
  let '(i, x) := ix in
  match nth_error (s_agents st) i with
  | None => (st, [])
  | Some a =>
      match act a x st with
      | None => (st, [])
      | Some (st', w, ev) => (with_agents st' (firstn i (s_agents st) ++ w ++ skipn (S i) (s_agents st)), ev)
      end
  end.

Fixpoint run (st : state) (h : list (nat * action)) : state * list event :=
  match h with
  | [] => (st, [])
  | ix :: h => let '(st1, e1) := step st ix in let '(st2, e2) := run st1 h in (st2, e1 ++ e2)
  end.
