(** The main-thread loop.
    core/opendaq/scheduler/src/scheduler_impl.cpp (MainThreadLoop),
    core/opendaq/scheduler/include/opendaq/work_impl.h.

    Each operation is one critical section of the loop's mutex, or the start or
    the return of one work.  A work is arbitrary code: the operations of other
    threads, and those the work itself makes, may come between its start and its
    return in any order.  Scheduled works are numbered in the order in which
    they enter the queue.  The waiting time between iterations, logging of
    errors and the destruction of the loop are not modelled; a failing work
    returns like one that does not ask to be repeated
    (work_impl.h:66-82: repeatAfter stays False). *)
From Verif Require Import Base.
Local Open Scope nat_scope.

(** the work stop() schedules (scheduler_impl.cpp:37-44) is a work of its own kind *)
Inductive kind := OneShot | Repetitive | StopRequest.
Record item := { num : nat; ikind : kind }.

(** what a call of run or runIteration is doing *)
Inductive phase :=
| Waiting                                                        (* in cv.wait_until *)
| Busy (kept : list item) (cur : option item) (todo : list item). (* currentWork: kept ones, the running one, the rest *)
Record loop := { once : bool; ph : phase }.

(** scheduler_impl.h: workQueue, running; [next] and [calls] number works and calls *)
Record state := { queue : list item; running : bool; next : nat; calls : nat; loops : list (nat * loop) }.
Definition init : state := {| queue := []; running := false; next := 0; calls := 0; loops := [] |}.

Inductive op :=
| Schedule (k : kind)
| Run | RunIteration            (* a call on any thread *)
| Wake (l : nat)                (* call l: the wait ends *)
| Start (l : nat)               (* call l starts the next work *)
| Finish (l : nat) (again : bool) (* that work returns *)
| EndIteration (l : nat).

Inductive ev :=
| Scheduled (i : item)
| Began (l : nat) (single : bool) | Refused
| IterBegins (l : nat) | Exec (l : nat) (i : item) | Done (l : nat) (i : item) (again : bool) | IterEnds (l : nat)
| Returned (l : nat).

Fixpoint find (l : nat) (L : list (nat * loop)) : option loop :=
  match L with [] => None | (k, x) :: r => if k =? l then Some x else find l r end.
Fixpoint put (l : nat) (y : loop) (L : list (nat * loop)) : list (nat * loop) :=
  match L with [] => [] | (k, x) :: r => if k =? l then (k, y) :: r else (k, x) :: put l y r end.
Fixpoint drop (l : nat) (L : list (nat * loop)) : list (nat * loop) :=
  match L with [] => [] | (k, x) :: r => if k =? l then r else (k, x) :: drop l r end.

Definition set_loop (l : nat) (p : phase) (o : bool) (s : state) : state :=
  {| queue := queue s; running := running s; next := next s; calls := calls s; loops := put l {| once := o; ph := p |} (loops s) |}.

(** scheduler_impl.cpp:177-189 *)
Definition scheduleTask (k : kind) (s : state) : state * list ev :=
  let i := {| num := next s; ikind := k |} in
  ({| queue := queue s ++ [i]; running := running s; next := S (next s); calls := calls s; loops := loops s |}, [Scheduled i]).

(** scheduler_impl.cpp:133-142 (up to the first unlock) *)
Definition beginIteration (s : state) : state * list ev :=
  if running s then (s, [Refused])
  else let l := calls s in
       ({| queue := []; running := true; next := next s; calls := S l;
           loops := loops s ++ [(l, {| once := true; ph := Busy [] None (queue s) |})] |}, [Began l true; IterBegins l]).

(** scheduler_impl.cpp:144-159 (up to the wait) *)
Definition beginRun (s : state) : state * list ev :=
  if running s then (s, [Refused])
  else let l := calls s in
       ({| queue := queue s; running := true; next := next s; calls := S l;
           loops := loops s ++ [(l, {| once := false; ph := Waiting |})] |}, [Began l false]).

(** scheduler_impl.cpp:159-161 and 113-117 *)
Definition wake (l : nat) (s : state) : state * list ev :=
  match find l (loops s) with
  | Some {| once := o; ph := Waiting |} =>
      ({| queue := []; running := running s; next := next s; calls := calls s;
          loops := put l {| once := o; ph := Busy [] None (queue s) |} (loops s) |}, [IterBegins l])
  | _ => (s, [])
  end.

(** scheduler_impl.cpp:119-125 *)
Definition start (l : nat) (s : state) : state * list ev :=
  match find l (loops s) with
  | Some {| once := o; ph := Busy kept None (i :: todo) |} => (set_loop l (Busy kept (Some i) todo) o s, [Exec l i])
  | _ => (s, [])
  end.

(** scheduler_impl.cpp:46-57 and 121-124; 37-44 for the stop request *)
Definition finish (l : nat) (again : bool) (s : state) : state * list ev :=
  match find l (loops s) with
  | Some {| once := o; ph := Busy kept (Some i) todo |} =>
      match ikind i with
      | Repetitive => if again then (set_loop l (Busy (kept ++ [i]) None todo) o s, [Done l i true])
                      else (set_loop l (Busy kept None todo) o s, [Done l i false])
      | OneShot => (set_loop l (Busy kept None todo) o s, [Done l i false])
      | StopRequest =>
          let s' := set_loop l (Busy kept None todo) o s in
          ({| queue := queue s'; running := false; next := next s'; calls := calls s'; loops := loops s' |}, [Done l i false])
      end
  | _ => (s, [])
  end.

(** scheduler_impl.cpp:127-128, then 140-141 or 157-165 *)
Definition endIteration (l : nat) (s : state) : state * list ev :=
  match find l (loops s) with
  | Some {| once := o; ph := Busy kept None [] |} =>
      if o || negb (running s)
      then ({| queue := queue s ++ kept; running := false; next := next s; calls := calls s; loops := drop l (loops s) |}, [IterEnds l; Returned l])
      else ({| queue := queue s ++ kept; running := true; next := next s; calls := calls s;
               loops := put l {| once := o; ph := Waiting |} (loops s) |}, [IterEnds l])
  | _ => (s, [])
  end.

Definition step (s : state) (o : op) : state * list ev :=
  match o with
  | Schedule k => scheduleTask k s
  | Run => beginRun s
  | RunIteration => beginIteration s
  | Wake l => wake l s
  | Start l => start l s
  | Finish l again => finish l again s
  | EndIteration l => endIteration l s
  end.

(** histories: newest operation first; traces: newest event first *)
Fixpoint after (h : list op) : state := match h with [] => init | o :: r => fst (step (after r) o) end.
Fixpoint trace (h : list op) : list ev := match h with [] => [] | o :: r => rev (snd (step (after r) o)) ++ trace r end.
