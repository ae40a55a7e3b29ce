(** Task graphs, their execution, awaitables and stopping of the scheduler:
    core/opendaq/scheduler/src/task_graph_impl.cpp, task_impl.cpp, awaitable_impl.cpp,
    scheduler_impl.cpp (SchedulerImpl; the main-thread loop is the subject of Loop_Model).
    The thread pool is Taskflow 3.5.0 (external/taskflow/CMakeLists.txt), whose source is not in
    the repository: a flow is run by counters, as its documentation says -- every node counts its
    predecessors, a node that ends counts down its successors, a node at zero is put in the queue
    of the workers, and a run is over when nothing is queued or running.  The repository's patches
    (external/taskflow/patches) make a task that throws end like any other (0002, the handler
    around the work of a static node) and a function's exception its result (0001).
    Simplified: names and dumps are left out; a graph is not changed or released while it runs, and
    only one graph of those that are connected is ever run. *)
From Verif Require Import Base.

(** ** Building *)
(** A node of a flow (tf::Task) is a number; [b_nodes] gives the graph of each, [b_edges] the
    precede() calls, [b_graphs] the root node of each graph (task_graph_impl.cpp:10-25), [b_tasks]
    the node of each task, none before it is initialized (task_impl.cpp:12-18). *)
Record build := { b_nodes : list nat; b_edges : list (nat * nat); b_graphs : list nat; b_tasks : list (option nat) }.

Definition nothing : build := {| b_nodes := []; b_edges := []; b_graphs := []; b_tasks := [] |}.

(** An ITask: a graph or a task. *)
Inductive ref := G (g : nat) | T (k : nat).

(** [Crash]: initialize() of a null graph (task_impl.cpp:64-67). *)
Inductive result := Ok | NotSupported | Crash.

Fixpoint setNth {A} (n : nat) (x : A) (l : list A) : list A :=
  match n, l with
  | _, [] => []
  | O, _ :: r => x :: r
  | S m, y :: r => y :: setNth m x r
  end.

(** TaskGraph::TaskGraph (task_graph_impl.cpp:10-25); SubTask::SubTask (task_impl.cpp:12-18). *)
Definition mkGraph (b : build) : build :=
  {| b_nodes := b_nodes b ++ [length (b_graphs b)]; b_edges := b_edges b;
     b_graphs := b_graphs b ++ [length (b_nodes b)]; b_tasks := b_tasks b |}.
Definition mkTask (b : build) : build :=
  {| b_nodes := b_nodes b; b_edges := b_edges b; b_graphs := b_graphs b; b_tasks := b_tasks b ++ [None] |}.

(** SubTask::initialize (task_impl.cpp:104-123): a new node in the flow of graph [g]. *)
Definition initialize (b : build) (k g : nat) : build :=
  {| b_nodes := b_nodes b ++ [g]; b_edges := b_edges b; b_graphs := b_graphs b;
     b_tasks := setNth k (Some (length (b_nodes b))) (b_tasks b) |}.

(** tf::Task::precede. *)
Definition precede (b : build) (i j : nat) : build :=
  {| b_nodes := b_nodes b; b_edges := b_edges b ++ [(i, j)]; b_graphs := b_graphs b; b_tasks := b_tasks b |}.

Definition taskNode (b : build) (k : nat) : option nat := nth k (b_tasks b) None.

(** TaskGraph::then (task_graph_impl.cpp:46-65) of a task. *)
Definition thenOfGraph (b : build) (g k : nat) : build * result :=
  let b1 := match taskNode b k with
            | None => initialize b k g
            | Some _ => b
            end in
  match taskNode b1 k with
  | Some j => (precede b1 (nth g (b_graphs b) 0) j, Ok)
  | None => (b1, Crash)
  end.

(** SubTask::then (task_impl.cpp:56-76) of a task. *)
Definition thenOfTask (b : build) (a k : nat) : build * result :=
  match taskNode b k with
  | None =>
      match taskNode b a with
      | None => (b, Crash)
      | Some i =>
          let b1 := initialize b k (nth i (b_nodes b) 0) in
          match taskNode b1 k with
          | Some j => (precede b1 i j, Ok)
          | None => (b1, Crash)
          end
      end
  | Some j =>
      let b1 := match taskNode b a with
                | None => initialize b a (nth j (b_nodes b) 0)
                | Some _ => b
                end in
      match taskNode b1 a with
      | Some i => (precede b1 i j, Ok)
      | None => (b1, Crash)
      end
  end.

(** A graph is no SubTask and cannot be a continuation (dynamic_cast, task_graph_impl.cpp:52-56,
    task_impl.cpp:60-62). *)
Definition thenRef (b : build) (a c : ref) : build * result :=
  match c with
  | G _ => (b, NotSupported)
  | T k => match a with
           | G g => thenOfGraph b g k
           | T m => thenOfTask b m k
           end
  end.

Inductive call := NewGraph | NewTask | Then (a c : ref).

Definition exists_ref (b : build) (r : ref) : bool :=
  match r with
  | G g => Nat.ltb g (length (b_graphs b))
  | T k => Nat.ltb k (length (b_tasks b))
  end.

(** A call on objects that exist; after a crash nothing is called. *)
Definition invoke (b : build) (c : call) : build * result :=
  match c with
  | NewGraph => (mkGraph b, Ok)
  | NewTask => (mkTask b, Ok)
  | Then x y => if exists_ref b x && exists_ref b y then thenRef b x y else (b, NotSupported)
  end.

Fixpoint builds (b : build) (l : list call) : option build :=
  match l with
  | [] => Some b
  | c :: r => match invoke b c with
              | (_, Crash) => None
              | (b', _) => builds b' r
              end
  end.

(** ** Running a graph (SchedulerImpl::scheduleGraph, scheduler_impl.cpp:261-278) *)
Record running := { r_count : list Z; r_queue : list nat; r_active : list nat; r_ended : list nat }.

Definition predecessors (b : build) (i : nat) : nat :=
  length (filter (fun e => Nat.eqb (snd e) i) (b_edges b)).

(** The nodes of the graph's flow. *)
Definition nodesOf (b : build) (g : nat) : list nat :=
  filter (fun i => Nat.eqb (nth i (b_nodes b) 0) g) (seq 0 (length (b_nodes b))).

(** Set-up of a run: the nodes of the flow count all their predecessors, also those of other
    flows; counters of flows that were never run are zero. *)
Definition begin (b : build) (g : nat) : running :=
  {| r_count := map (fun i => if Nat.eqb (nth i (b_nodes b) 0) g then Z.of_nat (predecessors b i) else 0%Z)
                    (seq 0 (length (b_nodes b)));
     r_queue := filter (fun i => Nat.eqb (predecessors b i) 0) (nodesOf b g);
     r_active := []; r_ended := [] |}.

(** A successor is counted down, and queued at zero. *)
Definition countDown (s : running) (j : nat) : running :=
  let c := (nth j (r_count s) 0 - 1)%Z in
  {| r_count := setNth j c (r_count s);
     r_queue := if (c =? 0)%Z then r_queue s ++ [j] else r_queue s;
     r_active := r_active s; r_ended := r_ended s |}.

Definition successors (b : build) (i : nat) : list nat :=
  map snd (filter (fun e => Nat.eqb (fst e) i) (b_edges b)).

Definition remove (i : nat) (l : list nat) : list nat := filter (fun k => negb (Nat.eqb k i)) l.
Definition mem (i : nat) (l : list nat) : bool := existsb (Nat.eqb i) l.

(** A worker takes a queued node, in any order; a node ends. *)
Inductive event := Start (i : nat) | End (i : nat).

Definition happen (b : build) (workers : nat) (s : running) (e : event) : option running :=
  match e with
  | Start i =>
      if mem i (r_queue s) && Nat.ltb (length (r_active s)) workers then
        Some {| r_count := r_count s; r_queue := remove i (r_queue s); r_active := i :: r_active s; r_ended := r_ended s |}
      else None
  | End i =>
      if mem i (r_active s) then
        Some (fold_left countDown (successors b i)
                {| r_count := r_count s; r_queue := r_queue s; r_active := remove i (r_active s); r_ended := i :: r_ended s |})
      else None
  end.

Fixpoint events (b : build) (workers : nat) (s : running) (l : list event) : option running :=
  match l with
  | [] => Some s
  | e :: r => match happen b workers s e with
              | Some s' => events b workers s' r
              | None => None
              end
  end.

(** ** Awaitables of functions (scheduleFunction, scheduler_impl.cpp:230-244; awaitable_impl.cpp) *)
(** What the function leads to: a value, or an exception with an error code; [Nothing] is the
    nullopt of a cancelled call. *)
Inductive outcome := Value (v : nat) | Threw (e : nat) | Nothing.
Inductive work := Waiting | Running | Ended.
(** [a_valid]: future.valid(); [a_work]: the asynchronous call; [a_cancelled]: its cancel flag;
    [a_done]: the shared state, once it is ready; [a_completed]: the flag of the awaitable;
    [a_ran]: how often the function was called. *)
Record awaitable := { a_valid : bool; a_work : work; a_cancelled : bool; a_done : option outcome; a_completed : bool; a_ran : nat }.
Definition fresh : awaitable := {| a_valid := true; a_work := Waiting; a_cancelled := false; a_done := None; a_completed := false; a_ran := 0 |}.

(** [Blocks]: the call waits for the work.  [NoState]: the error of get() of an invalid future. *)
Inductive answer := Good | Ignored | Blocks | Empty | Failed (e : nat) | NoState | Result (v : nat) | Null | Says (x : bool).

(** [Begin]: a worker takes the call and runs the function; [Finish]: the function returns. *)
Inductive acall := Begin | Finish (o : outcome) | Cancel | Wait | GetResult | HasCompleted.

Definition isWaiting (w : work) : bool := match w with Waiting => true | _ => false end.
Definition isRunning (w : work) : bool := match w with Running => true | _ => false end.
Definition isEnded (w : work) : bool := match w with Ended => true | _ => false end.

(** The asynchronous call (patches/0001, the lambda for a result): a call that was cancelled gets
    the empty result first, and then runs the function all the same; the second set_value then
    throws, which is ignored. *)
Definition beginWork (a : awaitable) : awaitable :=
  {| a_valid := a_valid a; a_work := Running; a_cancelled := a_cancelled a;
     a_done := if a_cancelled a then Some Nothing else a_done a; a_completed := a_completed a; a_ran := S (a_ran a) |}.
Definition finishWork (a : awaitable) (o : outcome) : awaitable :=
  {| a_valid := a_valid a; a_work := Ended; a_cancelled := a_cancelled a;
     a_done := match a_done a with Some p => Some p | None => Some o end; a_completed := a_completed a; a_ran := a_ran a |}.
(** cancel (awaitable_impl.cpp:14-19): sets the flag as long as the call is there. *)
Definition cancel (a : awaitable) : awaitable :=
  {| a_valid := a_valid a; a_work := a_work a; a_cancelled := true; a_done := a_done a; a_completed := a_completed a; a_ran := a_ran a |}.
(** wait (:21-40). *)
Definition waited (a : awaitable) : awaitable :=
  {| a_valid := a_valid a; a_work := a_work a; a_cancelled := a_cancelled a; a_done := a_done a; a_completed := true; a_ran := a_ran a |}.
Definition wait (a : awaitable) : awaitable * answer :=
  if a_completed a then (a, Ignored)
  else if negb (a_valid a) then (a, Empty)
  else match a_done a with
       | None => (a, Blocks)
       | Some _ => (waited a, Good)
       end.
(** future.get() leaves the future invalid; [completed] is set if it did not throw (:65-80). *)
Definition taken (a : awaitable) (done : bool) : awaitable :=
  {| a_valid := false; a_work := a_work a; a_cancelled := a_cancelled a; a_done := a_done a; a_completed := done; a_ran := a_ran a |}.
(** getResult (:42-82). *)
Definition getResult (a : awaitable) : awaitable * answer :=
  if negb (a_completed a) && negb (a_valid a) then (a, Empty)
  else if negb (a_valid a) then (a, NoState)
  else match a_done a with
       | None => (a, Blocks)
       | Some (Value v) => (taken a true, Result v)
       | Some Nothing => (taken a true, Null)
       | Some (Threw e) => (taken a (a_completed a), Failed e)
       end.
(** hasCompleted (:84-94): the second assignment always wins. *)
Definition hasCompleted (a : awaitable) : answer := Says (negb (a_valid a)).

Definition acts (a : awaitable) (c : acall) : awaitable * answer :=
  match c with
  | Begin => if isWaiting (a_work a) then (beginWork a, Good) else (a, Good)
  | Finish o => if isRunning (a_work a) then (finishWork a o, Good) else (a, Good)
  | Cancel => if isEnded (a_work a) then (a, Says false) else (cancel a, Says true)
  | Wait => wait a
  | GetResult => getResult a
  | HasCompleted => (a, hasCompleted a)
  end.
Definition acted (a : awaitable) (l : list acall) : awaitable := fold_left (fun x c => fst (acts x c)) l a.

(** ** Scheduling works and stopping (scheduler_impl.cpp:195-259, 280-286) *)
(** [s_checked]: calls of scheduleWork between the test of [stopped] and the use of the executor;
    [s_alive]: the executor is there. *)
Record sched := { s_stopped : bool; s_alive : bool; s_checked : list nat; s_queue : list nat; s_active : list nat; s_done : list nat }.
Definition started : sched := {| s_stopped := false; s_alive := true; s_checked := []; s_queue := []; s_active := []; s_done := [] |}.

Inductive sevent :=
| Check (w : nat) | Submit (w : nat)        (* the two halves of scheduleWork, :246-259 *)
| Take (w : nat) | Done (w : nat)           (* a worker takes a work; it has executed it *)
| StopFlag | StopReset                      (* the two halves of stop, :203-216; the executor's destructor waits for all works *)
| WaitAll | IsMultiThreaded.                (* :195-201, :280-286 *)

Inductive sanswer := Fine | Stopped | Waits | Dead | Impossible.

Fixpoint removeOne (i : nat) (l : list nat) : list nat :=
  match l with
  | [] => []
  | k :: r => if Nat.eqb k i then r else k :: removeOne i r
  end.

Definition drained (s : sched) : bool :=
  match s_queue s, s_active s with
  | [], [] => true
  | _, _ => false
  end.

Definition sact (s : sched) (e : sevent) : sched * sanswer :=
  match e with
  | Check w =>
      if s_stopped s then (s, Stopped)
      else ({| s_stopped := s_stopped s; s_alive := s_alive s; s_checked := w :: s_checked s; s_queue := s_queue s; s_active := s_active s; s_done := s_done s |}, Fine)
  | Submit w =>
      if mem w (s_checked s) then
        if s_alive s then
          ({| s_stopped := s_stopped s; s_alive := s_alive s; s_checked := removeOne w (s_checked s); s_queue := s_queue s ++ [w]; s_active := s_active s; s_done := s_done s |}, Fine)
        else (s, Dead)
      else (s, Impossible)
  | Take w =>
      if mem w (s_queue s) then
        ({| s_stopped := s_stopped s; s_alive := s_alive s; s_checked := s_checked s; s_queue := removeOne w (s_queue s); s_active := w :: s_active s; s_done := s_done s |}, Fine)
      else (s, Impossible)
  | Done w =>
      if mem w (s_active s) then
        ({| s_stopped := s_stopped s; s_alive := s_alive s; s_checked := s_checked s; s_queue := s_queue s; s_active := removeOne w (s_active s); s_done := w :: s_done s |}, Fine)
      else (s, Impossible)
  | StopFlag =>
      ({| s_stopped := true; s_alive := s_alive s; s_checked := s_checked s; s_queue := s_queue s; s_active := s_active s; s_done := s_done s |}, Fine)
  | StopReset =>
      if s_stopped s then
        if drained s then
          ({| s_stopped := true; s_alive := false; s_checked := s_checked s; s_queue := []; s_active := []; s_done := s_done s |}, Fine)
        else (s, Waits)
      else (s, Impossible)
  | WaitAll => if s_alive s then if drained s then (s, Fine) else (s, Waits) else (s, Dead)
  | IsMultiThreaded => if s_alive s then (s, Fine) else (s, Dead)
  end.
Definition sacts (s : sched) (l : list sevent) : sched := fold_left (fun x e => fst (sact x e)) l s.
