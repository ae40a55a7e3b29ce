(** Connections between function blocks and the check for cycles.
    core/opendaq/signal/src/cyclic_ref_check.cpp,
    core/opendaq/signal/include/opendaq/input_port_impl.h,
    core/opendaq/signal/include/opendaq/signal_impl.h (connection lists).

    Function blocks, signals and input ports are numbers.  [outs] lists the
    signals directly under each function block (getSignals with the Any filter,
    cyclic_ref_check.cpp:34); [lsn] holds the ports whose listener is a function
    block (other listeners end the search, 20-26); [conns] are the connections
    in the order in which the signals hold them.  A port's weak reference to its
    connection and the entry in the signal's list are one thing here.  What a
    listener does when notified is only its result. *)
From Verif Require Import Base.
Local Open Scope nat_scope.

Record graph := { blocks : list nat; outs : list (nat * nat); lsn : list (nat * nat); conns : list (nat * nat);
                  gone_signals : list nat; gone_ports : list nat }.
Definition empty : graph := {| blocks := []; outs := []; lsn := []; conns := []; gone_signals := []; gone_ports := [] |}.

Definition mem (x : nat) (l : list nat) : bool := existsb (Nat.eqb x) l.

(** getSignals of a function block; getConnections of a signal (the ports); getListener of a port *)
Definition outputs (g : graph) (f : nat) : list nat := map snd (filter (fun e => fst e =? f) (outs g)).
Definition ports_of (g : graph) (s : nat) : list nat := map fst (filter (fun e => snd e =? s) (conns g)).
Definition listener (g : graph) (p : nat) : option nat :=
  match filter (fun e => fst e =? p) (lsn g) with e :: _ => Some (snd e) | [] => None end.

(** cyclic_ref_check.cpp:44-57: over the connections of one output signal.
    [None]: the recursion did not end within the depth given. *)
Fixpoint over_ports (rec : option nat -> list nat -> option (bool * list nat)) (g : graph) (ps : list nat) (visited : list nat) : option (bool * list nat) :=
  match ps with
  | [] => Some (false, visited)
  | p :: r => match rec (listener g p) visited with
              | None => None
              | Some (true, v) => Some (true, v)
              | Some (false, v) => over_ports rec g r v
              end
  end.
(** cyclic_ref_check.cpp:36-60: over the output signals *)
Fixpoint over_signals (rec : option nat -> list nat -> option (bool * list nat)) (g : graph) (target : nat) (ss : list nat) (visited : list nat) : option (bool * list nat) :=
  match ss with
  | [] => Some (false, visited)
  | s :: r => if s =? target then Some (true, visited)
              else match over_ports rec g (ports_of g s) visited with
                   | None => None
                   | Some (true, v) => Some (true, v)
                   | Some (false, v) => over_signals rec g target r v
                   end
  end.
(** cyclic_ref_check.cpp:16-61 *)
Fixpoint checkCyclicReferenceRecursive (depth : nat) (g : graph) (target : nat) (l : option nat) (visited : list nat) : option (bool * list nat) :=
  match depth with
  | O => None
  | S depth' =>
    match l with
    | None => Some (false, visited)
    | Some f => if mem f visited then Some (false, visited)
                else over_signals (checkCyclicReferenceRecursive depth' g target) g target (outputs g f) (f :: visited)
    end
  end.
(** cyclic_ref_check.cpp:63-83 *)
Definition hasCyclicReferenceIfConnected (depth : nat) (g : graph) (s p : nat) : option bool :=
  match checkCyclicReferenceRecursive depth g s (listener g p) [] with Some (b, _) => Some b | None => None end.

Inductive outcome := Connected | RemovedSignal | Cyclic | RemovedPort | ListenerFailed | NoEnd | Done.

(** input_port_impl.h:221-239 *)
Definition canConnectSignal (depth : nat) (g : graph) (s p : nat) : outcome :=
  if mem s (gone_signals g) then RemovedSignal
  else match hasCyclicReferenceIfConnected depth g s p with
       | None => NoEnd
       | Some true => Cyclic
       | Some false => Connected
       end.

Definition set_conns (c : list (nat * nat)) (g : graph) : graph :=
  {| blocks := blocks g; outs := outs g; lsn := lsn g; conns := c; gone_signals := gone_signals g; gone_ports := gone_ports g |}.
Definition without_port (p : nat) (g : graph) : list (nat * nat) := filter (fun e => negb (fst e =? p)) (conns g).

(** input_port_impl.h:662-712, after the check: [ok] is the result of the
    listener's connected() *)
Definition commit (g : graph) (s p : nat) (ok : bool) : graph * outcome :=
  if mem p (gone_ports g) then (g, RemovedPort)
  else if ok then (set_conns (without_port p g ++ [(p, s)]) g, Connected)
  else (set_conns (without_port p g) g, ListenerFailed).

(** input_port_impl.h:654-725 *)
Definition connect (depth : nat) (g : graph) (s p : nat) (ok : bool) : graph * outcome :=
  match canConnectSignal depth g s p with
  | Connected => commit g s p ok
  | e => (g, e)
  end.

Inductive op :=
| AddBlock (f : nat)
| AddOutput (f s : nat)      (* a new signal of an existing block *)
| AddPort (p f : nat)        (* a new port with the block as listener *)
| SetListener (p : nat) (f : option nat)
| Connect (s p : nat) (ok : bool)
| Disconnect (p : nat)
| RemoveSignal (s : nat)
| RemovePort (p : nat).

(** A depth that suffices: one call per block and one more. *)
Definition enough (g : graph) : nat := S (S (length (blocks g))).

(** input_port_impl.h:283-297 disconnect, 464-480 setListener, 575-600
    removedNoLock; signal_impl.h:1190-1209 removed.  New signals and ports are
    new objects: adding one that exists is not a call that can be made and
    changes nothing. *)
Definition step (g : graph) (o : op) : graph * outcome :=
  match o with
  | AddBlock f => (if mem f (blocks g) then g else
      {| blocks := blocks g ++ [f]; outs := outs g; lsn := lsn g; conns := conns g; gone_signals := gone_signals g; gone_ports := gone_ports g |}, Done)
  | AddOutput f s => (if mem f (blocks g) && negb (mem s (map snd (outs g) ++ map snd (conns g) ++ gone_signals g)) then
      {| blocks := blocks g; outs := outs g ++ [(f, s)]; lsn := lsn g; conns := conns g; gone_signals := gone_signals g; gone_ports := gone_ports g |} else g, Done)
  | AddPort p f => (if mem f (blocks g) && negb (mem p (map fst (lsn g) ++ map fst (conns g) ++ gone_ports g)) then
      {| blocks := blocks g; outs := outs g; lsn := lsn g ++ [(p, f)]; conns := conns g; gone_signals := gone_signals g; gone_ports := gone_ports g |} else g, Done)
  | SetListener p f =>
      let l := filter (fun e => negb (fst e =? p)) (lsn g) in
      ({| blocks := blocks g; outs := outs g;
          lsn := match f with Some f => if mem f (blocks g) then l ++ [(p, f)] else lsn g | None => l end;
          conns := conns g; gone_signals := gone_signals g; gone_ports := gone_ports g |}, Done)
  | Connect s p ok => connect (enough g) g s p ok
  | Disconnect p => (set_conns (without_port p g) g, Done)
  | RemoveSignal s =>
      ({| blocks := blocks g; outs := filter (fun e => negb (snd e =? s)) (outs g); lsn := lsn g;
          conns := filter (fun e => negb (snd e =? s)) (conns g); gone_signals := s :: gone_signals g; gone_ports := gone_ports g |}, Done)
  | RemovePort p =>
      ({| blocks := blocks g; outs := outs g; lsn := lsn g; conns := without_port p g; gone_signals := gone_signals g; gone_ports := p :: gone_ports g |}, Done)
  end.

(** newest operation first *)
Fixpoint after (h : list op) : graph := match h with [] => empty | o :: r => fst (step (after r) o) end.
