(** Model of how the server of the configuration protocol sends core events.
    Source: /repo/shared/libraries/config_protocol/src/config_protocol_server.cpp
      234-262 (sendNotification), 275-310 (requests), 390-402 (callRpc),
      558-640 (coreEventCallback, isForwardedCoreEvent, packCoreEvent),
      694-713 (processAttributeChangedCoreEvent), 729-762 (setProtocolVersion,
      SendOutCoreEvents, RpcScopeTracker);
      config_protocol_streaming_consumer.cpp:91-124.

    Threads run concurrently. One step of the model is one access to the shared
    data: the list of packed events under coreEventsLock (the notification is
    sent while the lock is held), the atomic activeRpcCounter, or the version.
    Simplifications: a core event is what decides whether it is sent; the
    version is read once, at the start of the callback, where the source reads
    it twice without a lock. *)
From Coq Require Import List Bool Arith.
Import ListNotations.

(** What the server looks at. [ev_id] stands for the component and the
    parameters. *)
Inductive ekind :=
| Plain
| ConnectionStatus (configuration : bool)   (* StatusName is ConfigurationStatus *)
| ClientInfoAdded                           (* PropertyAdded of a connected-client info *)
| ActiveChanged (local_active : bool).      (* AttributeChanged of Active; has LocalActive *)

Record event := {
  ev_id : nat;
  ev_kind : ekind;
  ev_own : bool;          (* about a signal of this very client *)
  ev_params : bool;       (* all parameters support serialization *)
  ev_serializes : bool    (* serialization does not throw *)
}.

(** isForwardedCoreEvent (570-586, 91-124), processAttributeChangedCoreEvent
    (694-713) and the check of the parameters (625-635). *)
Definition packs (v : nat) (e : event) : bool :=
  negb (ev_own e) && ev_params e &&
  match ev_kind e with
  | Plain => true
  | ConnectionStatus b => b
  | ClientInfoAdded => negb (v <? 11)
  | ActiveChanged b => negb ((21 <? v) && negb b) && negb (23 <? v)
  end.

(** Where a thread stands.
    [Raised e]: in coreEventCallback, before pushBack. [Pushed]: before the
    test of version and counter. [Sending]: before SendOutCoreEvents.
    [Left]: ~RpcScopeTracker after fetch_sub. [Replying]: callRpc has
    returned. *)
Inductive pc := Idle | Raised (e : event) | Pushed | Sending | Left | Replying.

(** The calls a thread is in, innermost first, with whether a RpcScopeTracker
    was made. *)
Record thread := { t_pc : pc; t_calls : list (nat * bool) }.

Inductive item :=
| Batch (l : list (nat * event))     (* sendNotification was called with these *)
| Reply (t r : nat).

(** Events in the list are tagged with the thread that raised them; the tag is
    for statements only. *)
Record state := {
  s_version : nat;
  s_queue : list (nat * event);      (* packedCoreEvents *)
  s_counter : nat;                   (* activeRpcCounter *)
  s_threads : list thread;
  s_wire : list item                 (* oldest first *)
}.

Definition init (v n : nat) : state :=
  {| s_version := v; s_queue := []; s_counter := 0;
     s_threads := repeat {| t_pc := Idle; t_calls := [] |} n; s_wire := [] |}.

Fixpoint set_nth {A} (n : nat) (a : A) (l : list A) : list A :=
  match l, n with
  | [], _ => []
  | _ :: l, O => a :: l
  | x :: l, S n => x :: set_nth n a l
  end.

Definition with_thread (st : state) (t : nat) (th : thread) : state :=
  {| s_version := s_version st; s_queue := s_queue st; s_counter := s_counter st;
     s_threads := set_nth t th (s_threads st); s_wire := s_wire st |}.
Definition with_queue (st : state) (q : list (nat * event)) : state :=
  {| s_version := s_version st; s_queue := q; s_counter := s_counter st;
     s_threads := s_threads st; s_wire := s_wire st |}.
Definition with_counter (st : state) (k : nat) : state :=
  {| s_version := s_version st; s_queue := s_queue st; s_counter := k;
     s_threads := s_threads st; s_wire := s_wire st |}.
Definition with_version (st : state) (v : nat) : state :=
  {| s_version := v; s_queue := s_queue st; s_counter := s_counter st;
     s_threads := s_threads st; s_wire := s_wire st |}.
Definition with_item (st : state) (i : item) : state :=
  {| s_version := s_version st; s_queue := s_queue st; s_counter := s_counter st;
     s_threads := s_threads st; s_wire := s_wire st ++ [i] |}.

(** SendOutCoreEvents (740-750). *)
Definition send_out (st : state) : state :=
  match s_queue st with
  | [] => st
  | q => with_item (with_queue st []) (Batch q)
  end.

Definition at_pc (th : thread) (x : pc) : thread := {| t_pc := x; t_calls := t_calls th |}.

(** The steps. [Raise t e]: something calls the core event on thread t.
    [Go t]: thread t takes its next step inside the server.
    [Enter t r], [Leave t]: the handler of call r starts and returns.
    [Upgrade v]: an UpgradeProtocol request. *)
Inductive label := Raise (t : nat) (e : event) | Go (t : nat) | Enter (t r : nat) | Leave (t : nat) | Upgrade (v : nat).

(** [None]: the step is not possible in this state. *)
Definition step (st : state) (l : label) : option state :=
  match l with
  | Upgrade v => Some (with_version st v)
  | Raise t e =>
      match nth_error (s_threads st) t with
      | Some th =>
          match t_pc th with
          | Idle => Some (if packs (s_version st) e then with_thread st t (at_pc th (Raised e)) else st)
          | _ => None
          end
      | None => None
      end
  | Go t =>
      match nth_error (s_threads st) t with
      | Some th =>
          match t_pc th with
          | Idle => None
          | Raised e => Some (with_thread (with_queue st (s_queue st ++ [(t, e)])) t (at_pc th Pushed))
          | Pushed =>
              if (s_version st <? 20) || (s_counter st =? 0)
              then Some (with_thread st t (at_pc th Sending))
              else Some (with_thread st t (at_pc th Idle))
          | Sending => Some (with_thread (send_out st) t (at_pc th Idle))
          | Left => Some (with_thread (send_out st) t (at_pc th Replying))
          | Replying =>
              match t_calls th with
              | (r, _) :: cs => Some (with_item (with_thread st t {| t_pc := Idle; t_calls := cs |}) (Reply t r))
              | [] => None
              end
          end
      | None => None
      end
  | Enter t r =>
      match nth_error (s_threads st) t with
      | Some th =>
          match t_pc th with
          | Idle =>
              if s_version st <? 20
              then Some (with_thread st t {| t_pc := Idle; t_calls := (r, false) :: t_calls th |})
              else Some (with_thread (with_counter st (S (s_counter st))) t {| t_pc := Idle; t_calls := (r, true) :: t_calls th |})
          | _ => None
          end
      | None => None
      end
  | Leave t =>
      match nth_error (s_threads st) t with
      | Some th =>
          match t_pc th, t_calls th with
          | Idle, (_, true) :: _ =>
              Some (with_thread (with_counter st (s_counter st - 1)) t (at_pc th Left))
          | Idle, (_, false) :: _ => Some (with_thread st t (at_pc th Replying))
          | _, _ => None
          end
      | None => None
      end
  end.

(** A history, oldest step first. *)
Fixpoint run (st : state) (h : list label) : option state :=
  match h with
  | [] => Some st
  | l :: h => match step st l with Some st' => run st' h | None => None end
  end.

(** What the client gets from a batch (sendNotification, 243-262): one event
    that does not serialize takes the others with it. *)
Definition arrives (i : item) : list (nat * event) :=
  match i with
  | Batch l => if forallb (fun x => ev_serializes (snd x)) l then l else []
  | Reply _ _ => []
  end.
