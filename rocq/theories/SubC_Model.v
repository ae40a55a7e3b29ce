(** The client side of a streaming: which signals are requested from the server.
    Models core/opendaq/streaming/include/opendaq/streaming_impl.h and
    core/opendaq/utility/include/opendaq/ids_parser.h (idEndsWith).

    Simplifications: identifiers are lists of character codes; the two hash
    containers are lists, searched from the front (the code searches in hash
    order); the mirrored signals stay alive; signals that are not public or not
    mirrored are not passed to addSignals; one signal is added or removed per
    call; a request to the server (onSubscribeSignal, onUnsubscribeSignal) is
    recorded, and whether sending it fails is part of the call. *)
From Coq Require Import List Bool Arith.
Import ListNotations.

Definition id := list nat.

Fixpoint id_eqb (a b : id) : bool :=
  match a, b with
  | [], [] => true
  | x :: a, y :: b => Nat.eqb x y && id_eqb a b
  | _, _ => false
  end.

Fixpoint starts (a b : id) : bool :=
  match a, b with
  | [], _ => true
  | x :: a, y :: b => Nat.eqb x y && starts a b
  | _ :: _, [] => false
  end.

(** ids_parser.h 44-49: the characters of [e] are compared from the back. *)
Definition ends_with (a e : id) : bool :=
  if Nat.ltb (length a) (length e) then false else starts (rev e) (rev a).

(** streaming_impl.h 192-193: a signal item: its key, the number of
    subscribers, and the remote id of the mirrored signal it refers to. *)
Record item := mkI { i_key : id; i_cnt : nat; i_rid : id }.

(** What goes over the connection, in order: requests of the client, and the
    two moments at which the server forgets subscriptions: the signal ceases
    to be there, or a new session begins. *)
Inductive note := RSub (x : id) | RUnsub (x : id) | Gone (x : id) | Fresh.

Record state := mkSt {
  st_items : list item;        (* streamingSignalsItems *)
  st_avail : list id;          (* availableSignalIds *)
  st_rec : bool;               (* isReconnecting *)
  st_wire : list note
}.

Definition init : state := mkSt [] [] false [].

Inductive outcome := OK | NotFound | Duplicate | BadState | BadParam | Failed.

Definition find_item (k : id) (l : list item) : option item := find (fun i => id_eqb (i_key i) k) l.
Fixpoint erase_item (k : id) (l : list item) : list item :=
  match l with
  | [] => []
  | i :: l => if id_eqb (i_key i) k then l else i :: erase_item k l
  end.
Fixpoint set_cnt (k : id) (n : nat) (l : list item) : list item :=
  match l with
  | [] => []
  | i :: l => if id_eqb (i_key i) k then mkI (i_key i) n (i_rid i) :: l else i :: set_cnt k n l
  end.
(** unordered_map::insert: nothing happens when the key is present. *)
Definition insert_item (i : item) (l : list item) : list item :=
  match find_item (i_key i) l with Some _ => l | None => l ++ [i] end.

(** streaming_impl.h 828-845: getSignalStreamingId. *)
Definition streaming_id (st : state) (r : id) : option id := find (fun x => ends_with r x) (st_avail st).
Definition key_of (st : state) (r : id) : id :=
  match streaming_id st r with Some x => x | None => r end.

Definition with_items (st : state) (l : list item) : state := mkSt l (st_avail st) (st_rec st) (st_wire st).
Definition with_avail (st : state) (l : list id) : state := mkSt (st_items st) l (st_rec st) (st_wire st).
Definition with_rec (st : state) (b : bool) : state := mkSt (st_items st) (st_avail st) b (st_wire st).
Definition say (st : state) (n : note) : state := mkSt (st_items st) (st_avail st) (st_rec st) (st_wire st ++ [n]).

(** streaming_impl.h 306-361: addSignals, for one signal. *)
Definition add_signal (st : state) (r : id) : state * outcome :=
  match find_item (key_of st r) (st_items st) with
  | Some _ => (st, Duplicate)
  | None => (with_items st (insert_item (mkI (key_of st r) 0 r) (st_items st)), OK)
  end.

(** streaming_impl.h 365-423: removeSignals for one signal, after the signal
    itself has let go of this streaming (which unsubscribes it when it was
    listened to; that is a separate call here). Also 642-669:
    detachRemovedSignal, which does the same. *)
Definition remove_signal (st : state) (r : id) : state * outcome :=
  match find_item (key_of st r) (st_items st) with
  | Some i => (with_items st (erase_item (key_of st r) (st_items st)), OK)
  | None => (st, NotFound)
  end.

(** streaming_impl.h 469-512: doSubscribeSignal. *)
Definition do_subscribe (st : state) (r : id) (fails : bool) : state * outcome :=
  let k := key_of st r in
  match find_item k (st_items st) with
  | None => (st, NotFound)
  | Some i =>
      let st1 := with_items st (set_cnt k (S (i_cnt i)) (st_items st)) in
      let skip := match streaming_id st r with None => true | Some _ => Nat.ltb 0 (i_cnt i) end in
      if skip then (st1, OK)
      else if fails then (st1, Failed)
      else (say st1 (RSub k), OK)
  end.

(** streaming_impl.h 514-548: subscribeSignal. *)
Definition subscribe (skipd : bool) (st : state) (r : id) (d : option id) (fails : bool) : state * outcome :=
  match d with
  | Some d =>
      if id_eqb r d then (st, BadParam)
      else if skipd then do_subscribe st r fails
      else match do_subscribe st d fails with
           | (st1, OK) => do_subscribe st1 r fails
           | (st1, e) => (st1, e)
           end
  | None => do_subscribe st r fails
  end.

(** streaming_impl.h 550-602: doUnsubscribeSignal. *)
Definition do_unsubscribe (st : state) (r : id) (fails : bool) : state * outcome :=
  let k := key_of st r in
  match find_item k (st_items st) with
  | None => (st, NotFound)
  | Some i =>
      match i_cnt i with
      | 0 => (st, BadState)
      | S n =>
          let st1 := with_items st (set_cnt k n (st_items st)) in
          let skip := match streaming_id st r with None => true | Some _ => Nat.ltb 0 n end in
          if skip then (st1, OK)
          else if fails then (st1, Failed)
          else (say st1 (RUnsub k), OK)
      end
  end.

(** streaming_impl.h 604-638: unsubscribeSignal. *)
Definition unsubscribe (skipd : bool) (st : state) (r : id) (d : option id) (fails : bool) : state * outcome :=
  match d with
  | Some d =>
      if id_eqb r d then (st, BadParam)
      else if skipd then do_unsubscribe st r fails
      else match do_unsubscribe st d fails with
           | (st1, OK) => do_unsubscribe st1 r fails
           | (st1, e) => (st1, e)
           end
  | None => do_unsubscribe st r fails
  end.

(** extract, change the key, insert. *)
Definition rekey (old new : id) (l : list item) : list item :=
  match find_item old l with
  | Some i => insert_item (mkI new (i_cnt i) (i_rid i)) (erase_item old l)
  | None => l
  end.

(** streaming_impl.h 889-919: remapAvailableSignal. *)
Definition remap_available (st : state) (x : id) : state :=
  match find (fun i => ends_with (i_key i) x) (st_items st) with
  | Some i => if id_eqb (i_key i) x then st else with_items st (rekey (i_key i) x (st_items st))
  | None => st
  end.

(** streaming_impl.h 641-656: resubscribeAvailableSignal. *)
Definition resubscribe (st : state) (x : id) : state :=
  match find_item x (st_items st) with
  | Some i => if Nat.ltb 0 (i_cnt i) then say st (RSub x) else st
  | None => st
  end.

(** streaming_impl.h 847-866: addToAvailableSignals. *)
Definition available (st : state) (x : id) : state * outcome :=
  if existsb (id_eqb x) (st_avail st) then (st, Duplicate)
  else (resubscribe (remap_available (with_avail st (x :: st_avail st)) x) x, OK).

(** streaming_impl.h 921-944: remapUnavailableSignal. *)
Definition remap_unavailable (st : state) (x : id) : state :=
  match find_item x (st_items st) with
  | Some i => if id_eqb (i_rid i) x then st else with_items st (rekey x (i_rid i) (st_items st))
  | None => st
  end.

Definition remove_id (x : id) (l : list id) : list id := filter (fun y => negb (id_eqb x y)) l.

(** streaming_impl.h 868-887: removeFromAvailableSignals. *)
Definition unavailable (st : state) (x : id) : state * outcome :=
  if existsb (id_eqb x) (st_avail st) then
    (say (remap_unavailable (with_avail st (remove_id x (st_avail st))) x) (Gone x), OK)
  else (st, NotFound).

(** streaming_impl.h 946-955: startReconnection. *)
Definition start_reconnection (st : state) : state :=
  say (with_rec (with_avail (fold_left remap_unavailable (st_avail st) st) []) true) Fresh.

(** streaming_impl.h 957-963: completeReconnection. *)
Definition complete_reconnection (st : state) : state * outcome :=
  if st_rec st then (with_rec st false, OK) else (st, BadState).

Inductive op :=
| Add (r : id)
| Drop (r : id)
| Subscribe (r : id) (d : option id) (fails : bool)
| Unsubscribe (r : id) (d : option id) (fails : bool)
| Available (x : id)
| Unavailable (x : id)
| Reconnecting
| Connected.

Definition step (skipd : bool) (st : state) (o : op) : state * outcome :=
  match o with
  | Add r => add_signal st r
  | Drop r => remove_signal st r
  | Subscribe r d f => subscribe skipd st r d f
  | Unsubscribe r d f => unsubscribe skipd st r d f
  | Available x => available st x
  | Unavailable x => unavailable st x
  | Reconnecting => (start_reconnection st, OK)
  | Connected => complete_reconnection st
  end.

Definition run (skipd : bool) (st : state) (h : list op) : state :=
  fold_left (fun st o => fst (step skipd st o)) h st.
