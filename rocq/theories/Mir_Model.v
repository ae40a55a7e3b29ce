(** Mirrored signals and their streaming sources: who subscribes to what.
    Models core/opendaq/streaming/include/opendaq/mirrored_signal_impl.h
    together with the part of core/opendaq/streaming/include/opendaq/streaming_impl.h
    that counts subscribers, and the listener calls of
    core/opendaq/signal/include/opendaq/signal_impl.h.

    Simplifications: signals, sources and connections are numbers; the signals
    are 0 .. n-1, a signal stands for its remote id and a source for its
    connection string; the item a source keeps for a signal is looked up by
    the remote id (the renaming of items when a signal becomes available is
    the subject of SubC_Model.v); a request to the server is recorded and does
    not fail; one signal is added or removed per call; every call runs to its
    end under the lock it takes; connections are local ones. *)
From Coq Require Import List Bool Arith.
Import ListNotations.

(** mirrored_signal_impl.h 108-114 and signal_impl.h: connections, domainSignal,
    component_impl.h: isComponentRemoved. *)
Record msig := mkM {
  g_conns : list nat;          (* connections *)
  g_listened : bool;           (* listened *)
  g_streamed : bool;           (* streamed *)
  g_active : option nat;       (* activeStreamingSourceRef, a weak reference *)
  g_sources : list nat;        (* streamingSourcesRefs *)
  g_domain : option nat;       (* domainSignal *)
  g_removed : bool
}.

(** streaming_impl.h 188-196. *)
Record src := mkR {
  r_alive : bool;              (* the object exists: weak references to it resolve *)
  r_on : bool;                 (* isActive *)
  r_skip : bool;               (* skipDomainSignalSubscribe *)
  r_items : nat -> option nat; (* streamingSignalsItems: subscribers of an added signal *)
  r_avail : nat -> bool        (* availableSignalIds *)
}.

(** What goes over the wire of a source: requests, and the moment the server
    ceases to offer the signal (and so forgets the subscription). *)
Inductive note := Ask (s g : nat) | Cancel (s g : nat) | Gone (s g : nat).

Record state := mkS {
  st_n : nat;
  st_sig : nat -> msig;
  st_src : nat -> src;
  st_wire : list note;
  st_out : list (nat * nat * nat * nat)  (* delivered: signal, connection, source, packet *)
}.

Inductive outcome := OK | Ignored | NotFound | Duplicate | BadState | BadParam | NoSuch.

(** OPENDAQ_FAILED: OPENDAQ_IGNORED is a success code. *)
Definition failed (o : outcome) : bool := match o with OK | Ignored => false | _ => true end.

Definition upd {A} (f : nat -> A) (k : nat) (a : A) : nat -> A := fun x => if Nat.eqb x k then a else f x.

Definition put_sig (st : state) (g : nat) (m : msig) : state :=
  mkS (st_n st) (upd (st_sig st) g m) (st_src st) (st_wire st) (st_out st).
Definition put_src (st : state) (s : nat) (r : src) : state :=
  mkS (st_n st) (st_sig st) (upd (st_src st) s r) (st_wire st) (st_out st).
Definition say (st : state) (x : note) : state :=
  mkS (st_n st) (st_sig st) (st_src st) (st_wire st ++ [x]) (st_out st).
Definition hand (st : state) (l : list (nat * nat * nat * nat)) : state :=
  mkS (st_n st) (st_sig st) (st_src st) (st_wire st) (st_out st ++ l).

Definition set_conns (m : msig) c := mkM c (g_listened m) (g_streamed m) (g_active m) (g_sources m) (g_domain m) (g_removed m).
Definition set_listened (m : msig) b := mkM (g_conns m) b (g_streamed m) (g_active m) (g_sources m) (g_domain m) (g_removed m).
Definition set_str (m : msig) b := mkM (g_conns m) (g_listened m) b (g_active m) (g_sources m) (g_domain m) (g_removed m).
Definition set_act (m : msig) a := mkM (g_conns m) (g_listened m) (g_streamed m) a (g_sources m) (g_domain m) (g_removed m).
Definition set_sources (m : msig) l := mkM (g_conns m) (g_listened m) (g_streamed m) (g_active m) l (g_domain m) (g_removed m).
Definition set_dom (m : msig) d := mkM (g_conns m) (g_listened m) (g_streamed m) (g_active m) (g_sources m) d (g_removed m).
Definition set_rem (m : msig) b := mkM (g_conns m) (g_listened m) (g_streamed m) (g_active m) (g_sources m) (g_domain m) b.

Definition set_items (r : src) i := mkR (r_alive r) (r_on r) (r_skip r) i (r_avail r).
Definition set_avail (r : src) a := mkR (r_alive r) (r_on r) (r_skip r) (r_items r) a.
Definition set_alive (r : src) b := mkR b (r_on r) (r_skip r) (r_items r) (r_avail r).
Definition set_on (r : src) b := mkR (r_alive r) b (r_skip r) (r_items r) (r_avail r).

Definition items (st : state) (s g : nat) : option nat := r_items (st_src st s) g.
Definition put_item (st : state) (s g : nat) (i : option nat) : state :=
  put_src st s (set_items (st_src st s) (upd (r_items (st_src st s)) g i)).

(** streaming_impl.h 473-515: doSubscribeSignal. *)
Definition do_subscribe (st : state) (s g : nat) : state * outcome :=
  match items st s g with
  | None => (st, NotFound)
  | Some k =>
      let st1 := put_item st s g (Some (S k)) in
      if r_avail (st_src st s) g && Nat.eqb k 0 then (say st1 (Ask s g), OK) else (st1, OK)
  end.

(** streaming_impl.h 552-604: doUnsubscribeSignal. *)
Definition do_unsubscribe (st : state) (s g : nat) : state * outcome :=
  match items st s g with
  | None => (st, NotFound)
  | Some 0 => (st, BadState)
  | Some (S k) =>
      let st1 := put_item st s g (Some k) in
      if r_avail (st_src st s) g && Nat.eqb k 0 then (say st1 (Cancel s g), OK) else (st1, OK)
  end.

(** streaming_impl.h 517-550: subscribeSignal, the domain signal first. *)
Definition subscribe (st : state) (s g : nat) (d : option nat) : state * outcome :=
  match d with
  | Some d =>
      if Nat.eqb g d then (st, BadParam)
      else if r_skip (st_src st s) then do_subscribe st s g
      else match do_subscribe st s d with
           | (st1, OK) => do_subscribe st1 s g
           | (st1, e) => (st1, e)
           end
  | None => do_subscribe st s g
  end.

(** streaming_impl.h 606-639: unsubscribeSignal. *)
Definition unsubscribe (st : state) (s g : nat) (d : option nat) : state * outcome :=
  match d with
  | Some d =>
      if Nat.eqb g d then (st, BadParam)
      else if r_skip (st_src st s) then do_unsubscribe st s g
      else match do_unsubscribe st s d with
           | (st1, OK) => do_unsubscribe st1 s g
           | (st1, e) => (st1, e)
           end
  | None => do_unsubscribe st s g
  end.

(** mirrored_signal_impl.h 585-597: getActiveStreamingSource; the weak
    reference is resolved the same way in every function below. *)
Definition active_source (st : state) (g : nat) : option nat :=
  match g_active (st_sig st g) with
  | Some s => if r_alive (st_src st s) then Some s else None
  | None => None
  end.

(** mirrored_signal_impl.h 681-688, 706-713: the domain signal passed on. *)
Definition domain_of (st : state) (g : nat) : option nat :=
  match g_domain (st_sig st g) with
  | Some d => if g_removed (st_sig st d) then None else Some d
  | None => None
  end.

(** mirrored_signal_impl.h 672-695. *)
Definition subscribe_internal (st : state) (g : nat) : state * outcome :=
  match active_source st g with
  | Some s => subscribe st s g (domain_of st g)
  | None => (st, Ignored)
  end.

(** mirrored_signal_impl.h 697-720. *)
Definition unsubscribe_internal (st : state) (g : nat) : state * outcome :=
  match active_source st g with
  | Some s => unsubscribe st s g (domain_of st g)
  | None => (st, Ignored)
  end.

(** [if (listened && streamed) unsubscribeInternal()], used in
    mirrored_signal_impl.h 186-187, 329-333, 566-570, 607-608. *)
Definition let_go (st : state) (g : nat) : state * outcome :=
  if g_listened (st_sig st g) && g_streamed (st_sig st g) then unsubscribe_internal st g else (st, OK).

(** mirrored_signal_impl.h 482-499: onListenedStatusChanged. *)
Definition on_listened (st : state) (g : nat) (b : bool) : state * outcome :=
  if Bool.eqb (g_listened (st_sig st g)) b then (st, OK)
  else
    let st1 := put_sig st g (set_listened (st_sig st g) b) in
    if g_streamed (st_sig st g) then (if b then subscribe_internal st1 g else unsubscribe_internal st1 g)
    else (st1, OK).

Definition memb (c : nat) (l : list nat) : bool := existsb (Nat.eqb c) l.
Fixpoint erase (c : nat) (l : list nat) : list nat :=
  match l with [] => [] | x :: l => if Nat.eqb x c then l else x :: erase c l end.

(** signal_impl.h 865-903: listenerConnectedInternal; input_port_impl.h
    222-226: a removed signal cannot be connected. *)
Definition connect (st : state) (g c : nat) : state * outcome :=
  if g_removed (st_sig st g) then (st, BadState)
  else if memb c (g_conns (st_sig st g)) then (st, Duplicate)
  else
    let '(st1, o) := match g_conns (st_sig st g) with [] => on_listened st g true | _ => (st, OK) end in
    if failed o then (st1, o)
    else (put_sig st1 g (set_conns (st_sig st1 g) (g_conns (st_sig st1 g) ++ [c])), OK).

(** signal_impl.h 995-1028: listenerDisconnected. *)
Definition disconnect (st : state) (g c : nat) : state * outcome :=
  if memb c (g_conns (st_sig st g)) then
    let st1 := put_sig st g (set_conns (st_sig st g) (erase c (g_conns (st_sig st g)))) in
    match g_conns (st_sig st1 g) with
    | [] => let '(st2, o) := on_listened st1 g false in (st2, if failed o then o else OK)
    | _ => (st1, OK)
    end
  else (st, NotFound).

(** mirrored_signal_impl.h 521-582: setActiveStreamingSource. *)
Definition set_active (st : state) (g s : nat) : state * outcome :=
  if match active_source st g with Some s0 => Nat.eqb s0 s | None => false end then (st, Ignored)
  else if negb (memb s (g_sources (st_sig st g))) then (st, NotFound)
  else if negb (r_alive (st_src st s)) then (st, NotFound)
  else
    let '(st1, o) := let_go st g in
    if failed o then (st1, o)
    else
      let st2 := put_sig st1 g (set_act (st_sig st1 g) (Some s)) in
      if g_listened (st_sig st g) && g_streamed (st_sig st g) then
        let '(st3, o3) := subscribe_internal st2 g in (st3, if failed o3 then o3 else OK)
      else (st2, OK).

(** mirrored_signal_impl.h 599-614: deactivateStreaming. *)
Definition deactivate (st : state) (g : nat) : state * outcome :=
  let '(st1, o) := let_go st g in
  (put_sig st1 g (set_act (st_sig st1 g) None), if failed o then o else OK).

(** mirrored_signal_impl.h 731-755: setStreamed. *)
Definition set_streamed (st : state) (g : nat) (b : bool) : state * outcome :=
  if Bool.eqb b (g_streamed (st_sig st g)) then (st, Ignored)
  else
    let st1 := put_sig st g (set_str (st_sig st g) b) in
    if g_listened (st_sig st g) then
      let '(st2, o) := if b then subscribe_internal st1 g else unsubscribe_internal st1 g in
      (st2, if failed o then o else OK)
    else (st1, OK).

(** mirrored_signal_impl.h 254-285: addStreamingSource. *)
Definition add_source (st : state) (g s : nat) : state * outcome :=
  if memb s (g_sources (st_sig st g)) then (st, Duplicate)
  else (put_sig st g (set_sources (st_sig st g) (g_sources (st_sig st g) ++ [s])), OK).

(** mirrored_signal_impl.h 320-337: the active reference after a source was
    taken from the list: cleared when its object is gone or is the one taken. *)
Definition drop_active (st : state) (g s : nat) : state * outcome :=
  match g_active (st_sig st g) with
  | None => (st, OK)
  | Some a =>
      if negb (r_alive (st_src st a)) then (put_sig st g (set_act (st_sig st g) None), OK)
      else if Nat.eqb a s then
        let '(st1, o) := let_go st g in
        if failed o then (st1, o) else (put_sig st1 g (set_act (st_sig st1 g) None), OK)
      else (st, OK)
  end.

(** mirrored_signal_impl.h 287-340: removeStreamingSource. *)
Definition remove_source (st : state) (g s : nat) : state * outcome :=
  if memb s (g_sources (st_sig st g)) then
    drop_active (put_sig st g (set_sources (st_sig st g) (erase s (g_sources (st_sig st g))))) g s
  else (st, NotFound).

(** streaming_impl.h 298-363: addSignals. *)
Definition add_signal (st : state) (s g : nat) : state * outcome :=
  match items st s g with
  | Some _ => (st, Duplicate)
  | None => add_source (put_item st s g (Some 0)) g s
  end.

(** streaming_impl.h 366-429: removeSignals. *)
Definition remove_signal (st : state) (s g : nat) : state * outcome :=
  let '(st1, o) := remove_source st g s in
  if failed o then (st1, o)
  else match items st1 s g with
       | Some _ => (put_item st1 s g None, OK)
       | None => (st1, NotFound)
       end.

(** streaming_impl.h 701-726: removeStreamingSourceForAllSignals, over the
    signals [l] (the code goes over them in hash order). *)
Fixpoint remove_sources (st : state) (s : nat) (l : list nat) : state * outcome :=
  match l with
  | [] => (st, OK)
  | g :: l =>
      let '(st1, o) := remove_source st g s in
      if failed o then (st1, o) else remove_sources st1 s l
  end.

Definition added (st : state) (s : nat) : list nat :=
  filter (fun g => match items st s g with Some _ => true | None => false end) (seq 0 (st_n st)).

Definition clear_items (st : state) (s : nat) : state :=
  put_src st s (set_items (st_src st s) (fun _ => None)).

(** streaming_impl.h 431-450: removeAllSignals. *)
Definition remove_all (st : state) (s : nat) : state * outcome :=
  let '(st1, o) := remove_sources st s (added st s) in
  if failed o then (st1, o) else (clear_items st1 s, OK).

(** streaming_impl.h 239-269: the destructor; weak references to the object
    no longer resolve. An error is logged. *)
Definition destroy (st : state) (s : nat) : state * outcome :=
  let st1 := put_src st s (set_alive (st_src st s) false) in
  (clear_items (fst (remove_sources st1 s (added st1 s))) s, OK).

(** streaming_impl.h 658-685: detachRemovedSignal, over all sources of a
    signal that still exist (mirrored_signal_impl.h 196-201). *)
Fixpoint detach_all (st : state) (g : nat) (l : list nat) : state :=
  match l with
  | [] => st
  | s :: l => detach_all (if r_alive (st_src st s) then put_item st s g None else st) g l
  end.

(** signal_impl.h 1195-1205, 1071-1079: the signals that have [g] as domain
    signal lose it. *)
Fixpoint forget_domain (st : state) (g : nat) (l : list nat) : state :=
  match l with
  | [] => st
  | v :: l =>
      forget_domain
        (match g_domain (st_sig st v) with
         | Some d => if Nat.eqb d g then put_sig st v (set_dom (st_sig st v) None) else st
         | None => st
         end) g l
  end.

(** mirrored_signal_impl.h 183-205 and signal_impl.h 1189-1209: removed. The
    results of the calls are not looked at; [listened] keeps its value. *)
Definition remove (st : state) (g : nat) : state * outcome :=
  if g_removed (st_sig st g) then (st, Ignored)
  else
    let st0 := put_sig st g (set_rem (st_sig st g) true) in
    let st1 := fst (let_go st0 g) in
    let st2 := put_sig st1 g (set_act (st_sig st1 g) None) in
    let st3 := detach_all st2 g (g_sources (st_sig st2 g)) in
    let st4 := put_sig st3 g (set_conns (set_sources (st_sig st3 g) []) []) in
    (forget_domain st4 g (seq 0 (st_n st4)), OK).

(** config_client_signal_impl.h 140-156, 196-213, with signal_impl.h 481-522:
    the device says that a signal has another domain signal. *)
Definition set_domain (st : state) (g : nat) (d : option nat) : state * outcome :=
  (put_sig st g (set_dom (st_sig st g) d), OK).

(** streaming_impl.h 846-865 with 640-655: a signal becomes available. *)
Definition become_available (st : state) (s g : nat) : state * outcome :=
  if r_avail (st_src st s) g then (st, Duplicate)
  else
    let st1 := put_src st s (set_avail (st_src st s) (upd (r_avail (st_src st s)) g true)) in
    match items st s g with
    | Some (S _) => (say st1 (Ask s g), OK)
    | _ => (st1, OK)
    end.

(** streaming_impl.h 867-885: a signal ceases to be available; 943-952: so do
    all when the connection is lost. *)
Definition become_unavailable (st : state) (s g : nat) : state * outcome :=
  if r_avail (st_src st s) g then
    (say (put_src st s (set_avail (st_src st s) (upd (r_avail (st_src st s)) g false))) (Gone s g), OK)
  else (st, NotFound).

(** streaming_impl.h 734-760: onPacket, and signal_impl.h 918-929 for an
    active signal: a packet that came over the source is passed on. *)
Definition packet (st : state) (s g k : nat) : state * outcome :=
  if r_on (st_src st s)
     && match items st s g with Some _ => true | None => false end
     && g_streamed (st_sig st g)
     && match active_source st g with Some a => Nat.eqb a s | None => false end
  then (hand st (map (fun c => (g, c, s, k)) (g_conns (st_sig st g))), OK)
  else (st, Ignored).

Inductive op :=
| Connect (g c : nat) | Disconnect (g c : nat)
| SetActive (g s : nat) | Deactivate (g : nat) | SetStreamed (g : nat) (b : bool)
| AddSignal (s g : nat) | RemoveSignal (s g : nat) | RemoveAll (s : nat) | Destroy (s : nat)
| SetDomain (g : nat) (d : option nat) | Remove (g : nat)
| Avail (s g : nat) | Unavail (s g : nat)
| SrcActive (s : nat) (b : bool) | Packet (s g k : nat).

(** The signal and the source a call is made on. *)
Definition op_sig (o : op) : option nat :=
  match o with
  | Connect g _ | Disconnect g _ | SetActive g _ | Deactivate g | SetStreamed g _
  | AddSignal _ g | RemoveSignal _ g | SetDomain g _ | Remove g
  | Avail _ g | Unavail _ g | Packet _ g _ => Some g
  | RemoveAll _ | Destroy _ | SrcActive _ _ => None
  end.
Definition op_src (o : op) : option nat :=
  match o with
  | AddSignal s _ | RemoveSignal s _ | RemoveAll s | Destroy s
  | Avail s _ | Unavail s _ | SrcActive s _ | Packet s _ _ => Some s
  | _ => None
  end.

(** Calls on signals that are not there or on sources already destroyed are
    not possible. *)
Definition possible (st : state) (o : op) : bool :=
  match op_sig o with Some g => Nat.ltb g (st_n st) | None => true end
  && match op_src o with Some s => r_alive (st_src st s) | None => true end
  && match o with SetDomain _ (Some d) => Nat.ltb d (st_n st) | _ => true end.

Definition act (st : state) (o : op) : state * outcome :=
  match o with
  | Connect g c => connect st g c
  | Disconnect g c => disconnect st g c
  | SetActive g s => set_active st g s
  | Deactivate g => deactivate st g
  | SetStreamed g b => set_streamed st g b
  | AddSignal s g => add_signal st s g
  | RemoveSignal s g => remove_signal st s g
  | RemoveAll s => remove_all st s
  | Destroy s => destroy st s
  | SetDomain g d => set_domain st g d
  | Remove g => remove st g
  | Avail s g => become_available st s g
  | Unavail s g => become_unavailable st s g
  | SrcActive s b => (put_src st s (set_on (st_src st s) b), OK)
  | Packet s g k => packet st s g k
  end.

Definition step (st : state) (o : op) : state * outcome :=
  if possible st o then act st o else (st, NoSuch).

(** [n] signals that nobody listens to and no source has, and existing sources;
    [skip] tells which of them do not subscribe domain signals. *)
Definition start (n : nat) (skip : nat -> bool) : state :=
  mkS n (fun _ => mkM [] false true None [] None false)
      (fun s => mkR true false (skip s) (fun _ => None) (fun _ => false)) [] [].
