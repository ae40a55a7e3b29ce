(** Signals of a client that are connected to input ports of a device.

    shared/libraries/config_protocol/src/config_protocol_streaming_producer.cpp (client),
    shared/libraries/config_protocol/src/config_protocol_streaming_consumer.cpp (server),
    .../src/config_protocol_client.cpp (connectExternalSignalToServerInputPort,
    disconnectExternalSignalFromServerInputPort),
    .../include/config_protocol/config_client_input_port_impl.h,
    .../src/config_protocol_server.cpp (connectExternalSignal, removeExternalSignals).

    One client and its session at the device. Notifications are handled by the client in
    the order they come and before a reply that comes after them (native_device_impl.cpp
    268-284); requests are handled by the server in the order they are sent. *)
From Coq Require Import List Bool Arith.
Import ListNotations.

Definition sig := nat.     (* global id of a signal of the client *)
Definition port := nat.    (* remote global id of an input port *)
Definition num := nat.     (* SignalNumericIdType *)

(** what makes a signal be streamed: a port, or a signal that it is the domain of. Both
    are ids in one set of strings in the code; an input port and a signal never have the
    same id. *)
Inductive trig := TPort (p : port) | TSig (s : sig).
Definition trig_eqb (a b : trig) : bool :=
  match a, b with
  | TPort p, TPort q => Nat.eqb p q
  | TSig s, TSig t => Nat.eqb s t
  | _, _ => false
  end.

(** StreamedSignal (config_protocol_streaming_producer.h 52-70): whether [signal] is
    assigned, the numeric id, whether there is a reader, triggerComponents *)
Record entry := Entry { e_held : bool; e_num : num; e_read : bool; e_trig : list trig }.
(** a mirrored external signal on the server: remote id, domain signal *)
Record mirror := Mirror { m_sig : sig; m_dom : option num }.

Record st := St {
  dom : sig -> option sig;               (* getDomainSignal of the client's signals *)
  prod : sig -> option entry;            (* streamedSignals *)
  ctr : num;                             (* signalNumericIdCounter *)
  cport : port -> option sig;            (* what the client's ports are connected to *)
  mirrors : num -> option mirror;        (* mirroredExternalSignals *)
  sport : list (port * num);             (* what the server's ports are connected to *)
  up : list (list num);                  (* RemoveExternalSignals on their way to the server *)
  down : list port }.                    (* SignalDisconnected on their way to the client *)

Definition init (d : sig -> option sig) : st :=
  St d (fun _ => None) 0 (fun _ => None) (fun _ => None) [] [] [].

Definition upd {V} (f : nat -> V) (i : nat) (v : V) : nat -> V := fun j => if Nat.eqb j i then v else f j.
Definition set_prod x f := St (dom x) f (ctr x) (cport x) (mirrors x) (sport x) (up x) (down x).
Definition set_cport x f := St (dom x) (prod x) (ctr x) f (mirrors x) (sport x) (up x) (down x).

(** how a call ends *)
Inductive res := Done | Threw | Endless.

(** registerOrUpdateSignal (config_protocol_streaming_producer.cpp 28-46) *)
Definition register (s : sig) (x : st) : st :=
  match prod x s with
  | Some e => set_prod x (upd (prod x) s (Some (Entry true (e_num e) (e_read e) (e_trig e))))
  | None => St (dom x) (upd (prod x) s (Some (Entry true (S (ctr x)) false []))) (S (ctr x))
              (cport x) (mirrors x) (sport x) (up x) (down x)
  end.
Definition num_of (s : sig) (x : st) : num := match prod x s with Some e => e_num e | None => 0 end.

Section Session.
(** readingEnabled (protocol version below 18). From version 18 on the packets go
    through streaming connections, which are not modelled. *)
Variable rd : bool.

(** addStreamingTrigger, startReadSignal (100-116, 150-157): a reader of a signal that is
    no longer held throws (packet_reader_impl.cpp 11-12) *)
Definition add_trigger (s : sig) (t : trig) (x : st) : st * res :=
  match prod x s with
  | None => (x, Threw)
  | Some e =>
      let start := match e_trig e with [] => true | _ => false end in
      if start && rd && negb (e_held e) then (x, Threw)
      else
        let tr := if existsb (trig_eqb t) (e_trig e) then e_trig e else e_trig e ++ [t] in
        (set_prod x (upd (prod x) s (Some (Entry (e_held e) (e_num e) (if start then rd else e_read e) tr))), Done)
  end.
(** addConnection (61-74) *)
Definition add_connection (s : sig) (p : port) (x : st) : st * res :=
  match dom x s with
  | Some d =>
      match add_trigger d (TSig s) x with
      | (x', Done) => add_trigger s (TPort p) x'
      | (x', r) => (x', r)
      end
  | None => add_trigger s (TPort p) x
  end.

(** removeStreamingTrigger, stopReadSignal (118-148, 159-168); the numbers of the signals
    that are not used any more are collected, those of domain signals first. [fuel] bounds
    the chain of domain signals. *)
Fixpoint remove_trigger (fuel : nat) (s : sig) (t : trig) (x : st) (unused : list num) : st * list num * res :=
  match fuel with
  | 0 => (x, unused, Endless)
  | S fuel =>
      match prod x s with
      | None => (x, unused, Threw)
      | Some e =>
          let tr := filter (fun u => negb (trig_eqb t u)) (e_trig e) in
          let x1 := set_prod x (upd (prod x) s (Some (Entry (e_held e) (e_num e) (e_read e) tr))) in
          match tr with
          | [] =>
              let '(x2, unused2, r) :=
                match dom x1 s with
                | Some d => remove_trigger fuel d (TSig s) x1 unused
                | None => (x1, unused, Done)
                end in
              match r with
              | Done =>
                  (set_prod x2 (upd (prod x2) s (Some (Entry false (e_num e) (if rd then false else e_read e) tr))), unused2 ++ [e_num e], Done)
              | _ => (x2, unused2, r)
              end
          | _ => (x1, unused, Done)
          end
      end
  end.
(** disconnectExternalSignalFromServerInputPort (config_protocol_client.cpp 709-733); the
    streamings of the port are not modelled *)
Definition disconnect_external (s : sig) (p : port) (x : st) : st * res :=
  match remove_trigger (S (S (ctr x))) s (TPort p) x [] with
  | (x', unused, Done) =>
      (match unused with
       | [] => x'
       | _ => St (dom x') (prod x') (ctr x') (cport x') (mirrors x') (sport x') (up x' ++ [unused]) (down x')
       end, Done)
  | (x', _, r) => (x', r)
  end.

(** assignSignal(nullptr) (config_client_input_port_impl.h 148-161), called for the event
    SignalDisconnected; an exception is caught by the caller *)
Definition assign_null (p : port) (x : st) : st * res :=
  match cport x p with
  | Some s =>
      match disconnect_external s p x with
      | (x', Done) => (set_cport x' (upd (cport x') p None), Done)
      | (x', r) => (x', r)
      end
  | None => (set_cport x (upd (cport x) p None), Done)
  end.

(** removeExternalSignal for one number (config_protocol_streaming_consumer.cpp 150-170):
    the mirror leaves the folder, which disconnects it from all ports with an event for
    each, and takes it away as the domain of others (signal_impl.h 1190-1209) *)
Definition server_remove (n : num) (x : st) : st :=
  match mirrors x n with
  | None => x
  | Some _ =>
      let clear m := match m_dom m with Some k => if Nat.eqb k n then Mirror (m_sig m) None else m | None => m end in
      St (dom x) (prod x) (ctr x) (cport x)
        (fun k => if Nat.eqb k n then None else option_map clear (mirrors x k))
        (filter (fun q => negb (Nat.eqb (snd q) n)) (sport x))
        (up x)
        (down x ++ map fst (filter (fun q => Nat.eqb (snd q) n) (sport x)))
  end.
(** the server handles all requests on their way *)
Definition server_all (x : st) : st :=
  fold_left (fun x ns => fold_left (fun x n => server_remove n x) ns x) (up x)
    (St (dom x) (prod x) (ctr x) (cport x) (mirrors x) (sport x) [] (down x)).
(** the client handles all notifications on their way *)
Definition client_all (x : st) : st :=
  fold_left (fun x p => fst (assign_null p x)) (down x)
    (St (dom x) (prod x) (ctr x) (cport x) (mirrors x) (sport x) (up x) []).
(** until nothing is on its way *)
Fixpoint settle (fuel : nat) (x : st) : st :=
  match fuel with
  | 0 => x
  | S fuel =>
      match up x, down x with
      | [], [] => x
      | _, _ => settle fuel (client_all (server_all x))
      end
  end.

(** getOrAddExternalSignal (config_protocol_streaming_consumer.cpp 172-214) for signal
    [s] with its domain [d] *)
Definition get_or_add (s : sig) (d : option sig) (x : st) : st :=
  let put n m x := St (dom x) (prod x) (ctr x) (cport x) (upd (mirrors x) n (Some m)) (sport x) (up x) (down x) in
  let x1 :=
    match d with
    | Some d => match mirrors x (num_of d x) with Some _ => x | None => put (num_of d x) (Mirror d None) x end
    | None => x
    end in
  match mirrors x1 (num_of s x1) with
  | Some _ => x1
  | None => put (num_of s x1) (Mirror s (option_map (fun d => num_of d x1) d)) x1
  end.
(** InputPort::connect on the server: what was connected is disconnected without an event *)
Definition server_connect (p : port) (n : num) (x : st) : st :=
  St (dom x) (prod x) (ctr x) (cport x) (mirrors x)
    (filter (fun q => negb (Nat.eqb (fst q) p)) (sport x) ++ [(p, n)]) (up x) (down x).

(** connectExternalSignalToServerInputPort (config_protocol_client.cpp 735-783) and the
    rest of connect; [ok] whether the device's port takes the signal *)
Definition finish (p : port) (s : sig) (ok : bool) (x : st) : st * res :=
  let x2 := register s (match dom x s with Some d => register d x | None => x end) in
  (* the server: first what was sent before, then the request *)
  let x3 := get_or_add s (dom x2 s) (server_all x2) in
  let x4 := if ok then server_connect p (num_of s x3) x3 else x3 in
  (* the client: first the notifications, then the reply *)
  let x5 := client_all x4 in
  if ok then
    match add_connection s p x5 with
    | (x6, Done) => (set_cport x6 (upd (cport x6) p (Some s)), Done)
    | (x6, r) => (x6, r)
    end
  else (x5, Threw).
(** connect of a port to a signal of the client (config_client_input_port_impl.h 83-130) *)
Definition connect (p : port) (s : sig) (ok : bool) (x : st) : st * res :=
  match cport x p with
  | Some s' =>
      if Nat.eqb s' s then (x, Done)
      else
        match disconnect_external s' p x with
        | (x1, Done) => finish p s ok x1
        | (x1, r) => (x1, r)
        end
  | None => finish p s ok x
  end.
(** the device's port is disconnected, with an event if it was connected *)
Definition server_disconnect (p : port) (x : st) : st :=
  St (dom x) (prod x) (ctr x) (cport x) (mirrors x)
    (filter (fun q => negb (Nat.eqb (fst q) p)) (sport x)) (up x)
    (down x ++ map fst (filter (fun q => Nat.eqb (fst q) p) (sport x))).
(** disconnect of a port by the client (config_client_input_port_impl.h 137-147) *)
Definition disconnect (p : port) (x : st) : st :=
  let x1 := client_all (server_disconnect p x) in
  set_cport x1 (upd (cport x1) p None).

Inductive op :=
| OConnect (p : port) (s : sig) (ok : bool)
| ODisconnect (p : port)
| OServerDisconnect (p : port)                  (* by the device or another client *)
| OSetDomain (s : sig) (d : option sig).        (* the client's signal gets another domain *)
(** one operation, and what follows from it *)
Definition step (o : op) (x : st) : st * res :=
  let '(x', r) :=
    match o with
    | OConnect p s ok => connect p s ok x
    | ODisconnect p => (disconnect p x, Done)
    | OServerDisconnect p => (server_disconnect p x, Done)
    | OSetDomain s d => (St (upd (dom x) s d) (prod x) (ctr x) (cport x) (mirrors x) (sport x) (up x) (down x), Done)
    end in
  (settle (4 + ctr x' + length (sport x')) x', r).
Definition run (d : sig -> option sig) (h : list op) : st := fold_left (fun x o => fst (step o x)) h (init d).

(** readerThreadFunc (170-200) and processClientToServerStreamingPacket
    (config_protocol_streaming_consumer.cpp 35-52): the ports of the device that get a
    packet which signal [s] sends, and the id under which they know the signal *)
Definition deliver (s : sig) (x : st) : list (port * sig) :=
  match prod x s with
  | Some e =>
      if (if rd then e_read e else e_held e) then
        match mirrors x (e_num e) with
        | Some m => map (fun q => (fst q, m_sig m)) (filter (fun q => Nat.eqb (snd q) (e_num e)) (sport x))
        | None => []
        end
      else []
  | None => []
  end.
End Session.
