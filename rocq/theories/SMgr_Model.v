(** Native streaming server: signals, clients and subscribers.
    shared/libraries/native_streaming_protocol/src/streaming_manager.cpp and
    native_streaming_server_handler.cpp.

    Signal ids and client ids are numbers.  Every operation below runs under
    the manager's lock, so a history of concurrent calls is a sequence of
    operations.  [subs] is an unordered_set in the code: the order in which
    one packet is passed to different clients is unspecified; insertion order
    is used here and no theorem depends on it.
    A packet server is its list of known signals and its queue of packets:
    how packets become buffers is modelled in the PStr files (a data packet of a
    signal without a descriptor throws), how buffers become bytes in the Cache
    files; both keep the order. *)
From Verif Require Import Base Bytes PStr_Model.
Local Open Scope Z_scope.

(** DATA_DESCRIPTOR_CHANGED event (None = parameter not assigned), another
    event, or a data packet *)
Inductive packet := PDesc (value domain : option Z) | PEvent (n : Z) | PData (n : Z).

(** streaming_manager.h: RegisteredServerSignal *)
Record reg := { num : Z; subs : list Z; lastV : option Z; lastD : option Z }.

(** PacketStreamingServer: dataDescriptors, queue, and its two settings *)
Record psrv := { knows : list Z; queue : list (Z * packet); cacheMax : Z; threshold : Z }.

(** streaming_manager.h, private members; the last two fields are the settings
    of the server handler (StreamingCacheablePayloadSizeMax and
    StreamingPacketReleaseThreshold) *)
Record mgr := { counter : Z;                   (* signalNumericIdCounter *)
                regs : list (Z * reg);         (* registeredSignals *)
                clients : list Z;              (* streamingClientsIds *)
                servers : list (Z * psrv);     (* packetStreamingServers *)
                cfgCache : Z;
                cfgThreshold : Z }.

Definition mgr_init (cache thr : Z) : mgr :=
  {| counter := 0; regs := []; clients := []; servers := []; cfgCache := cache; cfgThreshold := thr |}.

Definition set_regs (r : list (Z * reg)) (m : mgr) : mgr :=
  {| counter := counter m; regs := r; clients := clients m; servers := servers m;
     cfgCache := cfgCache m; cfgThreshold := cfgThreshold m |}.
Definition set_servers (s : list (Z * psrv)) (m : mgr) : mgr :=
  {| counter := counter m; regs := regs m; clients := clients m; servers := s;
     cfgCache := cfgCache m; cfgThreshold := cfgThreshold m |}.

(** What the environment sees: the subscribe/unsubscribe handlers, the
    messages to clients, and refused (throwing) calls. *)
Inductive out :=
| Started (s : Z) | StartFailed (s : Z) | Stopped (s : Z)
| Sent (c n : Z) (p : packet)
| Available (c n s : Z) | Unavailable (c n s : Z)
| Refused.

(** in-place update of a map entry *)
Definition update {A} (x : Z) (a : A) (l : list (Z * A)) : list (Z * A) :=
  map (fun e => if fst e =? x then (x, a) else e) l.

(** streaming_manager.cpp:222-239.  None = exception. *)
Definition registerSignal (s : Z) (m : mgr) : option (mgr * Z) :=
  match lookup s (regs m) with
  | Some _ => None
  | None =>
      let n := w32 (counter m + 1) in
      Some ({| counter := n;
               regs := regs m ++ [(s, {| num := n; subs := []; lastV := None; lastD := None |})];
               clients := clients m; servers := servers m;
               cfgCache := cfgCache m; cfgThreshold := cfgThreshold m |}, n)
  end.

(** streaming_manager.cpp:241-254 *)
Definition removeSignal (s : Z) (m : mgr) : mgr := set_regs (erase s (regs m)) m.

(** streaming_manager.cpp:276-321; packetStreamingClients has the same life
    cycle as packetStreamingServers and is not modelled *)
Definition registerClient (c : Z) (reconnected : bool) (releaseThreshold cacheable : Z) (m : mgr) : option mgr :=
  if mem c (clients m) then None
  else
    let kept := if reconnected then servers m else erase c (servers m) in
    Some {| counter := counter m; regs := regs m; clients := clients m ++ [c];
            servers := match lookup c kept with
                       | Some _ => kept
                       | None => kept ++ [(c, {| knows := []; queue := []; cacheMax := cacheable; threshold := releaseThreshold |})]
                       end;
            cfgCache := cfgCache m; cfgThreshold := cfgThreshold m |}.

(** streaming_manager.cpp:406-433: the new subscriber list and whether the last subscriber left *)
Definition removeSubscriber (c : Z) (r : reg) : reg * bool :=
  if mem c (subs r) then
    let l := del c (subs r) in
    ({| num := num r; subs := l; lastV := lastV r; lastD := lastD r |}, match l with [] => true | _ => false end)
  else (r, false).

(** streaming_manager.cpp:323-358: the manager and the signals whose last subscriber left *)
Definition unregisterClient (c : Z) (m : mgr) : mgr * list Z :=
  if mem c (clients m) then
    ({| counter := counter m;
        regs := map (fun e => (fst e, fst (removeSubscriber c (snd e)))) (regs m);
        clients := del c (clients m);
        servers := erase c (servers m);
        cfgCache := cfgCache m; cfgThreshold := cfgThreshold m |},
     map fst (filter (fun e => snd (removeSubscriber c (snd e))) (regs m)))
  else (m, []).

(** packet_streaming_server.cpp addDaqPacket (PStr_Model.addDataPacket,
    addEventPacket); None = exception *)
Definition addDaqPacket (n : Z) (p : packet) (v : psrv) : option psrv :=
  let put k := Some {| knows := k; queue := queue v ++ [(n, p)]; cacheMax := cacheMax v; threshold := threshold v |} in
  match p with
  | PDesc (Some _) _ => put (n :: knows v)
  | PDesc None _ | PEvent _ => put (knows v)
  | PData _ => if mem n (knows v) then put (knows v) else None
  end.

Definition emptied (v : psrv) : psrv :=
  {| knows := knows v; queue := []; cacheMax := cacheMax v; threshold := threshold v |}.
Definition messages (c : Z) (v : psrv) : list out := map (fun e => Sent c (fst e) (snd e)) (queue v).

(** streaming_manager.cpp:119-130: push one packet, then send everything queued.
    The bool is false when an exception was thrown. *)
Definition sendDaqPacket (c n : Z) (p : packet) (m : mgr) : mgr * list out * bool :=
  match lookup c (servers m) with
  | None => (m, [], false)
  | Some v => match addDaqPacket n p v with
              | None => (m, [], false)
              | Some v' => (set_servers (update c (emptied v') (servers m)) m, messages c v', true)
              end
  end.

(** streaming_manager.cpp:36-48 and 75-87 *)
Definition note_descriptors (p : packet) (r : reg) : reg :=
  match p with
  | PDesc v d => {| num := num r; subs := subs r;
                    lastV := match v with Some _ => v | None => lastV r end;
                    lastD := match d with Some _ => d | None => lastD r end |}
  | _ => r
  end.

(** streaming_manager.cpp:50-54: one packet to each subscriber in turn; the
    first exception ends the loop *)
Fixpoint send_all (cs : list Z) (n : Z) (p : packet) (m : mgr) : mgr * list out * bool :=
  match cs with
  | [] => (m, [], true)
  | c :: r => match sendDaqPacket c n p m with
              | (m1, o1, false) => (m1, o1, false)
              | (m1, o1, true) => let '(m2, o2, ok) := send_all r n p m1 in (m2, o1 ++ o2, ok)
              end
  end.

(** streaming_manager.cpp:22-60 *)
Definition sendPacketToSubscribers (s : Z) (p : packet) (m : mgr) : mgr * list out * bool :=
  match lookup s (regs m) with
  | None => (m, [], false)
  | Some r => let r' := note_descriptors p r in
              send_all (subs r') (num r') p (set_regs (update s r' (regs m)) m)
  end.

(** streaming_manager.cpp:89-98 *)
Fixpoint push_all (cs : list Z) (n : Z) (p : packet) (m : mgr) : mgr * bool :=
  match cs with
  | [] => (m, true)
  | c :: r => match lookup c (servers m) with
              | None => (m, false)
              | Some v => match addDaqPacket n p v with
                          | None => (m, false)
                          | Some v' => push_all r n p (set_servers (update c v' (servers m)) m)
                          end
              end
  end.

(** streaming_manager.cpp:62-107, the body for one packet *)
Definition processPacket (s : Z) (p : packet) (m : mgr) : mgr * bool :=
  match lookup s (regs m) with
  | None => (m, false)
  | Some r => let r' := note_descriptors p r in
              push_all (subs r') (num r') p (set_regs (update s r' (regs m)) m)
  end.
(** streaming_manager.cpp:62-107: the packets of all signals in turn (the
    pairs of packetIndices expanded); the first exception ends the loop *)
Fixpoint processPackets (l : list (Z * packet)) (m : mgr) : mgr * bool :=
  match l with
  | [] => (m, true)
  | (s, p) :: r => match processPacket s p m with
                   | (m1, false) => (m1, false)
                   | (m1, true) => processPackets r m1
                   end
  end.

(** streaming_manager.cpp:360-404.  Result: the manager, messages, and whether
    this was the first subscriber; None = exception before any change. *)
Definition registerSignalSubscriber (s c : Z) (m : mgr) : option (mgr * list out * bool) :=
  match lookup s (regs m) with
  | None => None
  | Some r =>
      if mem c (subs r) then Some (m, [], false)
      else
        let add m := set_regs (update s {| num := num r; subs := subs r ++ [c]; lastV := lastV r; lastD := lastD r |} (regs m)) m in
        match subs r with
        | [] => Some (add m, [], true)
        | _ => match lastV r with
               | None => Some (add m, [], false)
               | Some v => match sendDaqPacket c (num r) (PDesc (Some v) (lastD r)) m with
                           | (m1, o, true) => Some (add m1, o, false)
                           | (_, _, false) => None
                           end
               end
        end
  end.

(** streaming_manager.cpp:406-433 *)
Definition removeSignalSubscriber (s c : Z) (m : mgr) : option (mgr * bool) :=
  match lookup s (regs m) with
  | None => None
  | Some r => let (r', last) := removeSubscriber c r in Some (set_regs (update s r' (regs m)) m, last)
  end.

(** Operations of the server handler.
    [AddSignal]: a public signal appears; [RemoveSignals l]: the removed
    component contains exactly the signals [l]; [Init c b]: client [c]
    requests streaming ([b] = reconnected); [Subscribe c s ok]: [ok] tells
    whether the subscribe handler (which creates the reader) succeeds;
    [Send] one packet; [Process] a batch; [Drain] = sendAvailableStreamingPackets. *)
Inductive op :=
| AddSignal (s : Z) | RemoveSignals (l : list Z)
| Init (c : Z) (reconnected : bool)
| Subscribe (c s : Z) (ok : bool) | Unsubscribe (c s : Z)
| Disconnect (c : Z)
| Send (s : Z) (p : packet) | Process (l : list (Z * packet)) | Drain.

(** native_streaming_server_handler.cpp:117-142, one signal *)
Definition remove_one (mo : mgr * list out) (s : Z) : mgr * list out :=
  let (m, o) := mo in
  match lookup s (regs m) with
  | None => (m, o)
  | Some r =>
      (removeSignal s m,
       o ++ match subs r with [] => [] | _ => [Stopped s] end
         ++ map (fun c => Unavailable c (num r) s) (clients m))
  end.

(** native_streaming_server_handler.cpp:263-275; the session of each client
    with a packet server *)
Definition drain (m : mgr) : mgr * list out :=
  (set_servers (map (fun e => if mem (fst e) (clients m) then (fst e, emptied (snd e)) else e) (servers m)) m,
   flat_map (fun e => if mem (fst e) (clients m) then messages (fst e) (snd e) else []) (servers m)).

(** native_streaming_server_handler.cpp: addSignal 104-115,
    removeComponentSignals 117-142, handleStreamingInit 740-770,
    handleSignalSubscription 144-198, releaseSessionHandlerInternal 407-449,
    sendPacket 240-253, processStreamingPackets 255-260,
    sendAvailableStreamingPackets 262-275.
    In handleStreamingInit the two settings are passed to registerClient in the
    order (cacheablePacketPayloadSizeMax, packetStreamingReleaseThreshold) while
    its parameters are (packetStreamingReleaseThreshold,
    cacheablePacketPayloadSizeMax), see lines 744-748. *)
Definition step (m : mgr) (o : op) : mgr * list out :=
  match o with
  | AddSignal s =>
      match registerSignal s m with
      | None => (m, [Refused])
      | Some (m', n) => (m', map (fun c => Available c n s) (clients m'))
      end
  | RemoveSignals l => fold_left remove_one (filter (fun s => mem s l) (map fst (regs m))) (m, [])
  | Init c b =>
      match registerClient c b (cfgCache m) (cfgThreshold m) m with
      | None => (m, [Refused])
      | Some m' => (m', map (fun e => Available c (num (snd e)) (fst e)) (regs m'))
      end
  | Subscribe c s ok =>
      match registerSignalSubscriber s c m with
      | None => (m, [Refused])
      | Some (m', o, first) => (m', o ++ (if first then [if ok then Started s else StartFailed s] else []))
      end
  | Unsubscribe c s =>
      match removeSignalSubscriber s c m with
      | None => (m, [Refused])
      | Some (m', last) => (m', if last then [Stopped s] else [])
      end
  | Disconnect c => let (m', l) := unregisterClient c m in (m', map Stopped l)
  | Send s p => let '(m', o, ok) := sendPacketToSubscribers s p m in (m', o ++ if ok then [] else [Refused])
  | Process l => let (m', ok) := processPackets l m in (m', if ok then [] else [Refused])
  | Drain => drain m
  end.

(** A history, newest operation first, and what the next operation says. *)
Fixpoint after (cache thr : Z) (h : list op) : mgr :=
  match h with [] => mgr_init cache thr | o :: h' => fst (step (after cache thr h') o) end.
Definition says (cache thr : Z) (h : list op) (o : op) : list out := snd (step (after cache thr h) o).
