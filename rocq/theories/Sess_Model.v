(** Model of the sessions of a native streaming server: who is connected under which
    id, who may configure, and what the device lists as its active clients.
    Sources (under /repo):
      shared/libraries/native_streaming_protocol/src/native_streaming_server_handler.cpp
      shared/libraries/native_streaming_protocol/src/server_session_handler.cpp
      shared/libraries/native_streaming_protocol/include/native_streaming_protocol/server_session_handler.h
      shared/libraries/native_streaming_protocol/src/streaming_manager.cpp
      modules/native_streaming_server_module/src/native_streaming_server_impl.cpp
      core/opendaq/opendaq/include/opendaq/client_type.h
      core/opendaq/device/include/opendaq/device_info_impl.h
    All the handlers below run on the one transport thread of the server
    (native_streaming_server_impl.cpp:198-209), so a history is a sequence of messages. *)
From Verif Require Import Base.
Local Open Scope Z_scope.

(** ClientType (client_type.h:27-32). *)
Inductive ctype := Control | Exclusive | ViewOnly.

Definition ctype_eqb (a b : ctype) : bool :=
  match a, b with
  | Control, Control | Exclusive, Exclusive | ViewOnly, ViewOnly => true
  | _, _ => false
  end.

(** IntToClientType (client_type.h:63-76): the three values, anything else throws. *)
Definition intToType (z : Z) : option ctype :=
  if z =? 0 then Some Control
  else if z =? 1 then Some Exclusive
  else if z =? 2 then Some ViewOnly
  else None.

(** Client ids are strings.  [Assigned n] is the string "AssignedByServer/<n>"
    (native_streaming_server_handler.cpp:920-924), [Own k] the k-th of all other strings.
    A client may choose either kind. *)
Inductive cid := Assigned (n : nat) | Own (k : nat).

Definition cid_eqb (a b : cid) : bool :=
  match a, b with
  | Assigned n, Assigned m => Nat.eqb n m
  | Own n, Own m => Nat.eqb n m
  | _, _ => false
  end.

(** ServerSessionHandler (server_session_handler.h:70-77): the session it serves (sessions
    are numbered in the order they were accepted), the user the session was authenticated
    as, clientId, reconnected, clientType, exclusiveControlDropOthers, useConfigProtocol.
    [h_rights] is the client type the configuration server of this session was created with
    (native_streaming_server_handler.cpp:592-595); [h_stream] is the client id captured by the
    packet handler of the session's streaming (:750-756). *)
Record handler := { h_sess : nat; h_user : nat; h_id : cid; h_again : bool; h_type : ctype;
                    h_drop : bool; h_used : bool; h_rights : option ctype; h_stream : option cid }.

(** One property of the device's "activeClientConnections"
    (native_streaming_server_impl.cpp:365-370): its number, the address (here: the session)
    and what the client does, and the "Reconnected" mark. *)
Inductive what := Configures (t : ctype) | Streams.
Record entry := { e_num : nat; e_sess : nat; e_what : what; e_again : bool }.

(** NativeStreamingServerHandler (native_streaming_server_handler.h:127-142): sessionHandlers,
    connectedClientIndex, maxAllowedConfigConnections and the three counters; the ids
    registered as streaming clients (streaming_manager.cpp:282-316; the map of packet servers
    has the same keys, :300-310 and :343-345); registeredClientIds and disconnectedClientIds
    (native_streaming_server_impl.h:106-107); totalCountOfConnectedClientsEverRegistered and
    the listed clients (device_info_impl.h:963-980). *)
Record server := { sv_map : list (cid * handler); sv_next : nat; sv_max : Z;
                   sv_cfg : Z; sv_ctl : Z; sv_exc : Z; sv_streams : list cid;
                   sv_reg : list (cid * nat); sv_gone : list (cid * nat);
                   sv_total : nat; sv_shown : list entry }.

(** The constructor (native_streaming_server_handler.cpp:31-63). *)
Definition start (max : Z) : server :=
  {| sv_map := []; sv_next := 0; sv_max := max; sv_cfg := 0; sv_ctl := 0; sv_exc := 0;
     sv_streams := []; sv_reg := []; sv_gone := []; sv_total := 0; sv_shown := [] |}.

(** What a message leads to: handled, a refused configuration connection, an exception
    leaving the handler on the transport thread (native_streaming_server_impl.cpp:198-209
    catches none; the transport library between is not part of the repository), or nothing,
    because the session has no handler (any more). *)
Inductive outcome := Done | LimitReached | ControlRejected | Raised | Ignored.

Definition setMap (sv : server) (m : list (cid * handler)) : server :=
  {| sv_map := m; sv_next := sv_next sv; sv_max := sv_max sv; sv_cfg := sv_cfg sv;
     sv_ctl := sv_ctl sv; sv_exc := sv_exc sv; sv_streams := sv_streams sv;
     sv_reg := sv_reg sv; sv_gone := sv_gone sv; sv_total := sv_total sv; sv_shown := sv_shown sv |}.

Definition setCounts (sv : server) (cfg ctl exc : Z) : server :=
  {| sv_map := sv_map sv; sv_next := sv_next sv; sv_max := sv_max sv; sv_cfg := cfg;
     sv_ctl := ctl; sv_exc := exc; sv_streams := sv_streams sv;
     sv_reg := sv_reg sv; sv_gone := sv_gone sv; sv_total := sv_total sv; sv_shown := sv_shown sv |}.

Definition setStreams (sv : server) (l : list cid) : server :=
  {| sv_map := sv_map sv; sv_next := sv_next sv; sv_max := sv_max sv; sv_cfg := sv_cfg sv;
     sv_ctl := sv_ctl sv; sv_exc := sv_exc sv; sv_streams := l;
     sv_reg := sv_reg sv; sv_gone := sv_gone sv; sv_total := sv_total sv; sv_shown := sv_shown sv |}.

Definition setList (sv : server) (reg gone : list (cid * nat)) (total : nat) (l : list entry) : server :=
  {| sv_map := sv_map sv; sv_next := sv_next sv; sv_max := sv_max sv; sv_cfg := sv_cfg sv;
     sv_ctl := sv_ctl sv; sv_exc := sv_exc sv; sv_streams := sv_streams sv;
     sv_reg := reg; sv_gone := gone; sv_total := total; sv_shown := l |}.

(** find / erase of the std::unordered_maps keyed by client id, and insert, which keeps an
    element that is already there. *)
Fixpoint lookup {A} (i : cid) (m : list (cid * A)) : option A :=
  match m with
  | [] => None
  | (k, v) :: t => if cid_eqb i k then Some v else lookup i t
  end.

Definition erase {A} (i : cid) (m : list (cid * A)) : list (cid * A) :=
  filter (fun e => negb (cid_eqb i (fst e))) m.

Definition insert {A} (i : cid) (v : A) (m : list (cid * A)) : list (cid * A) :=
  match lookup i m with
  | Some _ => m
  | None => m ++ [(i, v)]
  end.

Definition hasId (i : cid) (l : list cid) : bool := existsb (cid_eqb i) l.

(** The std::find_if over the sessions (native_streaming_server_handler.cpp:419-425). *)
Fixpoint findSession (s : nat) (m : list (cid * handler)) : option (cid * handler) :=
  match m with
  | [] => None
  | (k, h) :: t => if Nat.eqb (h_sess h) s then Some (k, h) else findSession s t
  end.

(** Setting a field of the handler of a session (the map holds the handlers by pointer). *)
Definition onSession (s : nat) (f : handler -> handler) (m : list (cid * handler)) : list (cid * handler) :=
  map (fun e => if Nat.eqb (h_sess (snd e)) s then (fst e, f (snd e)) else e) m.

(** clientConnectedHandler (native_streaming_server_impl.cpp:352-373) and addConnectedClient
    (device_info_impl.h:963-980).  A client that was there before under this id gets its
    number again.  The root device is taken to be there.  The number is never listed already
    (theorem c60_numbers), so that addProperty cannot refuse it. *)
Definition clientConnected (sv : server) (i : cid) (s : nat) (w : what) : server :=
  let again := lookup i (sv_gone sv) in
  let gone := erase i (sv_gone sv) in
  let asked := match again with Some n => n | None => 0%nat end in
  let fresh := Nat.eqb asked 0 || Nat.ltb (sv_total sv) asked in
  let total := if fresh then S (sv_total sv) else sv_total sv in
  let num := if fresh then total else asked in
  let e := {| e_num := num; e_sess := s; e_what := w;
              e_again := match again with Some _ => true | None => false end |} in
  setList sv (insert i num (sv_reg sv)) gone total (sv_shown sv ++ [e]).

(** clientDisconnectedHandler (native_streaming_server_impl.cpp:375-387) and
    removeConnectedClient (device_info_impl.h:982-992). *)
Definition clientDisconnected (sv : server) (i : cid) : server :=
  match lookup i (sv_reg sv) with
  | Some n =>
      setList sv (erase i (sv_reg sv)) (insert i n (sv_gone sv)) (sv_total sv)
        (filter (fun e => negb (Nat.eqb (e_num e) n)) (sv_shown sv))
  | None => sv
  end.

(** incrementConfigConnectionCount (native_streaming_server_handler.cpp:696-704). *)
Definition countIn (sv : server) (h : handler) : server :=
  setCounts sv (w64 (sv_cfg sv + 1))
    (if ctype_eqb (h_type h) Control then w64 (sv_ctl sv + 1) else sv_ctl sv)
    (if ctype_eqb (h_type h) Exclusive then w64 (sv_exc sv + 1) else sv_exc sv).

(** decrementConfigConnectionCount (native_streaming_server_handler.cpp:706-717). *)
Definition countOut (sv : server) (h : handler) : server :=
  if h_used h then
    setCounts sv (w64 (sv_cfg sv - 1))
      (if ctype_eqb (h_type h) Control then w64 (sv_ctl sv - 1) else sv_ctl sv)
      (if ctype_eqb (h_type h) Exclusive then w64 (sv_exc sv - 1) else sv_exc sv)
  else sv.

(** releaseSessionHandlerInternal (native_streaming_server_handler.cpp:407-453) with
    StreamingManager::unregisterClient (streaming_manager.cpp:325-361).  The signals the client
    had subscribed or brought along are the subject of the streaming-manager model. *)
Definition release (sv : server) (s : nat) : server :=
  match findSession s (sv_map sv) with
  | Some (i, h) =>
      let sv1 := if hasId i (sv_streams sv) || h_used h then clientDisconnected sv i else sv in
      let sv2 := setStreams sv1 (filter (fun k => negb (cid_eqb i k)) (sv_streams sv1)) in
      let sv3 := countOut sv2 h in
      setMap sv3 (erase i (sv_map sv3))
  | None => sv
  end.

(** What the transport layer properties of a client say
    (native_streaming_server_handler.cpp:456-566): ClientId and Reconnected when both are
    there with the right type, the integer under ClientType, the flag
    ExclusiveControlDropOthers.  Heartbeat and host name are left out. *)
Record props := { p_identity : option (cid * bool); p_type : option Z; p_drop : option bool }.

(** parseClientTypeProp and the default (native_streaming_server_handler.cpp:544-566,
    :812-833). *)
Definition announced (p : props) : ctype :=
  match p_type p with
  | Some z => match intToType z with Some t => t | None => Control end
  | None => Control
  end.

Definition announcedDrop (p : props) : bool :=
  match p_drop p with Some b => b | None => false end.

Definition setIdentity (i : cid) (again : bool) (h : handler) : handler :=
  {| h_sess := h_sess h; h_user := h_user h; h_id := i; h_again := again; h_type := h_type h;
     h_drop := h_drop h; h_used := h_used h; h_rights := h_rights h; h_stream := h_stream h |}.

Definition setKind (t : ctype) (d : bool) (h : handler) : handler :=
  {| h_sess := h_sess h; h_user := h_user h; h_id := h_id h; h_again := h_again h; h_type := t;
     h_drop := d; h_used := h_used h; h_rights := h_rights h; h_stream := h_stream h |}.

Definition setUsed (h : handler) : handler :=
  {| h_sess := h_sess h; h_user := h_user h; h_id := h_id h; h_again := h_again h; h_type := h_type h;
     h_drop := h_drop h; h_used := true; h_rights := Some (h_type h); h_stream := h_stream h |}.

Definition setStream (h : handler) : handler :=
  {| h_sess := h_sess h; h_user := h_user h; h_id := h_id h; h_again := h_again h; h_type := h_type h;
     h_drop := h_drop h; h_used := h_used h; h_rights := h_rights h; h_stream := Some (h_id h) |}.

(** The registration under the id the client asks for
    (native_streaming_server_handler.cpp:519-532): the element is taken out of the map under
    the id the session had and put back under the new one. *)
Definition rename (sv : server) (old new : cid) : option server :=
  match lookup old (sv_map sv) with
  | Some item => Some (setMap sv (insert new item (erase old (sv_map sv))))
  | None => None
  end.

(** The ClientId / Reconnected part of handleTransportLayerProps
    (native_streaming_server_handler.cpp:489-542).  [false]: an exception left it. *)
Definition takeId (sv : server) (h : handler) (i : cid) (again : bool) : server * bool :=
  match lookup i (sv_map sv) with
  | Some other =>
      if again then
        let sv1 := release sv (h_sess other) in
        match rename sv1 (h_id h) i with
        | Some sv2 => (setMap sv2 (onSession (h_sess h) (setIdentity i again) (sv_map sv2)), true)
        | None => (sv1, false)
        end
      else
        (setMap sv (onSession (h_sess h) (setIdentity (h_id h) again) (sv_map sv)), true)
  | None =>
      match rename sv (h_id h) i with
      | Some sv2 => (setMap sv2 (onSession (h_sess h) (setIdentity i again) (sv_map sv2)), true)
      | None => (sv, false)
      end
  end.

(** handleTransportLayerProps (native_streaming_server_handler.cpp:456-566).  Nothing keeps a
    client from sending this message again, whatever it did since. *)
Definition onProps (sv : server) (h : handler) (p : props) : server * outcome :=
  let '(sv1, ok) :=
    match p_identity p with
    | Some (i, again) => takeId sv h i again
    | None => (sv, true)
    end in
  if ok then
    (setMap sv1 (onSession (h_sess h) (setKind (announced p) (announcedDrop p)) (sv_map sv1)), Done)
  else (sv1, Raised).

(** isConnectionLimitReached (native_streaming_server_handler.cpp:679-682). *)
Definition limitReached (sv : server) : bool :=
  negb (sv_max sv =? 0) && (sv_cfg sv =? sv_max sv).

(** isControlConnectionRejected (:684-688), isExclusiveControlConnectionRejected (:690-694). *)
Definition controlRejected (sv : server) (h : handler) : bool :=
  ctype_eqb (h_type h) Control && (0 <? sv_exc sv).

Definition exclusiveRejected (sv : server) (h : handler) : bool :=
  ctype_eqb (h_type h) Exclusive && ((0 <? sv_exc sv) || (0 <? sv_ctl sv)).

(** releaseOtherControlConnectionsInternal (:784-810). *)
Definition isOtherControl (h o : handler) : bool :=
  negb (Nat.eqb (h_sess o) (h_sess h)) && h_used o
  && (ctype_eqb (h_type o) Control || ctype_eqb (h_type o) Exclusive).

Definition releaseOthers (sv : server) (h : handler) : server :=
  fold_left release (map h_sess (filter (isOtherControl h) (map snd (sv_map sv)))) sv.

(** The end of connectConfigProtocol (:654-665) and setUpConfigProtocolCallbacks (:581-604). *)
Definition accept (sv : server) (h : handler) : server :=
  let sv1 := setMap sv (onSession (h_sess h) setUsed (sv_map sv)) in
  let sv2 := countIn sv1 h in
  clientConnected sv2 (h_id h) (h_sess h) (Configures (h_type h)).

(** connectConfigProtocol (native_streaming_server_handler.cpp:606-666). *)
Definition connectConfig (sv : server) (h : handler) : server * outcome :=
  if limitReached sv then (sv, LimitReached)
  else if controlRejected sv h then (sv, ControlRejected)
  else if exclusiveRejected sv h then
    if h_drop h && negb (h_again h) then (accept (releaseOthers sv h) h, Done)
    else (sv, ControlRejected)
  else (accept sv h, Done).

(** A configuration packet: the first one connects (:939-949), the later ones go to the
    configuration server (:598-603). *)
Definition onConfig (sv : server) (h : handler) : server * outcome :=
  if h_used h then (sv, Done) else connectConfig sv h.

(** handleStreamingInit (:740-770) and StreamingManager::registerClient
    (streaming_manager.cpp:274-323), which throws for an id it has. *)
Definition onStream (sv : server) (h : handler) : server * outcome :=
  if hasId (h_id h) (sv_streams sv) then (sv, Raised)
  else
    let sv1 := setStreams sv (h_id h :: sv_streams sv) in
    let sv2 := setMap sv1 (onSession (h_sess h) setStream (sv_map sv1)) in
    (clientConnected sv2 (h_id h) (h_sess h) Streams, Done).

(** initSessionHandler (native_streaming_server_handler.cpp:864-956): insert keeps what is
    under the id already; the new handler then dies with the function, and with it every
    reaction to its session (the read tasks hold it weakly, base_session_handler.cpp:154-166). *)
Definition onOpen (sv : server) (user : nat) : server * outcome :=
  let s := sv_next sv in
  let h := {| h_sess := s; h_user := user; h_id := Assigned s; h_again := false; h_type := Control;
              h_drop := false; h_used := false; h_rights := None; h_stream := None |} in
  ({| sv_map := insert (Assigned s) h (sv_map sv); sv_next := S s; sv_max := sv_max sv;
      sv_cfg := sv_cfg sv; sv_ctl := sv_ctl sv; sv_exc := sv_exc sv; sv_streams := sv_streams sv;
      sv_reg := sv_reg sv; sv_gone := sv_gone sv; sv_total := sv_total sv; sv_shown := sv_shown sv |}, Done).

(** addSignal (:104-115): every streaming client is told, sessionHandlers.at() throws for an id
    without a session.  The sessions told are those under the ids of the streaming clients; the
    packets of a streaming client are sent to the same place (:157-164). *)
Definition told (sv : server) : list nat :=
  flat_map (fun i => match lookup i (sv_map sv) with Some h => [h_sess h] | None => [] end) (sv_streams sv).

Definition onSignal (sv : server) : server * outcome :=
  if forallb (fun i => match lookup i (sv_map sv) with Some _ => true | None => false end) (sv_streams sv)
  then (sv, Done) else (sv, Raised).

(** A session is accepted (authenticated as a user); a session sends its transport layer
    properties, a configuration packet, a streaming request; a session is closed or fails
    (onSessionError :772-782); the device gets a new signal. *)
Inductive msg :=
| Open (user : nat)
| Props (s : nat) (p : props)
| Config (s : nat)
| Stream (s : nat)
| Close (s : nat)
| NewSignal.

Definition withHandler (sv : server) (s : nat) (f : handler -> server * outcome) : server * outcome :=
  match findSession s (sv_map sv) with
  | Some (_, h) => f h
  | None => (sv, Ignored)
  end.

Definition step (sv : server) (m : msg) : server * outcome :=
  match m with
  | Open u => onOpen sv u
  | Props s p => withHandler sv s (fun h => onProps sv h p)
  | Config s => withHandler sv s (onConfig sv)
  | Stream s => withHandler sv s (onStream sv)
  | Close s => withHandler sv s (fun _ => (release sv s, Done))
  | NewSignal => onSignal sv
  end.

Definition run (sv : server) (ms : list msg) : server :=
  fold_left (fun v m => fst (step v m)) ms sv.
