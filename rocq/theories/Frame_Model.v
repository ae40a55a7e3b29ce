(** Native streaming transport framing:
    shared/libraries/native_streaming_protocol/src/
      native_streaming_protocol_types.cpp, base_session_handler.cpp,
      server_session_handler.cpp, client_session_handler.cpp.

    A connection is a byte stream.  The session object (an external library)
    is modelled by its contract: bytes scheduled for writing arrive in order,
    and a read task of size [n] is called with exactly the next [n] bytes.
    Not modelled: timers, deadlines of write tasks, log output, and what the
    installed handlers do with a decoded message. *)
From Verif Require Import Bytes CfgPkt_Model.
Local Open Scope Z_scope.

(** native_streaming_protocol_types.h:77-90 *)
Definition tPacket : Z := 1.
Definition tAvailable : Z := 2.
Definition tUnavailable : Z := 3.
Definition tSubscribe : Z := 4.
Definition tUnsubscribe : Z := 5.
Definition tInitDone : Z := 6.
Definition tSubscribeAck : Z := 7.
Definition tUnsubscribeAck : Z := 8.
Definition tConfig : Z := 9.
Definition tProps : Z := 10.
Definition tInitRequest : Z := 11.

(** native_streaming_protocol_types.h:142-149 *)
Definition PAYLOAD_TYPE_MASK : Z := 4026531840.   (* 0xF0000000 *)
Definition PAYLOAD_SIZE_MASK : Z := 268435455.    (* 0x0FFFFFFF *)
Definition MAX_PAYLOAD_SIZE : Z := PAYLOAD_SIZE_MASK.

(** native_streaming_protocol_types.cpp:5-13 *)
Definition pack (type size : Z) : Z :=
  w32 (Z.lor (Z.land (Z.shiftl size 0) PAYLOAD_SIZE_MASK)
             (Z.land (w32 (Z.shiftl type 28)) PAYLOAD_TYPE_MASK)).

(** native_streaming_protocol_types.cpp:15-20 *)
Definition unpack (h : Z) : Z * Z :=
  (Z.shiftr (Z.land h PAYLOAD_TYPE_MASK) 28, Z.shiftr (Z.land h PAYLOAD_SIZE_MASK) 0).

(** What one end tells the other. *)
Inductive msg :=
| MPacket (header payload : list Z)      (* streaming packet buffer *)
| MAvailable (id : Z) (sid ser : list Z)
| MUnavailable (id : Z) (sid : list Z)
| MSubscribe (id : Z) (sid : list Z)
| MUnsubscribe (id : Z) (sid : list Z)
| MInitDone
| MSubscribeAck (id : Z)
| MUnsubscribeAck (id : Z)
| MConfig (packet : list Z)              (* the block of a config packet *)
| MProps (json : list Z)
| MInitRequest.

Definition type_of_msg (m : msg) : Z :=
  match m with
  | MPacket _ _ => tPacket | MAvailable _ _ _ => tAvailable | MUnavailable _ _ => tUnavailable
  | MSubscribe _ _ => tSubscribe | MUnsubscribe _ _ => tUnsubscribe | MInitDone => tInitDone
  | MSubscribeAck _ => tSubscribeAck | MUnsubscribeAck _ => tUnsubscribeAck
  | MConfig _ => tConfig | MProps _ => tProps | MInitRequest => tInitRequest
  end.

(** base_session_handler.cpp:220-226 and 236-248 *)
Definition write_header (type size : Z) : list Z := le 4 (pack type size).
Definition calculatePayloadSize (tasks : list (list Z)) : res Z :=
  let n := fold_right (fun t acc => zlen t + acc) 0 tasks in
  if n >? MAX_PAYLOAD_SIZE then Err else Ok n.
Definition send_tasks (type : Z) (tasks : list (list Z)) : res (list Z) :=
  do n <- calculatePayloadSize tasks; Ok (write_header type n ++ concat tasks).

(** base_session_handler.cpp:377-408: for streaming packets the sum of the
    (8-bit) header size and the (32-bit) payload size is a uint32_t. *)
Definition send_packet (h p : list Z) : res (list Z) :=
  do hs <- rd h 0 1;
  do ps <- rd h 8 4;
  let n := w32 (unle hs + unle ps) in
  if n >? MAX_PAYLOAD_SIZE then Err
  else do hb <- rd h 0 (unle hs);
       do pb <- rd p 0 (unle ps);
       Ok (write_header tPacket n ++ hb ++ (if unle ps >? 0 then pb else [])).

(** base_session_handler.cpp:178-213 *)
Definition send_config (m : list Z) : res (list Z) :=
  do c <- copy_packet m;
  do ps <- f_payloadSize c;
  do h <- rd c 0 16;
  if ps >? 0 then do p <- rd c 16 ps; send_tasks tConfig [h; p]
  else send_tasks tConfig [h].

(** base_session_handler.cpp:679-712 (availability), 714-734, 410-446,
    736-764 (acks), server_session_handler.cpp:39-46,
    client_session_handler.cpp:34-60 *)
Definition encode (m : msg) : res (list Z) :=
  match m with
  | MPacket h p => send_packet h p
  | MAvailable id sid ser =>
      if zlen sid >? 65535 then Err
      else send_tasks tAvailable [le 4 id; le 2 (w16 (zlen sid)); sid; ser]
  | MUnavailable id sid => send_tasks tUnavailable [le 4 id; sid]
  | MSubscribe id sid => send_tasks tSubscribe [le 4 id; sid]
  | MUnsubscribe id sid => send_tasks tUnsubscribe [le 4 id; sid]
  | MInitDone => Ok (write_header tInitDone 0)
  | MSubscribeAck id => send_tasks tSubscribeAck [le 4 id]
  | MUnsubscribeAck id => send_tasks tUnsubscribeAck [le 4 id]
  | MConfig m => send_config m
  | MProps j => send_tasks tProps [j]
  | MInitRequest => Ok (write_header tInitRequest 0)
  end.

(** What the receiver does with one frame. *)
Inductive event :=
| EMsg (m : msg)      (* handler called *)
| ESkip (type : Z)    (* payload discarded *)
| EError (type : Z)   (* error handler called, reading goes on *)
| EStop (type : Z)    (* error handler called, reading stops *)
| EOob (type : Z).    (* undefined behaviour: access outside of a block *)

(** base_session_handler.cpp:255-268 copyData / 270-283 getStringFromData:
    bounds check in size_t arithmetic, then the raw read. *)
Definition copyData (data : list Z) (n off : Z) : res (list Z) :=
  if w64 (n + off) >? zlen data then Err else rd data off n.

(** base_session_handler.cpp:448-492 *)
Definition readSignalAvailable (data : list Z) : res msg :=
  do i <- copyData data 4 0;
  do n <- copyData data 2 4;
  do s <- copyData data (unle n) 6;
  do r <- copyData data (w64 (zlen data - (6 + unle n))) (6 + unle n);
  Ok (MAvailable (unle i) s r).

(** base_session_handler.cpp:494-525, 577-621, 623-667 *)
Definition readIdString (k : Z -> list Z -> msg) (data : list Z) : res msg :=
  do i <- copyData data 4 0;
  do s <- copyData data (w64 (zlen data - 4)) 4;
  Ok (k (unle i) s).

(** base_session_handler.cpp:527-575 *)
Definition readId (k : Z -> msg) (data : list Z) : res msg :=
  do i <- copyData data 4 0; Ok (k (unle i)).

(** base_session_handler.cpp:87-147.  The destination block has the size
    given to realloc, computed in uint32_t. *)
Inductive cfg_read := CfgPacket (m : list Z) | CfgSkip.
Definition readConfigurationPacket (data : list Z) : res cfg_read :=
  do hs <- copyData data 1 0;
  if negb (unle hs =? 16) then Ok CfgSkip
  else
    do h <- copyData data 16 0;
    do ps <- f_payloadSize h;
    if ps >? 0 then
      let capacity := w32 (16 + ps) in
      do p <- copyData data ps 16;
      if 16 + ps <=? capacity then Ok (CfgPacket (h ++ p)) else Oob
    else Ok (CfgPacket h).

(** base_session_handler.cpp:285-349; GenericPacketHeader has 12 bytes *)
Inductive pkt_read := PktBuffer (h p : list Z) | PktSkip.
Definition readPacketBuffer (data : list Z) : res pkt_read :=
  do hs <- copyData data 1 0;
  if unle hs <? 12 then Ok PktSkip
  else
    do h <- copyData data (unle hs) 0;
    do ps <- rd h 8 4;
    if unle ps >? 0 then do p <- copyData data (unle ps) (unle hs); Ok (PktBuffer h p)
    else Ok (PktBuffer h []).

Definition on_error (stop : bool) (t : Z) (r : res msg) : event :=
  match r with Ok m => EMsg m | Err => if stop then EStop t else EError t | Oob => EOob t end.

(** One payload, dispatched by type.  server_session_handler.cpp:163-300 and
    client_session_handler.cpp:62-186; [server] selects the end, [inst t]
    says whether a handler is installed for payload type [t]. *)
Definition dispatch (server : bool) (inst : Z -> bool) (t : Z) (data : list Z) : event :=
  if negb (inst t) then ESkip t
  else if t =? tPacket then
    match readPacketBuffer data with
    | Ok (PktBuffer h p) => EMsg (MPacket h p) | Ok PktSkip => ESkip t
    | Err => EStop t | Oob => EOob t end
  else if t =? tAvailable then on_error true t (readSignalAvailable data)
  else if t =? tUnavailable then on_error true t (readIdString MUnavailable data)
  else if t =? tSubscribe then on_error true t (readIdString MSubscribe data)
  else if t =? tUnsubscribe then on_error true t (readIdString MUnsubscribe data)
  else if t =? tSubscribeAck then on_error true t (readId MSubscribeAck data)
  else if t =? tUnsubscribeAck then on_error true t (readId MUnsubscribeAck data)
  else if t =? tConfig then
    match readConfigurationPacket data with
    | Ok (CfgPacket m) => EMsg (MConfig m) | Ok CfgSkip => ESkip t
    | Err => EError t | Oob => EOob t end
  else if (t =? tProps) && server then on_error true t (do j <- copyData data (zlen data) 0; Ok (MProps j))
  else ESkip t.

(** Types whose header is the whole message (no payload read task). *)
Definition header_only (server : bool) (t : Z) : bool :=
  if server then t =? tInitRequest else t =? tInitDone.
Definition header_event (inst : Z -> bool) (server : bool) : event :=
  if server then if inst tInitRequest then EMsg MInitRequest else ESkip tInitRequest
  else EMsg MInitDone.

(** The receive loop over a stream that has fully arrived; it ends when the
    next read task cannot be satisfied.  [fuel] bounds the number of frames
    and is always the length of the stream, see [receive]. *)
Fixpoint receive_n (fuel : nat) (server : bool) (inst : Z -> bool) (s : list Z) : list event :=
  match fuel with
  | O => []
  | S fuel' =>
      if zlen s <? 4 then [] else
      let (t, n) := unpack (unle (firstn 4 s)) in
      let s1 := skipn 4 s in
      if header_only server t then header_event inst server :: receive_n fuel' server inst s1
      else if zlen s1 <? n then []
      else
        let e := dispatch server inst t (firstn (Z.to_nat n) s1) in
        match e with
        | EStop _ | EOob _ => [e]
        | _ => e :: receive_n fuel' server inst (skipn (Z.to_nat n) s1)
        end
  end.
Definition receive (server : bool) (inst : Z -> bool) (s : list Z) : list event :=
  receive_n (length s) server inst s.
