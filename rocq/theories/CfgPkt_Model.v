(** Configuration-protocol packets: shared/libraries/config_protocol/src/
    config_protocol.cpp and include/config_protocol/config_protocol.h.

    A packet buffer is the memory block behind [PacketBuffer::buffer]: the
    packed 16-byte [PacketHeader]
      { u8 headerSize; u8 type; char unused[2]; u32 payloadSize; u64 id }
    followed by the payload.  The two unused bytes are never initialised by
    the code; they are an explicit argument [un] here and every theorem
    quantifies over them.
    Simplified: allocation failure; payload lengths are below 2^64 - 16 (the
    size computation of allocateHeaderAndPayload does not wrap); ownership
    (captured / deleter / detach) is not modelled. *)
From Verif Require Import Bytes.
Local Open Scope Z_scope.

(** config_protocol.h: enum PacketType *)
Definition tGetProtocolInfo : Z := 128.
Definition tUpgradeProtocol : Z := 129.
Definition tRpc : Z := 130.
Definition tServerNotification : Z := 131.
Definition tInvalidRequest : Z := 132.
Definition tNoReplyRpc : Z := 133.
Definition tConnectionRejected : Z := 134.

Definition hdrSize : Z := 16.
Definition MAX_PACKET_BUFFER_SIZE : Z := 268435455.  (* 0x0FFFFFFF *)
Definition max_u64 : Z := 18446744073709551615.

(** config_protocol.cpp:8-23 constructor and 103-116
    allocateHeaderAndPayload. *)
Definition mk (un : Z * Z) (type id : Z) (payload : list Z) : res (list Z) :=
  if hdrSize + zlen payload >? MAX_PACKET_BUFFER_SIZE then Err
  else Ok ([hdrSize; type; fst un; snd un] ++ le 4 (w32 (zlen payload)) ++ le 8 id ++ payload).

(** (Only tells the conversion test to unfold [mk] after everything else.) *)
Strategy 1000 [mk].

(** Header fields, read from the block (config_protocol.cpp:151-174). *)
Definition f_headerSize (m : list Z) : res Z := do b <- rd m 0 1; Ok (unle b).
Definition f_type (m : list Z) : res Z := do b <- rd m 1 1; Ok (unle b).
Definition f_payloadSize (m : list Z) : res Z := do b <- rd m 4 4; Ok (unle b).
Definition f_id (m : list Z) : res Z := do b <- rd m 8 8; Ok (unle b).

(** config_protocol.cpp:129-135 getLength (u32 arithmetic) *)
Definition getLength (m : list Z) : res Z :=
  do h <- f_headerSize m; do p <- f_payloadSize m; Ok (w32 (h + p)).

(** config_protocol.cpp:25-40: PacketBuffer(mem, copy = true) copies
    headerSize + payloadSize bytes out of [mem]. *)
Definition copy_packet (m : list Z) : res (list Z) :=
  do n <- getLength m; rd m 0 n.

(** std::set<uint16_t>: strictly increasing lists; insertion. *)
Fixpoint set_insert (x : Z) (s : list Z) : list Z :=
  match s with
  | [] => [x]
  | y :: r => if x <? y then x :: s else if x =? y then s else y :: set_insert x r
  end.

(** config_protocol.cpp:181-185 *)
Definition createGetProtocolInfoRequest un id := mk un tGetProtocolInfo id [].

(** config_protocol.cpp:187-202; the count is cast to uint16_t *)
Definition createGetProtocolInfoReply un id current (supported : list Z) :=
  mk un tGetProtocolInfo id
     (le 2 current ++ le 2 (w16 (zlen supported)) ++ concat (map (le 2) supported)).

(** config_protocol.cpp:228-232, 245-250 *)
Definition createUpgradeProtocolRequest un id version := mk un tUpgradeProtocol id (le 2 version).
Definition createUpgradeProtocolReply un id (success : bool) :=
  mk un tUpgradeProtocol id (le 1 (if success then 1 else 0)).
(** config_protocol.cpp:263-267, 269-273, 299-303, 319-323, 339-343 *)
Definition createRpcRequestOrReply un id json := mk un tRpc id json.
Definition createInvalidRequestReply un id := mk un tInvalidRequest id [].
Definition createServerNotification un json := mk un tServerNotification max_u64 json.
Definition createNoReplyRpcRequest un json := mk un tNoReplyRpc max_u64 json.
Definition createConnectionRejectedReply un id json := mk un tConnectionRejected id json.

(** The shared prologue of all parse functions: "Invalid packet type". *)
Definition check_type (t : Z) (m : list Z) : res unit :=
  do ty <- f_type m; if ty =? t then Ok tt else Err.

(** config_protocol.cpp:204-211 / 275-283 *)
Definition parse_empty (t : Z) (m : list Z) : res unit :=
  do _ <- check_type t m; do p <- f_payloadSize m; if p =? 0 then Ok tt else Err.
Definition parseProtocolInfoRequest := parse_empty tGetProtocolInfo.
Definition parseInvalidRequestReply := parse_empty tInvalidRequest.

(** config_protocol.cpp:213-226: the count found in the payload is trusted *)
Fixpoint read_versions (n : nat) (m : list Z) (off : Z) (s : list Z) : res (list Z) :=
  match n with
  | O => Ok s
  | S n' => do b <- rd m off 2; read_versions n' m (off + 2) (set_insert (unle b) s)
  end.
Definition parseProtocolInfoReply (m : list Z) (s0 : list Z) : res (Z * list Z) :=
  do _ <- check_type tGetProtocolInfo m;
  do p <- f_payloadSize m;
  if p <? 4 then Err else
  do c <- rd m hdrSize 2;
  do n <- rd m (hdrSize + 2) 2;
  do s <- read_versions (Z.to_nat (unle n)) m (hdrSize + 4) s0;
  Ok (unle c, s).

(** config_protocol.cpp:234-243 *)
Definition parseProtocolUpgradeRequest (m : list Z) : res Z :=
  do _ <- check_type tUpgradeProtocol m;
  do p <- f_payloadSize m;
  if p =? 2 then do b <- rd m hdrSize 2; Ok (unle b) else Err.

(** config_protocol.cpp:252-261 *)
Definition parseProtocolUpgradeReply (m : list Z) : res bool :=
  do _ <- check_type tUpgradeProtocol m;
  do p <- f_payloadSize m;
  if p =? 1 then do b <- rd m hdrSize 1; Ok (negb (unle b =? 0)) else Err.

(** config_protocol.cpp:285-297, 305-317, 325-337, 345-357 *)
Definition parse_string (t : Z) (m : list Z) : res (list Z) :=
  do _ <- check_type t m;
  do p <- f_payloadSize m;
  if p =? 0 then Err else rd m hdrSize p.
Definition parseRpcRequestOrReply := parse_string tRpc.
Definition parseServerNotification := parse_string tServerNotification.
Definition parseNoReplyRpcRequest := parse_string tNoReplyRpc.
Definition parseConnectionRejectedReply := parse_string tConnectionRejected.
