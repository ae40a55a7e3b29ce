(** Vocabulary of C12. *)
From Verif Require Import Bytes CfgPkt_Model.
Local Open Scope Z_scope.

Definition is_u64 (z : Z) : Prop := 0 <= z < 2 ^ 64.
Definition is_u16 (z : Z) : Prop := 0 <= z < 2 ^ 16.

(** The content of a packet, as the user of the factories sees it. *)
Inductive content :=
| CInfoRequest (id : Z)
| CInfoReply (id current : Z) (supported : list Z)
| CUpgradeRequest (id version : Z)
| CUpgradeReply (id : Z) (success : bool)
| CRpc (id : Z) (json : list Z)
| CInvalidRequest (id : Z)
| CNotification (json : list Z)
| CNoReplyRpc (json : list Z)
| CRejected (id : Z) (json : list Z).

(** The factory call for a content. *)
Definition create (un : Z * Z) (c : content) : res (list Z) :=
  match c with
  | CInfoRequest id => createGetProtocolInfoRequest un id
  | CInfoReply id cur sup => createGetProtocolInfoReply un id cur sup
  | CUpgradeRequest id v => createUpgradeProtocolRequest un id v
  | CUpgradeReply id b => createUpgradeProtocolReply un id b
  | CRpc id j => createRpcRequestOrReply un id j
  | CInvalidRequest id => createInvalidRequestReply un id
  | CNotification j => createServerNotification un j
  | CNoReplyRpc j => createNoReplyRpcRequest un j
  | CRejected id j => createConnectionRejectedReply un id j
  end.

(** The packet type and id the reader of a packet must see. *)
Definition type_of (c : content) : Z :=
  match c with
  | CInfoRequest _ | CInfoReply _ _ _ => 0x80
  | CUpgradeRequest _ _ | CUpgradeReply _ _ => 0x81
  | CRpc _ _ => 0x82
  | CNotification _ => 0x83
  | CInvalidRequest _ => 0x84
  | CNoReplyRpc _ => 0x85
  | CRejected _ _ => 0x86
  end.

Definition id_of (c : content) : Z :=
  match c with
  | CInfoRequest id | CInfoReply id _ _ | CUpgradeRequest id _ | CUpgradeReply id _
  | CRpc id _ | CInvalidRequest id | CRejected id _ => id
  | CNotification _ | CNoReplyRpc _ => 18446744073709551615  (* 2^64 - 1 *)
  end.

(** "Parsing packet [m] with the parse function for [c] returns [c]." *)
Definition parses_to (m : list Z) (c : content) : Prop :=
  match c with
  | CInfoRequest _ => parseProtocolInfoRequest m = Ok tt
  | CInfoReply _ cur sup => parseProtocolInfoReply m [] = Ok (cur, sup)
  | CUpgradeRequest _ v => parseProtocolUpgradeRequest m = Ok v
  | CUpgradeReply _ b => parseProtocolUpgradeReply m = Ok b
  | CRpc _ j => parseRpcRequestOrReply m = Ok j
  | CInvalidRequest _ => parseInvalidRequestReply m = Ok tt
  | CNotification j => parseServerNotification m = Ok j
  | CNoReplyRpc j => parseNoReplyRpcRequest m = Ok j
  | CRejected _ j => parseConnectionRejectedReply m = Ok j
  end.

(** A set of versions: strictly increasing 16-bit numbers. *)
Fixpoint strictly_increasing (l : list Z) : Prop :=
  match l with
  | x :: ((y :: _) as r) => x < y /\ strictly_increasing r
  | _ => True
  end.

(** Arguments the C++ signatures admit: fixed-width ids and versions, a set
    of versions, a byte string; strings are not empty. *)
Definition admissible (c : content) : Prop :=
  match c with
  | CInfoRequest id | CInvalidRequest id | CUpgradeReply id _ => is_u64 id
  | CInfoReply id cur sup =>
      is_u64 id /\ is_u16 cur /\ Forall is_u16 sup /\ strictly_increasing sup
  | CUpgradeRequest id v => is_u64 id /\ is_u16 v
  | CRpc id j | CRejected id j => is_u64 id /\ Forall is_byte j /\ j <> []
  | CNotification j | CNoReplyRpc j => Forall is_byte j /\ j <> []
  end.

(** Number of payload bytes of a packet. *)
Definition payload_bytes (c : content) : Z :=
  match c with
  | CInfoRequest _ | CInvalidRequest _ => 0
  | CInfoReply _ _ sup => 4 + 2 * zlen sup
  | CUpgradeRequest _ _ => 2
  | CUpgradeReply _ _ => 1
  | CRpc _ j | CNotification j | CNoReplyRpc j | CRejected _ j => zlen j
  end.

(** A received packet: a block of bytes as long as its own header says
    (this is what the transport hands over, see C13). *)
Definition received (m : list Z) : Prop :=
  Forall is_byte m /\ 16 <= zlen m /\
  exists p, f_payloadSize m = Ok p /\ zlen m = 16 + p.

(** The number of versions a protocol-info reply announces: the two bytes at
    offset 18 of the packet. *)
Definition announced (m : list Z) : Z :=
  match rd m 18 2 with Ok b => unle b | _ => 0 end.
