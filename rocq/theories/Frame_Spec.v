(** Vocabulary of C13. *)
From Verif Require Import Bytes CfgPkt_Model CfgPkt_Spec Frame_Model.
Local Open Scope Z_scope.

(** A streaming packet buffer as the packet streaming code builds it: the
    header's first byte is its length, and the four bytes at offset 8 are the
    length of the payload. *)
Definition packet_ok (h p : list Z) : Prop :=
  Forall is_byte h /\ 12 <= zlen h <= 255 /\
  firstn 1 h = [zlen h] /\ firstn 4 (skipn 8 h) = le 4 (zlen p) /\ zlen p < 2 ^ 32.

(** Messages the API can be asked to send. *)
Definition sendable (m : msg) : Prop :=
  match m with
  | MPacket h p => packet_ok h p
  | MAvailable id _ _ | MUnavailable id _ | MSubscribe id _ | MUnsubscribe id _
  | MSubscribeAck id | MUnsubscribeAck id => 0 <= id < 2 ^ 32
  | MInitDone | MInitRequest | MProps _ => True
  | MConfig k => exists un c, admissible c /\ create un c = Ok k
  end.

(** Size of the frame a message needs. *)
Definition wire_size (m : msg) : Z :=
  match m with
  | MPacket h p => zlen h + zlen p
  | MAvailable _ sid ser => 6 + zlen sid + zlen ser
  | MUnavailable _ sid | MSubscribe _ sid | MUnsubscribe _ sid => 4 + zlen sid
  | MInitDone | MInitRequest => 0
  | MSubscribeAck _ | MUnsubscribeAck _ => 4
  | MConfig k => zlen k
  | MProps j => zlen j
  end.

(** Who handles what: the server side takes everything but the "init done"
    message, the client side everything but the transport properties and the
    init request. *)
Definition handled (server : bool) (m : msg) : bool :=
  match m with
  | MInitDone => negb server
  | MInitRequest | MProps _ => server
  | _ => true
  end.

(** What must come out at the other end for one message. *)
Definition expected (server : bool) (inst : Z -> bool) (m : msg) : event :=
  match m with
  | MInitDone => if server then ESkip (type_of_msg m) else EMsg m
  | _ => if inst (type_of_msg m) && handled server m then EMsg m else ESkip (type_of_msg m)
  end.

(** All frames of a sequence of messages, or nothing if one is refused. *)
Fixpoint encode_all (ms : list msg) : res (list Z) :=
  match ms with
  | [] => Ok []
  | m :: r => do a <- encode m; do b <- encode_all r; Ok (a ++ b)
  end.

Definition is_oob (e : event) : bool := match e with EOob _ => true | _ => false end.

(** Every byte string a received message carries is a part of the stream. *)
Definition part_of (x s : list Z) : Prop := exists a b, s = a ++ x ++ b.
Definition msg_from (s : list Z) (m : msg) : Prop :=
  match m with
  | MPacket h p => part_of h s /\ (part_of p s \/ p = [])
  | MAvailable _ sid ser => part_of sid s /\ part_of ser s
  | MUnavailable _ sid | MSubscribe _ sid | MUnsubscribe _ sid => part_of sid s
  | MConfig k => part_of k s /\ received k
  | MProps j => part_of j s
  | _ => True
  end.
