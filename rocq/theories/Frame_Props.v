(** C13: native transport framing. *)
From Verif Require Import Bytes CfgPkt_Model CfgPkt_Spec Frame_Model Frame_Spec Frame_Proofs.
Local Open Scope Z_scope.

(** A header written for a type and an admissible size reads back as that pair. *)
Theorem c13_header_roundtrip : forall t n, 0 <= t < 16 -> 0 <= n <= 0x0FFFFFFF ->
  unpack (unle (write_header t n)) = (t, n).
Proof.
  intros t n Ht Hn. unfold write_header. rewrite unle_le by (apply pack_range; lia).
  rewrite unpack_pack by lia. rewrite !Z.mod_small by lia. reflexivity.
Qed.
Example c13_header_ex : write_header 9 0x123456 = [0x56; 0x34; 0x12; 0x90].
Proof. reflexivity. Qed.

(** Messages are refused exactly when they do not fit a frame (or the id
    string does not fit its 16-bit length).  Streaming packets of 4 GiB and
    more are excluded, see the refutation below. *)
Theorem c13_oversized_refused_partial : forall m, sendable m -> wire_size m < 2 ^ 32 ->
  ((exists b, encode m = Ok b) <->
   wire_size m <= 0x0FFFFFFF /\ (forall id sid ser, m = MAvailable id sid ser -> zlen sid <= 65535)).
Proof.
  intros m Hs Hw. pose proof (encode_iff m Hs Hw) as H.
  unfold MAX_PAYLOAD_SIZE, PAYLOAD_SIZE_MASK in H. exact H.
Qed.

(** Any sequence of accepted messages, sent over one connection, is decoded
    into the same sequence by either end: handled messages reach their
    handler with the values that were encoded, unhandled ones are skipped as
    a whole, and nothing else appears. *)
Theorem c13_stream_roundtrip_partial : forall server inst ms b,
  Forall sendable ms -> Forall (fun m => wire_size m < 2 ^ 32) ms -> encode_all ms = Ok b ->
  receive server inst b = map (expected server inst) ms.
Proof. exact receive_all. Qed.

Definition sample : list msg :=
  [MInitRequest; MSubscribe 7 [47; 97]; MAvailable 300 [97; 98] [123; 125]; MUnsubscribeAck 9;
   MPacket ([12; 0; 0; 0; 1; 0; 0; 0] ++ le 4 2) [5; 6]; MProps [123; 125]].
Example c13_stream_ex : Forall sendable sample /\ Forall (fun m => wire_size m < 2 ^ 32) sample /\
  exists b, encode_all sample = Ok b /\
    receive true (fun _ => true) b = map EMsg sample /\
    receive false (fun _ => true) b =
      [ESkip 11; EMsg (MSubscribe 7 [47; 97]); EMsg (MAvailable 300 [97; 98] [123; 125]);
       EMsg (MUnsubscribeAck 9); EMsg (MPacket ([12; 0; 0; 0; 1; 0; 0; 0] ++ le 4 2) [5; 6]); ESkip 10].
Proof.
  split; [|split].
  - unfold sample. repeat (apply Forall_cons); cbn [sendable]; auto; try lia.
    unfold packet_ok. cbn. repeat split; try lia. repeat constructor; lia.
  - unfold sample. repeat constructor; cbn; lia.
  - eexists. split; [reflexivity|]. split; reflexivity.
Qed.

(** Whatever bytes arrive: no access outside of the received payload, and
    every byte string handed to a handler is part of the received bytes.  A
    configuration packet handed over is as long as its header says, which is
    what C12 assumes. *)
Theorem c13_arbitrary_bytes_safe : forall server inst s, Forall is_byte s ->
  Forall (fun e => is_oob e = false /\ match e with EMsg m => msg_from s m | _ => True end)
         (receive server inst s).
Proof. intros server inst s Hs. apply receive_n_ok. exact Hs. Qed.
Example c13_arbitrary_ex :
  receive true (fun _ => true) ([2; 0; 0; 0x20] ++ [1; 2]) = [EStop 2] /\
  receive true (fun _ => true) ([0; 0; 0; 0xB0] ++ [4; 0; 0; 0x70; 1; 0; 0; 0] ++ [9]) =
    [EMsg MInitRequest; EMsg (MSubscribeAck 1)].
Proof. split; reflexivity. Qed.

(** A streaming packet of about 4 GiB is not refused: the size check wraps
    at 32 bits, the frame is announced empty, and the receiver stops. *)
Theorem c13_oversized_packet_refuted : forall p, zlen p = 2 ^ 32 - 48 ->
  exists h, sendable (MPacket h p) /\ wire_size (MPacket h p) > 0x0FFFFFFF /\
  exists b, encode (MPacket h p) = Ok b /\
    forall server inst, inst tPacket = true -> receive server inst b = [EStop tPacket].
Proof.
  intros p Hp. exists (big_header (zlen p)). split; [|split].
  - cbn [sendable]. apply big_packet_ok. rewrite Hp. split; [discriminate|reflexivity].
  - cbn [wire_size]. rewrite Hp. pose proof (zlen_nonneg (big_header (2 ^ 32 - 48))). lia.
  - destruct (wrapped_packet true (fun _ => true) p eq_refl Hp) as [b [Hb _]].
    exists b. split; [exact Hb|]. intros server inst Hi.
    destruct (wrapped_packet server inst p Hi Hp) as [b' [Hb' Hr]]. congruence.
Qed.
Example c13_oversized_ex : exists p : list Z, zlen p = 2 ^ 32 - 48.
Proof.
  destruct (Z_of_nat_complete (2 ^ 32 - 48)) as [n Hn]; [lia|].
  exists (repeat 0 n). unfold zlen. rewrite repeat_length. symmetry. exact Hn.
Qed.

Print Assumptions c13_header_roundtrip.
Print Assumptions c13_oversized_refused_partial.
Print Assumptions c13_stream_roundtrip_partial.
Print Assumptions c13_arbitrary_bytes_safe.
Print Assumptions c13_oversized_packet_refuted.
