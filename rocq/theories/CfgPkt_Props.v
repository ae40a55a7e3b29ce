(** C12: configuration protocol packets survive encoding and decoding. *)
From Verif Require Import Bytes CfgPkt_Model CfgPkt_Spec CfgPkt_Proofs.
Local Open Scope Z_scope.

(** Every packet a factory builds reads back as the same type, id and
    content, also after being copied byte by byte.  Excluded: a protocol-info
    reply listing all 65536 versions (see the refutation below). *)
Theorem c12_roundtrip_partial : forall un c m, admissible c ->
  (forall id cur sup, c = CInfoReply id cur sup -> zlen sup < 65536) ->
  create un c = Ok m ->
  f_type m = Ok (type_of c) /\ f_id m = Ok (id_of c) /\ parses_to m c /\
  copy_packet m = Ok m /\ zlen m = 16 + payload_bytes c.
Proof. exact roundtrip. Qed.

Example c12_roundtrip_ex :
  admissible (CRpc 7 [123; 125]) /\
  create (0, 0) (CRpc 7 [123; 125]) =
  Ok [16; 130; 0; 0; 2; 0; 0; 0; 7; 0; 0; 0; 0; 0; 0; 0; 123; 125].
Proof.
  split; [|reflexivity]. cbn [admissible]. split; [unfold is_u64; lia|].
  split; [repeat constructor; lia|discriminate].
Qed.

Example c12_info_reply_ex :
  admissible (CInfoReply 1 2 [0; 1; 2; 300]) /\
  exists m, create (9, 9) (CInfoReply 1 2 [0; 1; 2; 300]) = Ok m /\
            parseProtocolInfoReply m [] = Ok (2, [0; 1; 2; 300]).
Proof.
  split; [|eexists; split; reflexivity]. cbn [admissible strictly_increasing].
  unfold is_u64, is_u16. repeat split; try lia. repeat constructor; lia.
Qed.

(** Factories refuse exactly the packets of more than 0x0FFFFFFF bytes. *)
Theorem c12_oversized_refused : forall un c,
  (exists m, create un c = Ok m) <-> 16 + payload_bytes c <= 0x0FFFFFFF.
Proof.
  intros un c. pose proof (create_accepts un c) as H. unfold MAX_PACKET_BUFFER_SIZE in H. exact H.
Qed.

(** A full version set is announced as empty: the 16-bit count wraps. *)
Theorem c12_version_count_wraps_refuted : forall un id, is_u64 id ->
  exists sup, admissible (CInfoReply id 5 sup) /\ sup <> [] /\
  forall m, create un (CInfoReply id 5 sup) = Ok m ->
            parseProtocolInfoReply m [] = Ok (5, []).
Proof.
  intros un id Hid. destruct truncation_witness as [sup [Hl [Hu Hi]]].
  exists sup. split; [|split].
  - cbn [admissible]. unfold is_u16. repeat split; auto; try lia; apply Hid.
  - intros E. rewrite E in Hl. discriminate.
  - intros m Hm. eapply truncated_count; eauto. unfold is_u16; lia.
Qed.

(** Whatever bytes arrive, the parse functions never read past the packet -
    with one exception, characterised exactly below. *)
Theorem c12_parsers_in_bounds_partial : forall m, received m ->
  parseProtocolInfoRequest m <> Oob /\ parseProtocolUpgradeRequest m <> Oob /\
  parseProtocolUpgradeReply m <> Oob /\ parseRpcRequestOrReply m <> Oob /\
  parseInvalidRequestReply m <> Oob /\ parseServerNotification m <> Oob /\
  parseNoReplyRpcRequest m <> Oob /\ parseConnectionRejectedReply m <> Oob /\
  (parseProtocolInfoReply m [] = Oob <->
   f_type m = Ok 128 /\ 20 <= zlen m < 20 + 2 * announced m).
Proof.
  intros m Hr.
  split; [apply safe_empty; exact Hr|].
  split; [apply safe_upreq; exact Hr|].
  split; [apply safe_uprep; exact Hr|].
  split; [apply safe_string; exact Hr|].
  split; [apply safe_empty; exact Hr|].
  split; [apply safe_string; exact Hr|].
  split; [apply safe_string; exact Hr|].
  split; [apply safe_string; exact Hr|].
  apply info_reply_oob_iff; exact Hr.
Qed.

(** ... and that exception is reachable: a 20-byte reply announcing one
    version makes the client read two bytes behind the packet. *)
Theorem c12_info_reply_overread_refuted : exists m, received m /\
  parseProtocolInfoReply m [] = Oob.
Proof.
  exists [16; 128; 0; 0; 4; 0; 0; 0; 1; 0; 0; 0; 0; 0; 0; 0; 5; 0; 1; 0].
  split; [|reflexivity]. split; [repeat constructor; lia|]. split; [compute; discriminate|].
  exists 4. split; reflexivity.
Qed.

(** The versions read from a reply - in any order, with repetitions - are
    added to the caller's set, and nothing else is. *)
Theorem c12_info_reply_versions : forall m s0 cur s, parseProtocolInfoReply m s0 = Ok (cur, s) ->
  (strictly_increasing s0 -> strictly_increasing s) /\
  forall v, In v s <-> In v s0 \/ exists i b, 0 <= i < announced m /\ rd m (20 + 2 * i) 2 = Ok b /\ unle b = v.
Proof. exact info_reply_versions. Qed.
Example c12_versions_ex :
  parseProtocolInfoReply [16; 128; 0; 0; 10; 0; 0; 0; 1; 0; 0; 0; 0; 0; 0; 0; 5; 0; 3; 0; 9; 0; 2; 0; 9; 0] [4]
  = Ok (5, [2; 4; 9]).
Proof. reflexivity. Qed.

(** A packet of another type is never accepted as [c]. *)
Theorem c12_wrong_type_refused : forall m c, received m ->
  f_type m <> Ok (type_of c) -> ~ parses_to m c.
Proof. exact parse_wrong_type. Qed.

Print Assumptions c12_roundtrip_partial.
Print Assumptions c12_oversized_refused.
Print Assumptions c12_version_count_wraps_refuted.
Print Assumptions c12_parsers_in_bounds_partial.
Print Assumptions c12_info_reply_overread_refuted.
Print Assumptions c12_wrong_type_refused.
Print Assumptions c12_info_reply_versions.
