From Verif Require Import Bytes CfgPkt_Model CfgPkt_Spec.
Local Open Scope Z_scope.

Definition mem un type id (payload : list Z) :=
  [hdrSize; type; fst un; snd un] ++ le 4 (w32 (zlen payload)) ++ le 8 id ++ payload.

Lemma mk_ok : forall un t id p m, mk un t id p = Ok m ->
  m = mem un t id p /\ 16 + zlen p <= MAX_PACKET_BUFFER_SIZE.
Proof.
  unfold mk, hdrSize. intros un t id p m H.
  destruct (16 + zlen p >? MAX_PACKET_BUFFER_SIZE) eqn:E; inversion H; subst.
  split; [reflexivity|lia].
Qed.

Lemma mk_accepts : forall un t id p,
  (exists m, mk un t id p = Ok m) <-> 16 + zlen p <= MAX_PACKET_BUFFER_SIZE.
Proof.
  intros un t id p. unfold mk, hdrSize. destruct (16 + zlen p >? MAX_PACKET_BUFFER_SIZE) eqn:E.
  - split; [intros [m Hm]; discriminate|lia].
  - split; [lia|eauto].
Qed.

(** Tell the conversion test to unfold [mem] last. *)
Opaque mem.

Lemma w32_small : forall z, 0 <= z < 4294967296 -> w32 z = z.
Proof. intros. unfold w32. apply Z.mod_small; lia. Qed.

Lemma unle1 : forall x, unle [x] = x.
Proof. intros; cbn [unle]; lia. Qed.

Transparent mem.
Section MEM.
Variables (un : Z * Z) (t id : Z) (p : list Z).
Hypothesis Hp : 16 + zlen p <= MAX_PACKET_BUFFER_SIZE.
Hypothesis Hid : is_u64 id.

Local Notation m := (mem un t id p).

Lemma m_headerSize : f_headerSize m = Ok 16.
Proof.
  unfold f_headerSize, mem.
  change ([hdrSize; t; fst un; snd un] ++ ?r) with ([] ++ [hdrSize] ++ ([t; fst un; snd un] ++ r)).
  rewrite (rd_mid [] [hdrSize]) by reflexivity. reflexivity.
Qed.

Lemma m_type : f_type m = Ok t.
Proof.
  unfold f_type, mem.
  change ([hdrSize; t; fst un; snd un] ++ ?r) with ([hdrSize] ++ [t] ++ ([fst un; snd un] ++ r)).
  rewrite (rd_mid [hdrSize] [t]) by reflexivity. cbn [bind]. rewrite unle1. reflexivity.
Qed.

Lemma m_payloadSize : f_payloadSize m = Ok (zlen p).
Proof.
  unfold f_payloadSize, mem. rewrite rd_mid by (rewrite ?le_zlen; reflexivity).
  cbn [bind]. unfold MAX_PACKET_BUFFER_SIZE in Hp. pose proof (zlen_nonneg p).
  rewrite w32_small by lia.
  rewrite unle_le; [reflexivity|]. change (256 ^ Z.of_nat 4) with 4294967296. lia.
Qed.

Lemma m_id : f_id m = Ok id.
Proof.
  unfold f_id, mem. rewrite (app_assoc _ (le 4 _)).
  rewrite rd_mid by (rewrite ?zlen_app, ?le_zlen; reflexivity).
  cbn [bind]. rewrite unle_le; [reflexivity|]. exact Hid.
Qed.

Lemma m_len : zlen m = 16 + zlen p.
Proof.
  unfold mem. rewrite !zlen_app, !le_zlen, !zlen_cons, zlen_nil. lia.
Qed.

Lemma m_split : exists h, zlen h = 16 /\ m = h ++ p.
Proof.
  exists ([hdrSize; t; fst un; snd un] ++ le 4 (w32 (zlen p)) ++ le 8 id).
  split; [rewrite !zlen_app, !le_zlen, !zlen_cons, zlen_nil; reflexivity|].
  unfold mem. rewrite <- !app_assoc. reflexivity.
Qed.

Lemma m_payload : forall a b c, p = a ++ b ++ c ->
  rd m (16 + zlen a) (zlen b) = Ok b.
Proof.
  intros a b c E. destruct m_split as [h [Hh ->]]. rewrite E.
  rewrite app_assoc. apply rd_mid; [rewrite zlen_app; lia|reflexivity].
Qed.

Lemma m_getLength : getLength m = Ok (zlen m).
Proof.
  unfold getLength. rewrite m_headerSize, m_payloadSize. cbn [bind].
  rewrite m_len. unfold MAX_PACKET_BUFFER_SIZE in Hp. pose proof (zlen_nonneg p).
  rewrite w32_small by lia. reflexivity.
Qed.

Lemma m_copy : copy_packet m = Ok m.
Proof.
  unfold copy_packet. rewrite m_getLength. cbn [bind].
  generalize (mem un t id p). clear. intros x. rewrite <- (app_nil_r x) at 1. apply rd_prefix.
Qed.

Lemma m_check : forall t', check_type t' m = if t =? t' then Ok tt else Err.
Proof. intros. unfold check_type. rewrite m_type. reflexivity. Qed.

Lemma m_string : p <> [] -> parse_string t m = Ok p.
Proof.
  intros Hne. unfold parse_string. rewrite m_check, Z.eqb_refl. cbn [bind].
  rewrite m_payloadSize. cbn [bind].
  destruct (zlen p =? 0) eqn:E.
  - exfalso. apply Hne. destruct p; [reflexivity|]. rewrite zlen_cons in E.
    pose proof (zlen_nonneg l). lia.
  - pose proof (m_payload [] p [] ltac:(now rewrite app_nil_r)) as H.
    rewrite zlen_nil in H. exact H.
Qed.

Lemma m_empty : p = [] -> parse_empty t m = Ok tt.
Proof.
  intros E. unfold parse_empty. rewrite m_check, Z.eqb_refl. cbn [bind].
  rewrite m_payloadSize. cbn [bind]. rewrite E. reflexivity.
Qed.
End MEM.
Opaque mem.

Lemma inc_cons : forall x l, strictly_increasing (x :: l) ->
  (forall y, In y l -> x < y) /\ strictly_increasing l.
Proof.
  intros x l; revert x. induction l as [|y l IH]; intros x H.
  - split; [intros y []|exact I].
  - cbn [strictly_increasing] in H. destruct H as [H1 H2].
    split; [|exact H2]. intros z [<-|Hz]; [exact H1|].
    apply IH in H2. destruct H2 as [H2 _]. specialize (H2 z Hz). lia.
Qed.

Lemma insert_last : forall s x, (forall y, In y s -> y < x) -> set_insert x s = s ++ [x].
Proof.
  induction s as [|y s IH]; intros x H; cbn [set_insert app]; [reflexivity|].
  assert (y < x) by (apply H; left; reflexivity).
  replace (x <? y) with false by lia. replace (x =? y) with false by lia.
  rewrite IH; [reflexivity|]. intros z Hz. apply H. right; exact Hz.
Qed.

Lemma read_versions_ok : forall vs pre post s,
  Forall is_u16 vs -> strictly_increasing vs ->
  (forall x y, In x s -> In y vs -> x < y) ->
  read_versions (length vs) (pre ++ concat (map (le 2) vs) ++ post) (zlen pre) s = Ok (s ++ vs).
Proof.
  induction vs as [|v vs IH]; intros pre post s Hu Hi Hs.
  - cbn [length read_versions]. rewrite app_nil_r. reflexivity.
  - cbn [length read_versions map concat]. rewrite <- app_assoc.
    rewrite rd_mid by (rewrite ?le_zlen; reflexivity). cbn [bind].
    inversion Hu as [|a b Hv Hu' Eq]; subst.
    rewrite unle_le by exact Hv.
    rewrite insert_last by (intros y Hy; apply Hs; [exact Hy|left; reflexivity]).
    apply inc_cons in Hi. destruct Hi as [Hlt Hi].
    rewrite app_assoc.
    replace (zlen pre + 2) with (zlen (pre ++ le 2 v)) by (rewrite zlen_app, le_zlen; reflexivity).
    rewrite IH; auto.
    + rewrite <- app_assoc. reflexivity.
    + intros x y Hx Hy. apply in_app_iff in Hx. destruct Hx as [Hx|[<-|[]]].
      * apply Hs; [exact Hx|right; exact Hy].
      * apply Hlt; exact Hy.
Qed.

Lemma concat_le2_len : forall l, zlen (concat (map (le 2) l)) = 2 * zlen l.
Proof.
  induction l as [|v l IH]; [reflexivity|].
  cbn [map concat]. rewrite zlen_app, le_zlen, zlen_cons, IH. lia.
Qed.

Lemma unle_w16 : forall z, unle (le 2 (w16 z)) = w16 z.
Proof. intros. apply unle_le. apply Z.mod_pos_bound. lia. Qed.

Lemma info_reply_parse : forall un id cur sup, 
  let p := le 2 cur ++ le 2 (w16 (zlen sup)) ++ concat (map (le 2) sup) in
  16 + zlen p <= MAX_PACKET_BUFFER_SIZE -> is_u16 cur ->
  parseProtocolInfoReply (mem un tGetProtocolInfo id p) [] =
  do s <- read_versions (Z.to_nat (w16 (zlen sup))) (mem un tGetProtocolInfo id p) 20 []; Ok (cur, s).
Proof.
  intros un id cur sup p Hp Hc.
  unfold parseProtocolInfoReply. rewrite m_check, Z.eqb_refl. cbn [bind].
  rewrite m_payloadSize by exact Hp. cbn [bind].
  assert (Hl : zlen p = 4 + 2 * zlen sup).
  { unfold p. rewrite !zlen_app, !le_zlen, concat_le2_len. lia. }
  pose proof (zlen_nonneg sup).
  replace (zlen p <? 4) with false by lia.
  pose proof (m_payload un tGetProtocolInfo id p [] (le 2 cur) _ eq_refl) as H1.
  rewrite zlen_nil, le_zlen in H1. change (rd _ hdrSize 2) with (rd (mem un tGetProtocolInfo id p) (16 + 0) (Z.of_nat 2)).
  rewrite H1. cbn [bind].
  pose proof (m_payload un tGetProtocolInfo id p (le 2 cur) (le 2 (w16 (zlen sup))) _ eq_refl) as H2.
  rewrite !le_zlen in H2.
  change (rd _ (hdrSize + 2) 2) with (rd (mem un tGetProtocolInfo id p) (16 + Z.of_nat 2) (Z.of_nat 2)).
  rewrite H2. cbn [bind]. rewrite unle_w16. rewrite (unle_le 2 cur) by exact Hc. reflexivity.
Qed.

Lemma info_reply_roundtrip : forall un id current supported,
  16 + zlen (le 2 current ++ le 2 (w16 (zlen supported)) ++ concat (map (le 2) supported)) <= MAX_PACKET_BUFFER_SIZE ->
  is_u16 current -> Forall is_u16 supported -> strictly_increasing supported -> zlen supported < 65536 ->
  parseProtocolInfoReply (mem un tGetProtocolInfo id
     (le 2 current ++ le 2 (w16 (zlen supported)) ++ concat (map (le 2) supported))) [] = Ok (current, supported).
Proof.
  intros un id current supported Hp Hc Hu Hi Hn.
  rewrite info_reply_parse by assumption.
  assert (Hw : w16 (zlen supported) = zlen supported).
  { unfold w16. apply Z.mod_small. split; [apply zlen_nonneg|exact Hn]. }
  rewrite Hw. unfold zlen at 1. rewrite Nat2Z.id.
  match goal with |- context [read_versions _ (mem ?a ?b ?c ?p) _ _] => 
    destruct (m_split a b c p) as [h [Hh Em]] end.
  rewrite Em. rewrite (app_assoc (le 2 current)), (app_assoc h).
  match goal with |- context [read_versions _ (?pre ++ ?x) 20 _] =>
    replace 20 with (zlen pre) by (rewrite !zlen_app, !le_zlen; lia);
    rewrite <- (app_nil_r (pre ++ x)), <- app_assoc end.
  rewrite read_versions_ok; auto. intros x y [].
Qed.

Lemma upreq_roundtrip : forall un id version, 16 + zlen (le 2 version) <= MAX_PACKET_BUFFER_SIZE -> is_u16 version ->
  parseProtocolUpgradeRequest (mem un tUpgradeProtocol id (le 2 version)) = Ok version.
Proof.
  intros un id version Hp Hv.
  assert (H1 : rd (mem un tUpgradeProtocol id (le 2 version)) hdrSize 2 = Ok (le 2 version)).
  { rewrite <- (m_payload un tUpgradeProtocol id (le 2 version) [] (le 2 version) []) by (rewrite app_nil_r; reflexivity).
    f_equal. }
  unfold parseProtocolUpgradeRequest. rewrite m_check, Z.eqb_refl. cbn [bind].
  rewrite m_payloadSize by exact Hp. cbn [bind]. rewrite le_zlen.
  replace (Z.of_nat 2 =? 2) with true by lia.
  rewrite H1. cbn [bind]. rewrite unle_le by exact Hv. reflexivity.
Qed.

Lemma uprep_roundtrip : forall un id (success : bool), 
  16 + zlen (le 1 (if success then 1 else 0)) <= MAX_PACKET_BUFFER_SIZE ->
  parseProtocolUpgradeReply (mem un tUpgradeProtocol id (le 1 (if success then 1 else 0))) = Ok success.
Proof.
  intros un id success. remember (le 1 (if success then 1 else 0)) as p eqn:Ep. intros Hp.
  assert (H1 : rd (mem un tUpgradeProtocol id p) hdrSize 1 = Ok p).
  { rewrite <- (m_payload un tUpgradeProtocol id p [] p []) by (rewrite app_nil_r; reflexivity).
    f_equal. rewrite Ep. rewrite le_zlen. reflexivity. }
  unfold parseProtocolUpgradeReply. rewrite m_check, Z.eqb_refl. cbn [bind].
  rewrite m_payloadSize by exact Hp. cbn [bind]. 
  replace (zlen p =? 1) with true by (rewrite Ep, le_zlen; reflexivity).
  rewrite H1. cbn [bind]. rewrite Ep. destruct success; reflexivity.
Qed.

Lemma roundtrip : forall un c m, admissible c ->
  (forall id cur sup, c = CInfoReply id cur sup -> zlen sup < 65536) ->
  create un c = Ok m ->
  f_type m = Ok (type_of c) /\ f_id m = Ok (id_of c) /\ parses_to m c /\
  copy_packet m = Ok m /\ zlen m = 16 + payload_bytes c.
Proof.
  intros un c m Ha Hn Hc.
  assert (Hid : is_u64 (id_of c)).
  { destruct c; cbn [admissible id_of] in *; try tauto; unfold is_u64; lia. }
  destruct c; cbn [create admissible type_of id_of parses_to payload_bytes] in *;
    unfold createGetProtocolInfoRequest, createGetProtocolInfoReply, createUpgradeProtocolRequest,
    createUpgradeProtocolReply, createRpcRequestOrReply, createInvalidRequestReply,
    createServerNotification, createNoReplyRpcRequest, createConnectionRejectedReply in Hc;
    apply mk_ok in Hc; destruct Hc as [-> Hp];
    (split; [rewrite m_type; reflexivity|split; [rewrite m_id; [reflexivity|exact Hid]|split; [|split; [apply m_copy; exact Hp|rewrite m_len]]]]);
    try (rewrite ?zlen_app, ?le_zlen, ?concat_le2_len, ?(@zlen_nil Z); lia);
    try (apply m_empty; [exact Hp|reflexivity]);
    try (apply m_string; [exact Hp|tauto]).
  - destruct Ha as [_ [Hc [Hu Hi]]]. apply info_reply_roundtrip; auto. eapply Hn; reflexivity.
  - apply upreq_roundtrip; [exact Hp|exact (proj2 Ha)].
  - apply uprep_roundtrip. exact Hp.
Qed.

Lemma create_accepts : forall un c,
  (exists m, create un c = Ok m) <-> 16 + payload_bytes c <= MAX_PACKET_BUFFER_SIZE.
Proof.
  intros un c.
  destruct c; cbn [create payload_bytes]; 
   unfold createGetProtocolInfoRequest, createGetProtocolInfoReply, createUpgradeProtocolRequest,
    createUpgradeProtocolReply, createRpcRequestOrReply, createInvalidRequestReply,
    createServerNotification, createNoReplyRpcRequest, createConnectionRejectedReply; rewrite mk_accepts;
    rewrite ?zlen_app, ?le_zlen, ?concat_le2_len, ?zlen_nil; try lia.
Qed.

(** Received packets *)
Lemma rcv_rd : forall m off n, received m -> 0 <= off -> 0 <= n -> off + n <= zlen m ->
  exists l, rd m off n = Ok l /\ 0 <= unle l < 256 ^ n /\ zlen l = n.
Proof.
  intros m off n [Hb [H16 _]] H1 H2 H3.
  destruct (rd_ok m off n H1 H2 H3) as [l [E [El [p [q [Em _]]]]]].
  exists l. split; [exact E|]. split; [|exact El]. rewrite <- El. apply unle_range.
  rewrite Em in Hb. eapply Forall_mid; exact Hb.
Qed.

Lemma safe_prologue : forall {A} m t (f : Z -> res A), received m ->
  (forall p, 0 <= p -> zlen m = 16 + p -> f p <> Oob) ->
  (do _ <- check_type t m; do p <- f_payloadSize m; f p) <> Oob.
Proof.
  intros A m t f Hr Hf.
  destruct (rcv_rd m 1 1 Hr) as [l [E _]]; try lia; [destruct Hr; lia|].
  unfold check_type, f_type. rewrite E. cbn [bind]. destruct (unle l =? t); [|discriminate].
  cbn [bind]. destruct Hr as [Hb [H16 [p [Ep Hl]]]]. rewrite Ep. cbn [bind]. apply Hf; lia.
Qed.

Lemma safe_empty : forall t m, received m -> parse_empty t m <> Oob.
Proof.
  intros t m Hr. unfold parse_empty. apply safe_prologue; auto.
  intros p _ _. destruct (p =? 0); discriminate.
Qed.

Lemma safe_string : forall t m, received m -> parse_string t m <> Oob.
Proof.
  intros t m Hr. unfold parse_string. apply safe_prologue; auto.
  intros p Hp Hl. destruct (p =? 0); [discriminate|].
  destruct (rcv_rd m 16 p Hr) as [l [E _]]; try lia. change hdrSize with 16. rewrite E. discriminate.
Qed.

Lemma safe_upreq : forall m, received m -> parseProtocolUpgradeRequest m <> Oob.
Proof.
  intros m Hr. unfold parseProtocolUpgradeRequest. apply safe_prologue; auto.
  intros p Hp Hl. destruct (p =? 2) eqn:E2; [|discriminate].
  destruct (rcv_rd m 16 2 Hr) as [l [E _]]; try lia. change hdrSize with 16. rewrite E. discriminate.
Qed.

Lemma safe_uprep : forall m, received m -> parseProtocolUpgradeReply m <> Oob.
Proof.
  intros m Hr. unfold parseProtocolUpgradeReply. apply safe_prologue; auto.
  intros p Hp Hl. destruct (p =? 1) eqn:E2; [|discriminate].
  destruct (rcv_rd m 16 1 Hr) as [l [E _]]; try lia. change hdrSize with 16. rewrite E. discriminate.
Qed.

Lemma read_versions_safe : forall n m off s, 0 <= off -> off + 2 * Z.of_nat n <= zlen m ->
  exists l, read_versions n m off s = Ok l.
Proof.
  induction n; intros m off s H1 H2; cbn [read_versions]; [eauto|].
  destruct (rd_ok m off 2) as [l [E _]]; try lia. rewrite E. cbn [bind]. apply IHn; lia.
Qed.

(** The version-list reader stays inside exactly when the count found in the
    payload is covered by the payload size. *)
Lemma read_versions_oob : forall n m off s, 0 <= off -> off <= zlen m ->
  zlen m < off + 2 * Z.of_nat n -> read_versions n m off s = Oob.
Proof.
  induction n; intros m off s H1 H0 H2; [lia|]. cbn [read_versions].
  destruct (Z_le_gt_dec (off + 2) (zlen m)).
  - destruct (rd_ok m off 2) as [l' [E _]]; try lia. rewrite E. cbn [bind]. apply IHn; lia.
  - unfold rd. replace ((0 <=? off) && (0 <=? 2) && (off + 2 <=? zlen m)) with false by lia. reflexivity.
Qed.


Lemma info_reply_oob_iff : forall m, received m ->
  (parseProtocolInfoReply m [] = Oob <->
   f_type m = Ok 128 /\ 20 <= zlen m < 20 + 2 * announced m).
Proof.
  intros m Hr. unfold parseProtocolInfoReply, check_type, f_type.
  destruct (rcv_rd m 1 1 Hr) as [l [E _]]; try lia; [destruct Hr; lia|].
  rewrite E. cbn [bind]. change tGetProtocolInfo with 128.
  destruct (unle l =? 128) eqn:Et; cbn [bind].
  2:{ split; [discriminate|]. intros [H _]. inversion H; lia. }
  pose proof Hr as [Hb [H16 [p [Ep Hl]]]]. rewrite Ep. cbn [bind].
  destruct (p <? 4) eqn:E4.
  - split; [discriminate|]. intros [_ H]. lia.
  - destruct (rcv_rd m 16 2 Hr) as [lc [Ec _]]; try lia.
    destruct (rcv_rd m 18 2 Hr) as [ln [En [Hn _]]]; try lia.
    change hdrSize with 16. change (16 + 2) with 18. rewrite Ec, En. cbn [bind].
    unfold announced. rewrite En.
    replace (unle l) with 128 by lia.
    destruct (Z_le_gt_dec (20 + 2 * unle ln) (zlen m)).
    + destruct (read_versions_safe (Z.to_nat (unle ln)) m 20 []) as [s Es]; try lia.
      change (16 + 4) with 20. rewrite Es. cbn [bind]. split; [discriminate|lia].
    + change (16 + 4) with 20.
      rewrite read_versions_oob by lia. cbn [bind]. split; [|reflexivity].
      intros _. split; [reflexivity|lia].
Qed.

(** Wrong shapes are refused. *)
Lemma parse_wrong_type : forall m c, received m -> f_type m <> Ok (type_of c) -> ~ parses_to m c.
Proof.
  intros m c Hr Ht Hp.
  destruct (rcv_rd m 1 1 Hr) as [l [E _]]; try lia; [destruct Hr; lia|].
  unfold f_type in Ht. rewrite E in Ht. cbn [bind] in Ht.
  assert (Hc : check_type (type_of c) m = Err).
  { unfold check_type, f_type. rewrite E. cbn [bind]. destruct (unle l =? type_of c) eqn:X; [|reflexivity].
    exfalso. apply Ht. f_equal. lia. }
  destruct c; cbn [parses_to type_of] in *;
    unfold parseProtocolInfoRequest, parseProtocolInfoReply, parseProtocolUpgradeRequest,
     parseProtocolUpgradeReply, parseRpcRequestOrReply, parseInvalidRequestReply, parseServerNotification,
     parseNoReplyRpcRequest, parseConnectionRejectedReply, parse_string, parse_empty in Hp;
   change tGetProtocolInfo with 128 in *; change tUpgradeProtocol with 129 in *; change tRpc with 130 in *;
   change tServerNotification with 131 in *; change tInvalidRequest with 132 in *;
   change tNoReplyRpc with 133 in *; change tConnectionRejected with 134 in *;
   rewrite Hc in Hp; discriminate.
Qed.

Lemma truncated_count : forall un id cur sup m,
  is_u16 cur -> zlen sup = 65536 ->
  createGetProtocolInfoReply un id cur sup = Ok m -> parseProtocolInfoReply m [] = Ok (cur, []).
Proof.
  intros un id cur sup m Hc Hl Hm. unfold createGetProtocolInfoReply in Hm. apply mk_ok in Hm. destruct Hm as [-> Hp].
  rewrite info_reply_parse by assumption. rewrite Hl. reflexivity.
Qed.

(** The first [n] version numbers. *)
Definition versions (n : nat) : list Z := map Z.of_nat (seq 0 n).

Lemma versions_ok : forall n, Z.of_nat n <= 65536 ->
  zlen (versions n) = Z.of_nat n /\ Forall is_u16 (versions n) /\ strictly_increasing (versions n).
Proof.
  intros n Hn. unfold versions. split; [|split].
  - unfold zlen. rewrite map_length, seq_length. reflexivity.
  - apply Forall_forall. intros x Hx. apply in_map_iff in Hx. destruct Hx as [k [<- Hk]].
    apply in_seq in Hk. unfold is_u16. change (2 ^ 16) with 65536. lia.
  - clear Hn. generalize 0%nat. induction n as [|n IH]; intros a; cbn [seq map]; [exact I|].
    specialize (IH (S a)). destruct n; cbn [seq map] in *; [exact I|]. split; [lia|exact IH].
Qed.

Lemma truncation_witness : exists sup, zlen sup = 65536 /\ Forall is_u16 sup /\ strictly_increasing sup.
Proof.
  destruct (Z_of_nat_complete 65536) as [n Hn]; [lia|].
  exists (versions n). rewrite Hn. apply versions_ok. lia.
Qed.

(** The version list, in whatever order it arrives. *)
Lemma set_insert_In : forall s x v, In v (set_insert x s) <-> v = x \/ In v s.
Proof.
  induction s as [|y s IH]; intros x v; cbn [set_insert In]; [intuition congruence|].
  destruct (x <? y) eqn:E1; [cbn [In]; intuition congruence|].
  destruct (x =? y) eqn:E2.
  - assert (x = y) by lia. subst. cbn [In]. intuition congruence.
  - cbn [In]. rewrite IH. intuition congruence.
Qed.

Lemma set_insert_inc : forall s x, strictly_increasing s -> strictly_increasing (set_insert x s).
Proof.
  assert (H : forall s y, strictly_increasing (y :: s) <-> (forall v, In v s -> y < v) /\ strictly_increasing s).
  { intros s y. split; [apply inc_cons|]. intros [H1 H2]. destruct s as [|z s]; [exact I|].
    split; [apply H1; left; reflexivity|exact H2]. }
  induction s as [|y s IH]; intros x Hs; cbn [set_insert]; [exact I|].
  destruct (x <? y) eqn:E1; [split; [lia|exact Hs]|].
  destruct (x =? y) eqn:E2; [exact Hs|].
  apply H in Hs. destruct Hs as [Ha Hb]. apply H. split; [|apply IH; exact Hb].
  intros v Hv. apply set_insert_In in Hv. destruct Hv as [->|Hv]; [lia|apply Ha; exact Hv].
Qed.

Lemma read_versions_In : forall n m off s l, read_versions n m off s = Ok l ->
  (strictly_increasing s -> strictly_increasing l) /\
  forall v, In v l <-> In v s \/ exists i b, 0 <= i < Z.of_nat n /\ rd m (off + 2 * i) 2 = Ok b /\ unle b = v.
Proof.
  induction n as [|n IH]; intros m off s l H; cbn [read_versions] in H.
  - inversion H; subst. split; [auto|]. intros v. split; [auto|]. intros [Hv|[i [b [Hi _]]]]; [exact Hv|lia].
  - destruct (rd m off 2) as [b| |] eqn:E; cbn [bind] in H; try discriminate.
    apply IH in H. destruct H as [H1 H2]. split; [intros Hs; apply H1, set_insert_inc, Hs|].
    intros v. rewrite H2, set_insert_In. split.
    + intros [[->|Hv]|[i [b' [Hi [Hr Hv]]]]].
      * right. exists 0, b. split; [lia|]. replace (off + 2 * 0) with off by lia. auto.
      * left; exact Hv.
      * right. exists (i + 1), b'. split; [lia|]. replace (off + 2 * (i + 1)) with (off + 2 + 2 * i) by lia. auto.
    + intros [Hv|[i [b' [Hi [Hr Hv]]]]]; [left; right; exact Hv|].
      destruct (Z.eq_dec i 0) as [->|Hne].
      * left; left. replace (off + 2 * 0) with off in Hr by lia. congruence.
      * right. exists (i - 1), b'. split; [lia|]. replace (off + 2 + 2 * (i - 1)) with (off + 2 * i) by lia. auto.
Qed.

Lemma info_reply_versions : forall m s0 cur s, parseProtocolInfoReply m s0 = Ok (cur, s) ->
  (strictly_increasing s0 -> strictly_increasing s) /\
  forall v, In v s <-> In v s0 \/ exists i b, 0 <= i < announced m /\ rd m (20 + 2 * i) 2 = Ok b /\ unle b = v.
Proof.
  intros m s0 cur s H. unfold parseProtocolInfoReply in H.
  destruct (check_type tGetProtocolInfo m); cbn [bind] in H; try discriminate.
  destruct (f_payloadSize m); cbn [bind] in H; try discriminate.
  destruct (a0 <? 4); [discriminate|].
  destruct (rd m hdrSize 2); cbn [bind] in H; try discriminate.
  change (hdrSize + 2) with 18 in H. change (hdrSize + 4) with 20 in H.
  unfold announced. destruct (rd m 18 2) as [n| |] eqn:En; cbn [bind] in H; try discriminate.
  destruct (read_versions (Z.to_nat (unle n)) m 20 s0) as [l| |] eqn:El; cbn [bind] in H; inversion H; subst.
  apply read_versions_In in El. destruct El as [E1 E2]. split; [exact E1|].
  intros v. rewrite E2. split; (intros [Hv|[i [b [Hi Hr]]]]; [left; exact Hv|right; exists i, b; split; [lia|exact Hr]]).
Qed.
