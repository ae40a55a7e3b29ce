From Verif Require Import Bytes CfgPkt_Model CfgPkt_Spec CfgPkt_Proofs Frame_Model Frame_Spec.
Local Open Scope Z_scope.

(** ** Transport header *)

Lemma size_mask : forall x, Z.land x PAYLOAD_SIZE_MASK = x mod 268435456.
Proof. intros. change PAYLOAD_SIZE_MASK with (Z.ones 28). rewrite Z.land_ones by lia. reflexivity. Qed.

Lemma land15 : forall x, Z.land x 15 = x mod 16.
Proof. intros. change 15 with (Z.ones 4). rewrite Z.land_ones by lia. reflexivity. Qed.

Lemma disjoint_lor : forall a k, 0 <= a < 268435456 -> Z.lor a (k * 268435456) = a + k * 268435456.
Proof.
  intros a k Ha. change 268435456 with (2 ^ 28). rewrite <- Z.shiftl_mul_pow2 by lia.
  assert (H : Z.land a (Z.shiftl k 28) = 0).
  { apply Z.bits_inj'. intros n Hn. rewrite Z.land_spec, Z.bits_0.
    destruct (Z_lt_ge_dec n 28).
    - rewrite Z.shiftl_spec_low by lia. apply andb_false_r.
    - replace (Z.testbit a n) with false; [reflexivity|]. symmetry.
      destruct (Z.eq_dec a 0) as [->|Hne]; [apply Z.bits_0|].
      apply Z.bits_above_log2; [lia|].
      apply Z.lt_le_trans with 28; [|lia]. apply Z.log2_lt_pow2; [lia|]. 
      change (2 ^ 28) with 268435456. lia. }
  rewrite <- Z.lxor_lor by exact H. symmetry. apply Z.add_nocarry_lxor. exact H.
Qed.

Lemma pack_eq : forall t s, 0 <= s -> pack t s = s mod 268435456 + (t mod 16) * 268435456.
Proof.
  intros t s Hs. unfold pack. rewrite Z.shiftl_0_r, size_mask.
  assert (H : Z.land (w32 (Z.shiftl t 28)) PAYLOAD_TYPE_MASK = (t mod 16) * 268435456).
  { unfold w32. rewrite Z.shiftl_mul_pow2 by lia. change (2 ^ 28) with 268435456.
    change 4294967296 with (16 * 268435456). rewrite Zmult_mod_distr_r.
    change PAYLOAD_TYPE_MASK with (Z.shiftl 15 28).
    change 268435456 with (2 ^ 28). rewrite <- !Z.shiftl_mul_pow2 by lia.
    rewrite <- Z.shiftl_land, land15, Z.mod_mod by lia. reflexivity. }
  rewrite H. pose proof (Z.mod_pos_bound s 268435456). pose proof (Z.mod_pos_bound t 16).
  rewrite disjoint_lor by lia. apply w32_small. lia.
Qed.

Lemma unpack_eq : forall h, unpack h = ((h / 268435456) mod 16, h mod 268435456).
Proof.
  intros h. unfold unpack. rewrite Z.shiftr_0_r, size_mask, Z.shiftr_land.
  change (Z.shiftr PAYLOAD_TYPE_MASK 28) with 15. rewrite land15, Z.shiftr_div_pow2 by lia. reflexivity.
Qed.

Lemma unpack_pack : forall t s, 0 <= s -> unpack (pack t s) = (t mod 16, s mod 268435456).
Proof.
  intros t s Hs. rewrite pack_eq by exact Hs. rewrite unpack_eq.
  pose proof (Z.mod_pos_bound s 268435456). pose proof (Z.mod_pos_bound t 16).
  rewrite Z.div_add by lia. rewrite Z.div_small by lia. rewrite Z.add_0_l, Z.mod_mod by lia.
  rewrite Z_mod_plus_full, Z.mod_mod by lia. reflexivity.
Qed.

Lemma pack_range : forall t s, 0 <= s -> 0 <= pack t s < 256 ^ Z.of_nat 4.
Proof.
  intros t s Hs. rewrite pack_eq by exact Hs. change (256 ^ Z.of_nat 4) with 4294967296.
  pose proof (Z.mod_pos_bound s 268435456). pose proof (Z.mod_pos_bound t 16). lia.
Qed.

Lemma unpack_range : forall h t n, unpack h = (t, n) -> 0 <= n <= 268435455.
Proof.
  intros h t n H. rewrite unpack_eq in H. inversion H; subst.
  pose proof (Z.mod_pos_bound h 268435456). lia.
Qed.

(** ** copyData *)

Lemma copyData_mid : forall a b c n off, zlen (a ++ b ++ c) < two64 -> off = zlen a -> n = zlen b ->
  copyData (a ++ b ++ c) n off = Ok b.
Proof.
  intros a b c n off Hl -> ->. unfold copyData. rewrite !zlen_app in *.
  pose proof (zlen_nonneg a). pose proof (zlen_nonneg b). pose proof (zlen_nonneg c).
  rewrite w64_small by lia.
  replace (zlen b + zlen a >? zlen a + (zlen b + zlen c)) with false by lia.
  apply rd_mid; reflexivity.
Qed.

Lemma copyData_pre : forall b c n, zlen (b ++ c) < two64 -> n = zlen b ->
  copyData (b ++ c) n 0 = Ok b.
Proof. intros b c n Hl Hn. apply (copyData_mid [] b c); auto. Qed.

Lemma copyData_suf : forall a b n off, zlen (a ++ b) < two64 -> off = zlen a -> n = zlen b ->
  copyData (a ++ b) n off = Ok b.
Proof.
  intros a b n off Hl Ho Hn.
  pose proof (copyData_mid a b [] n off) as H. rewrite app_nil_r in H. auto.
Qed.

Lemma copyData_safe : forall data n off, 0 <= n -> 0 <= off -> n + off < two64 ->
  copyData data n off = Err \/
  exists a l b, copyData data n off = Ok l /\ data = a ++ l ++ b /\ zlen a = off /\ zlen l = n.
Proof.
  intros data n off Hn Ho Hw. unfold copyData. rewrite w64_small by lia.
  destruct (n + off >? zlen data) eqn:E; [left; reflexivity|right].
  destruct (rd_ok data off n) as [l [El [Hl [a [b [Ed Ha]]]]]]; try lia.
  exists a, l, b. auto.
Qed.

(** ** One payload, arbitrary bytes *)

Definition ev_ok (data : list Z) (e : event) : Prop :=
  is_oob e = false /\ match e with EMsg m => msg_from data m | _ => True end.

Ltac cstep H l := 
  match goal with |- context [copyData ?d ?n ?o] =>
    let E := fresh "E" in
    destruct (copyData_safe d n o) as [E|[? [l [? [E H]]]]]; [try lia|try lia|try (unfold two64; lia)|rewrite E; cbn [bind]|rewrite E; cbn [bind]] end.

Lemma part_self : forall a l b, part_of l (a ++ l ++ b).
Proof. intros; exists a, b; reflexivity. Qed.

Section ONE.
Variable data : list Z.
Hypothesis Hb : Forall is_byte data.
Hypothesis Hsz : zlen data < 4294967296.

Lemma sub_range : forall a l b, data = a ++ l ++ b -> 0 <= unle l < 256 ^ zlen l.
Proof. intros a l b E. apply unle_range. rewrite E in Hb. eapply Forall_mid; exact Hb. Qed.

Lemma on_error_ok : forall stop t r, 
  r <> Oob -> (forall m, r = Ok m -> msg_from data m) -> ev_ok data (on_error stop t r).
Proof.
  intros stop t r H1 H2. unfold ev_ok, on_error. destruct r; [|destruct stop|]; cbn [is_oob]; auto; congruence.
Qed.

Lemma safe_avail : forall t, ev_ok data (on_error true t (readSignalAvailable data)).
Proof.
  intros t. unfold readSignalAvailable.
  pose proof (zlen_nonneg data).
  destruct (copyData_safe data 4 0) as [E|(a1 & l1 & b1 & E & D1 & A1 & L1)]; try (unfold two64; lia); rewrite E; cbn [bind].
  { split; [reflexivity|exact I]. }
  destruct (copyData_safe data 2 4) as [E2|(a2 & l2 & b2 & E2 & D2 & A2 & L2)]; try (unfold two64; lia); rewrite E2; cbn [bind].
  { split; [reflexivity|exact I]. }
  pose proof (sub_range _ _ _ D2) as R2. rewrite L2 in R2. change (256 ^ 2) with 65536 in R2.
  destruct (copyData_safe data (unle l2) 6) as [E3|(a3 & l3 & b3 & E3 & D3 & A3 & L3)]; try (unfold two64; lia); rewrite E3; cbn [bind].
  { split; [reflexivity|exact I]. }
  assert (6 + unle l2 <= zlen data).
  { rewrite D3. rewrite !zlen_app. pose proof (zlen_nonneg b3). lia. }
  assert (W : w64 (zlen data - (6 + unle l2)) = zlen data - (6 + unle l2)) by (apply w64_small; unfold two64; lia).
  rewrite W.
  destruct (copyData_safe data (zlen data - (6 + unle l2)) (6 + unle l2)) as [E4|(a4 & l4 & b4 & E4 & D4 & A4 & L4)]; try (unfold two64; lia); rewrite E4; cbn [bind].
  { split; [reflexivity|exact I]. }
  split; [reflexivity|]. cbn [on_error msg_from]. split; [exists a3, b3|exists a4, b4]; assumption.
Qed.

Lemma safe_idstring : forall t k, (forall i s, part_of s data -> msg_from data (k i s)) ->
  ev_ok data (on_error true t (readIdString k data)).
Proof.
  intros t k Hk. unfold readIdString. pose proof (zlen_nonneg data).
  destruct (copyData_safe data 4 0) as [E|(a1 & l1 & b1 & E & D1 & A1 & L1)]; try (unfold two64; lia); rewrite E; cbn [bind].
  { split; [reflexivity|exact I]. }
  assert (4 <= zlen data).
  { rewrite D1. rewrite !zlen_app. pose proof (zlen_nonneg b1). lia. }
  assert (W : w64 (zlen data - 4) = zlen data - 4) by (apply w64_small; unfold two64; lia).
  rewrite W.
  destruct (copyData_safe data (zlen data - 4) 4) as [E4|(a4 & l4 & b4 & E4 & D4 & A4 & L4)]; try (unfold two64; lia); rewrite E4; cbn [bind].
  { split; [reflexivity|exact I]. }
  split; [reflexivity|]. cbn [on_error]. apply Hk. exists a4, b4; assumption.
Qed.

Lemma safe_id : forall t k, (forall i, msg_from data (k i)) -> ev_ok data (on_error true t (readId k data)).
Proof.
  intros t k Hk. unfold readId. pose proof (zlen_nonneg data).
  destruct (copyData_safe data 4 0) as [E|(a1 & l1 & b1 & E & D1 & A1 & L1)]; try (unfold two64; lia); rewrite E; cbn [bind].
  { split; [reflexivity|exact I]. }
  split; [reflexivity|]. cbn [on_error]. apply Hk.
Qed.

Lemma safe_props : forall t, ev_ok data (on_error true t (do j <- copyData data (zlen data) 0; Ok (MProps j))).
Proof.
  intros t. pose proof (zlen_nonneg data).
  destruct (copyData_safe data (zlen data) 0) as [E|(a1 & l1 & b1 & E & D1 & A1 & L1)]; try (unfold two64; lia); rewrite E; cbn [bind].
  { split; [reflexivity|exact I]. }
  split; [reflexivity|]. cbn [on_error msg_from]. exists a1, b1; assumption.
Qed.

Lemma zlen0 : forall (l : list Z), zlen l = 0 -> l = [].
Proof. intros [|x l] H; [reflexivity|]. rewrite zlen_cons in H. pose proof (zlen_nonneg l). lia. Qed.

Lemma app_split : forall (a b c d : list Z), a ++ b = c ++ d -> zlen a = zlen c -> a = c /\ b = d.
Proof.
  induction a as [|x a IH]; intros b c d H L.
  - symmetry in L. apply zlen0 in L. subst. auto.
  - destruct c as [|y c]; [rewrite (@zlen_nil Z), zlen_cons in L; pose proof (zlen_nonneg a); lia|].
    cbn [app] in H. inversion H; subst. rewrite !zlen_cons in L.
    destruct (IH b c d) as [-> ->]; auto; lia.
Qed.

Lemma safe_cfg : readConfigurationPacket data <> Oob /\
  forall m, readConfigurationPacket data = Ok (CfgPacket m) -> part_of m data /\ received m.
Proof.
  unfold readConfigurationPacket. pose proof (zlen_nonneg data).
  destruct (copyData_safe data 1 0) as [E|(a1 & l1 & b1 & E & D1 & A1 & L1)]; try (unfold two64; lia); rewrite E; cbn [bind].
  { split; [discriminate|intros; discriminate]. }
  destruct (negb (unle l1 =? 16)) eqn:Eh.
  { split; [discriminate|intros; discriminate]. }
  destruct (copyData_safe data 16 0) as [E2|(a2 & h & b2 & E2 & D2 & A2 & L2)]; try (unfold two64; lia); rewrite E2; cbn [bind].
  { split; [discriminate|intros; discriminate]. }
  apply zlen0 in A2. subst a2. cbn [app] in D2.
  assert (Bh : Forall is_byte h). { rewrite D2 in Hb. apply Forall_app in Hb. tauto. }
  assert (Hps : exists ps, f_payloadSize h = Ok ps /\ 0 <= ps < 4294967296 /\ forall x, f_payloadSize (h ++ x) = Ok ps).
  { unfold f_payloadSize. destruct (rd_ok h 4 4) as [l [El [Ll [p [q [Eh' Hp]]]]]]; try lia.
    exists (unle l). rewrite El. split; [reflexivity|]. split.
    - change 4294967296 with (256 ^ 4). rewrite <- Ll. apply unle_range. rewrite Eh' in Bh. eapply Forall_mid; exact Bh.
    - intros x. rewrite Eh'. rewrite <- !app_assoc. rewrite rd_mid by lia. reflexivity. }
  destruct Hps as [ps [Eps [Rps Hext]]]. rewrite Eps. cbn [bind].
  destruct (ps >? 0) eqn:Ep.
  - destruct (copyData_safe data ps 16) as [E3|(a3 & p & b3 & E3 & D3 & A3 & L3)]; try (unfold two64; lia); rewrite E3; cbn [bind].
    { split; [discriminate|intros; discriminate]. }
    assert (16 + ps <= zlen data).
    { rewrite D3. rewrite !zlen_app. pose proof (zlen_nonneg b3). lia. }
    rewrite (w32_small (16 + ps)) by lia.
    replace (16 + ps <=? 16 + ps) with true by lia. split; [discriminate|].
    intros m Hm. inversion Hm; subst m. 
    assert (Hh : a3 = h /\ p ++ b3 = b2). { apply app_split; [rewrite <- D3, <- D2; reflexivity|lia]. }
    destruct Hh as [-> Hh].
    split; [exists [], b3; cbn [app]; rewrite D3, <- app_assoc; reflexivity|].
    split; [|split].
    + rewrite D3, app_assoc in Hb. apply Forall_app in Hb. tauto.
    + rewrite zlen_app. pose proof (zlen_nonneg p). lia.
    + exists ps. split; [apply Hext|]. rewrite zlen_app. lia.
  - split; [discriminate|]. intros m Hm. inversion Hm; subst m.
    split; [exists [], b2; exact D2|]. split; [exact Bh|]. split; [lia|].
    exists ps. split; [exact Eps|lia].
Qed.

Lemma safe_pkt : readPacketBuffer data <> Oob /\
  forall h p, readPacketBuffer data = Ok (PktBuffer h p) -> part_of h data /\ (part_of p data \/ p = []).
Proof.
  unfold readPacketBuffer. pose proof (zlen_nonneg data).
  destruct (copyData_safe data 1 0) as [E|(a1 & l1 & b1 & E & D1 & A1 & L1)]; try (unfold two64; lia); rewrite E; cbn [bind].
  { split; [discriminate|intros; discriminate]. }
  pose proof (sub_range _ _ _ D1) as R1. rewrite L1 in R1. change (256 ^ 1) with 256 in R1.
  destruct (unle l1 <? 12) eqn:E12. { split; [discriminate|intros; discriminate]. }
  destruct (copyData_safe data (unle l1) 0) as [E2|(a2 & h & b2 & E2 & D2 & A2 & L2)]; try (unfold two64; lia); rewrite E2; cbn [bind].
  { split; [discriminate|intros; discriminate]. }
  assert (Bh : Forall is_byte h). { rewrite D2 in Hb. eapply Forall_mid; exact Hb. }
  destruct (rd_ok h 8 4) as [l [El [Ll [x [q [Eh Hp]]]]]]; try lia. rewrite El. cbn [bind].
  assert (R : 0 <= unle l < 256 ^ 4).
  { rewrite <- Ll. apply unle_range. rewrite Eh in Bh. eapply Forall_mid; exact Bh. }
  change (256 ^ 4) with 4294967296 in R.
  destruct (unle l >? 0).
  - destruct (copyData_safe data (unle l) (unle l1)) as [E3|(a3 & p & b3 & E3 & D3 & A3 & L3)]; try (unfold two64; lia); rewrite E3; cbn [bind].
    { split; [discriminate|intros; discriminate]. }
    split; [discriminate|]. intros h' p' Hm. inversion Hm; subst.
    split; [exists a2, b2; exact D2|left; exists a3, b3; exact D3].
  - split; [discriminate|]. intros h' p' Hm. inversion Hm; subst.
    split; [exists a2, b2; exact D2|right; reflexivity].
Qed.

Lemma dispatch_ok : forall server inst t, ev_ok data (dispatch server inst t data).
Proof.
  intros server inst t. unfold dispatch.
  destruct (negb (inst t)); [split; [reflexivity|exact I]|].
  destruct (t =? tPacket).
  { destruct safe_pkt as [S1 S2]. destruct (readPacketBuffer data) as [[h p|]| |]; try (split; [reflexivity|exact I]).
    - split; [reflexivity|]. cbn [msg_from]. apply S2. reflexivity.
    - congruence. }
  destruct (t =? tAvailable); [apply safe_avail|].
  destruct (t =? tUnavailable); [apply safe_idstring; intros i s Hs; exact Hs|].
  destruct (t =? tSubscribe); [apply safe_idstring; intros i s Hs; exact Hs|].
  destruct (t =? tUnsubscribe); [apply safe_idstring; intros i s Hs; exact Hs|].
  destruct (t =? tSubscribeAck); [apply safe_id; intros i; exact I|].
  destruct (t =? tUnsubscribeAck); [apply safe_id; intros i; exact I|].
  destruct (t =? tConfig).
  { destruct safe_cfg as [S1 S2]. destruct (readConfigurationPacket data) as [[m|]| |]; try (split; [reflexivity|exact I]).
    - split; [reflexivity|]. cbn [msg_from]. apply S2. reflexivity.
    - congruence. }
  destruct ((t =? tProps) && server); [apply safe_props|split; [reflexivity|exact I]].
Qed.
End ONE.

(** ** The receive loop *)

Lemma part_trans : forall x y z, part_of x y -> part_of y z -> part_of x z.
Proof.
  intros x y z [a [b ->]] [c [d ->]]. exists (c ++ a), (b ++ d). rewrite <- !app_assoc. reflexivity.
Qed.

Lemma msg_from_mono : forall m s s', msg_from s m -> part_of s s' -> msg_from s' m.
Proof.
  intros m s s' H Hp. destruct m; cbn [msg_from] in *; auto;
    try (eapply part_trans; eassumption).
  - destruct H as [H1 [H2|H2]]; (split; [eapply part_trans; eassumption|]); [left|right; assumption].
    eapply part_trans; eassumption.
  - destruct H as [H1 H2]. split; eapply part_trans; eassumption.
  - destruct H as [H1 H2]. split; [eapply part_trans; eassumption|assumption].
Qed.

Lemma ev_mono : forall s s' e, ev_ok s e -> part_of s s' -> ev_ok s' e.
Proof.
  intros s s' e [H1 H2] Hp. split; [exact H1|]. destruct e; auto. eapply msg_from_mono; eassumption.
Qed.

Lemma part_skipn : forall n s, part_of (skipn n s) s.
Proof. intros. exists (firstn n s), []. rewrite app_nil_r, firstn_skipn. reflexivity. Qed.

Lemma part_firstn : forall n s, part_of (firstn n s) s.
Proof. intros. exists [], (skipn n s). cbn [app]. rewrite firstn_skipn. reflexivity. Qed.

Lemma Forall_part : forall (P : Z -> Prop) x s, Forall P s -> part_of x s -> Forall P x.
Proof. intros P x s H [a [b ->]]. eapply Forall_mid; exact H. Qed.

Lemma receive_n_ok : forall fuel server inst s, Forall is_byte s ->
  Forall (ev_ok s) (receive_n fuel server inst s).
Proof.
  induction fuel as [|fuel IH]; intros server inst s Hs; cbn [receive_n]; [constructor|].
  destruct (zlen s <? 4); [constructor|].
  destruct (unpack (unle (firstn 4 s))) as [t n] eqn:Eu. apply unpack_range in Eu.
  assert (P1 : part_of (skipn 4 s) s) by apply part_skipn.
  destruct (header_only server t).
  - constructor.
    + unfold header_event. destruct server; [destruct (inst tInitRequest)|]; (split; [reflexivity|exact I]).
    + eapply Forall_impl; [|apply IH; eapply Forall_part; eassumption].
      intros e He. eapply ev_mono; eassumption.
  - destruct (zlen (skipn 4 s) <? n) eqn:El; [constructor|].
    set (data := firstn (Z.to_nat n) (skipn 4 s)).
    assert (Pd : part_of data s) by (eapply part_trans; [apply part_firstn|exact P1]).
    assert (Hd : ev_ok s (dispatch server inst t data)).
    { eapply ev_mono; [|exact Pd]. apply dispatch_ok; [eapply Forall_part; eassumption|].
      unfold data, zlen. rewrite firstn_length. lia. }
    assert (Hr : Forall (ev_ok s) (receive_n fuel server inst (skipn (Z.to_nat n) (skipn 4 s)))).
    { eapply Forall_impl; [|apply IH; eapply Forall_part; [exact Hs|eapply part_trans; [apply part_skipn|exact P1]]].
      intros e He. eapply ev_mono; [exact He|]. eapply part_trans; [apply part_skipn|exact P1]. }
    destruct (dispatch server inst t data); constructor; auto.
Qed.

Lemma receive_fuel : forall f f' server inst s, (length s <= f)%nat -> (length s <= f')%nat ->
  receive_n f server inst s = receive_n f' server inst s.
Proof.
  induction f as [|f IH]; intros f' server inst s H1 H2.
  - destruct s; [|cbn [length] in H1; lia]. destruct f'; reflexivity.
  - destruct f' as [|f'].
    + destruct s; [|cbn [length] in H2; lia]. reflexivity.
    + cbn [receive_n]. destruct (zlen s <? 4) eqn:E4; [reflexivity|].
      destruct (unpack (unle (firstn 4 s))) as [t n] eqn:Eu.
      unfold zlen in E4.
      rewrite (IH f' server inst (skipn 4 s)) by (rewrite skipn_length; lia).
      rewrite (IH f' server inst (skipn (Z.to_nat n) (skipn 4 s))) by (rewrite !skipn_length; lia).
      reflexivity.
Qed.

Lemma firstn_app_exact : forall {A} (a b : list A) n, n = length a -> firstn n (a ++ b) = a.
Proof. intros A a b n ->. rewrite firstn_app, Nat.sub_diag, firstn_all. cbn [firstn]. apply app_nil_r. Qed.

Lemma skipn_app_exact : forall {A} (a b : list A) n, n = length a -> skipn n (a ++ b) = b.
Proof. intros A a b n ->. rewrite skipn_app, Nat.sub_diag, skipn_all. reflexivity. Qed.

Definition continues (e : event) : Prop := match e with EStop _ | EOob _ => False | _ => True end.

Lemma receive_frame : forall server inst t body rest, 0 <= t < 16 -> zlen body <= MAX_PAYLOAD_SIZE ->
  header_only server t = false -> continues (dispatch server inst t body) ->
  receive server inst ((write_header t (zlen body) ++ body) ++ rest) =
  dispatch server inst t body :: receive server inst rest.
Proof.
  intros server inst t body rest Ht Hn Hh Hc. unfold receive at 1.
  assert (Hl : length ((write_header t (zlen body) ++ body) ++ rest) = (4 + length body + length rest)%nat).
  { rewrite !app_length. unfold write_header. rewrite le_length. lia. }
  rewrite Hl. change (4 + length body + length rest)%nat with (S (3 + length body + length rest)).
  rewrite <- app_assoc in *. cbn [receive_n].
  replace (zlen (write_header t (zlen body) ++ body ++ rest) <? 4) with false
    by (unfold zlen at 1; rewrite Hl; lia).
  rewrite firstn_app_exact by (unfold write_header; rewrite le_length; reflexivity).
  unfold write_header at 1. pose proof (zlen_nonneg body). unfold MAX_PAYLOAD_SIZE, PAYLOAD_SIZE_MASK in Hn.
  rewrite unle_le by (apply pack_range; lia). rewrite unpack_pack by lia.
  rewrite (Z.mod_small t 16) by lia. rewrite (Z.mod_small (zlen body)) by lia.
  rewrite skipn_app_exact by (unfold write_header; rewrite le_length; reflexivity).
  rewrite Hh. replace (zlen (body ++ rest) <? zlen body) with false
    by (rewrite zlen_app; pose proof (zlen_nonneg rest); lia).
  rewrite firstn_app_exact by (unfold zlen; lia).
  rewrite skipn_app_exact by (unfold zlen; lia).
  unfold receive. rewrite (receive_fuel _ (length rest) server inst rest) by lia.
  destruct (dispatch server inst t body); cbn [continues] in Hc; try contradiction; reflexivity.
Qed.

Lemma receive_header_only : forall server inst t rest, 0 <= t < 16 -> header_only server t = true ->
  receive server inst (write_header t 0 ++ rest) = header_event inst server :: receive server inst rest.
Proof.
  intros server inst t rest Ht Hh. unfold receive at 1.
  assert (Hl : length (write_header t 0 ++ rest) = (4 + length rest)%nat).
  { rewrite app_length. unfold write_header. rewrite le_length. lia. }
  rewrite Hl. change (4 + length rest)%nat with (S (3 + length rest)).
  cbn [receive_n].
  replace (zlen (write_header t 0 ++ rest) <? 4) with false by (unfold zlen; rewrite Hl; lia).
  rewrite firstn_app_exact by (unfold write_header; rewrite le_length; reflexivity).
  unfold write_header at 1.
  rewrite unle_le by (apply pack_range; lia). rewrite unpack_pack by lia.
  rewrite (Z.mod_small t 16) by lia.
  rewrite skipn_app_exact by (unfold write_header; rewrite le_length; reflexivity).
  rewrite Hh. unfold receive. rewrite (receive_fuel _ (length rest) server inst rest) by lia. reflexivity.
Qed.

(** ** Round trips *)

Lemma send_tasks_ok : forall t tasks b, send_tasks t tasks = Ok b ->
  b = write_header t (zlen (concat tasks)) ++ concat tasks /\ zlen (concat tasks) <= MAX_PAYLOAD_SIZE.
Proof.
  intros t tasks b H. unfold send_tasks, calculatePayloadSize in H.
  assert (E : fold_right (fun (t : list Z) acc => zlen t + acc) 0 tasks = zlen (concat tasks)).
  { clear. induction tasks; cbn [fold_right concat]; [reflexivity|]. rewrite IHtasks, zlen_app. reflexivity. }
  rewrite E in H. destruct (zlen (concat tasks) >? MAX_PAYLOAD_SIZE) eqn:X; cbn [bind] in H; inversion H; subst.
  split; [reflexivity|lia].
Qed.

Lemma send_tasks_iff : forall t tasks, (exists b, send_tasks t tasks = Ok b) <-> zlen (concat tasks) <= MAX_PAYLOAD_SIZE.
Proof.
  intros t tasks. unfold send_tasks, calculatePayloadSize.
  assert (E : fold_right (fun (t : list Z) acc => zlen t + acc) 0 tasks = zlen (concat tasks)).
  { clear. induction tasks; cbn [fold_right concat]; [reflexivity|]. rewrite IHtasks, zlen_app. reflexivity. }
  rewrite E. destruct (zlen (concat tasks) >? MAX_PAYLOAD_SIZE) eqn:X; cbn [bind].
  - split; [intros [b Hb]; discriminate|lia].
  - split; [lia|eauto].
Qed.

Definition frame_of (t : Z) (body : list Z) : list Z := write_header t (zlen body) ++ body.

(** What [encode] produces: one frame, and what the dispatcher makes of it. *)
Definition delivers (t : Z) (body : list Z) (m : msg) : Prop :=
  forall server inst, header_only server t = false ->
    dispatch server inst t body = expected server inst m.

Lemma disp_skip : forall server inst t d, inst t = false -> dispatch server inst t d = ESkip t.
Proof. intros. unfold dispatch. rewrite H. reflexivity. Qed.

Lemma two64_big : MAX_PAYLOAD_SIZE < two64.
Proof. unfold MAX_PAYLOAD_SIZE, PAYLOAD_SIZE_MASK, two64. lia. Qed.

Lemma idstring_rt : forall k id sid, 0 <= id < 2 ^ 32 -> zlen (le 4 id ++ sid) <= MAX_PAYLOAD_SIZE ->
  readIdString k (le 4 id ++ sid) = Ok (k id sid).
Proof.
  intros k id sid Hid Hl. unfold readIdString. pose proof two64_big.
  rewrite copyData_pre by (rewrite ?le_zlen; reflexivity || lia). cbn [bind].
  pose proof (zlen_nonneg sid). rewrite zlen_app, le_zlen in Hl.
  rewrite zlen_app, le_zlen. replace (Z.of_nat 4 + zlen sid - 4) with (zlen sid) by lia.
  rewrite w64_small by lia.
  rewrite copyData_suf by (rewrite ?zlen_app, ?le_zlen; reflexivity || lia). cbn [bind].
  rewrite unle_le by exact Hid. reflexivity.
Qed.

Lemma id_rt : forall k id, 0 <= id < 2 ^ 32 -> readId k (le 4 id) = Ok (k id).
Proof.
  intros k id Hid. unfold readId. rewrite <- (app_nil_r (le 4 id)).
  rewrite copyData_pre; [cbn [bind]; rewrite unle_le by exact Hid; reflexivity| |].
  - rewrite zlen_app, le_zlen, (@zlen_nil Z). unfold two64. lia.
  - rewrite le_zlen. reflexivity.
Qed.

Lemma avail_rt : forall id sid ser, 0 <= id < 2 ^ 32 -> zlen sid <= 65535 ->
  zlen (le 4 id ++ le 2 (w16 (zlen sid)) ++ sid ++ ser) <= MAX_PAYLOAD_SIZE ->
  readSignalAvailable (le 4 id ++ le 2 (w16 (zlen sid)) ++ sid ++ ser) = Ok (MAvailable id sid ser).
Proof.
  intros id sid ser Hid Hs Hl. unfold readSignalAvailable. pose proof two64_big.
  pose proof (zlen_nonneg sid). pose proof (zlen_nonneg ser).
  rewrite copyData_pre by (rewrite ?le_zlen; reflexivity || lia). cbn [bind].
  rewrite copyData_mid by (rewrite ?le_zlen; reflexivity || lia). cbn [bind].
  rewrite unle_w16. unfold w16. rewrite (Z.mod_small (zlen sid)) by lia.
  remember (le 2 (zlen sid)) as l2 eqn:E2.
  assert (L2 : zlen l2 = 2) by (rewrite E2, le_zlen; reflexivity).
  unfold w16 in Hl. rewrite (Z.mod_small (zlen sid)) in Hl by lia. rewrite <- E2 in Hl.
  rewrite (app_assoc (le 4 id)) in *.
  rewrite copyData_mid by (rewrite ?zlen_app, ?le_zlen, ?L2; reflexivity || (rewrite ?zlen_app, ?le_zlen, ?L2 in *; lia)). cbn [bind].
  rewrite (app_assoc (le 4 id ++ l2)) in *.
  assert (W : w64 (zlen (((le 4 id ++ l2) ++ sid) ++ ser) - (6 + zlen sid)) = zlen ser).
  { rewrite !zlen_app, le_zlen, L2 in *. rewrite w64_small; lia. }
  rewrite W.
  rewrite copyData_suf; [cbn [bind]; rewrite unle_le by exact Hid; reflexivity| | |reflexivity].
  - lia.
  - rewrite !zlen_app, le_zlen, L2. lia.
Qed.

Lemma props_rt : forall j, zlen j <= MAX_PAYLOAD_SIZE -> copyData j (zlen j) 0 = Ok j.
Proof.
  intros j H. pose proof two64_big. rewrite <- (app_nil_r j) at 1. apply copyData_pre; [rewrite app_nil_r; lia|reflexivity].
Qed.

Lemma packet_parts : forall h p, packet_ok h p ->
  rd h 0 1 = Ok [zlen h] /\ rd h 8 4 = Ok (le 4 (zlen p)) /\ unle (le 4 (zlen p)) = zlen p.
Proof.
  intros h p (Hb & Hl & H1 & H8 & Hp). pose proof (zlen_nonneg p). split; [|split].
  - unfold rd. replace ((0 <=? 0) && (0 <=? 1) && (0 + 1 <=? zlen h)) with true by lia.
    f_equal. exact H1.
  - unfold rd. replace ((0 <=? 8) && (0 <=? 4) && (8 + 4 <=? zlen h)) with true by lia.
    f_equal. exact H8.
  - apply unle_le. change (256 ^ Z.of_nat 4) with (2 ^ 32). lia.
Qed.

Lemma rd_all : forall h, rd h 0 (zlen h) = Ok h.
Proof. intros. rewrite <- (app_nil_r h) at 1. apply rd_prefix. Qed.

Lemma send_packet_eq : forall h p, packet_ok h p ->
  send_packet h p =
  (if w32 (zlen h + zlen p) >? MAX_PAYLOAD_SIZE then Err
   else Ok (write_header tPacket (w32 (zlen h + zlen p)) ++ h ++ p)).
Proof.
  intros h p Hk. destruct (packet_parts h p Hk) as [E1 [E2 E3]].
  unfold send_packet. rewrite E1, E2. cbn [bind]. rewrite E3, unle1.
  destruct (w32 (zlen h + zlen p) >? MAX_PAYLOAD_SIZE); [reflexivity|].
  rewrite !rd_all. cbn [bind]. do 3 f_equal.
  destruct (zlen p >? 0) eqn:E; [reflexivity|]. symmetry. apply zlen0. pose proof (zlen_nonneg p). lia.
Qed.

Lemma packet_rt : forall h p, packet_ok h p -> zlen (h ++ p) <= MAX_PAYLOAD_SIZE ->
  readPacketBuffer (h ++ p) = Ok (PktBuffer h p).
Proof.
  intros h p Hk Hl. destruct (packet_parts h p Hk) as [E1 [E2 E3]].
  destruct Hk as (Hb & Hlh & H1 & H8 & Hp). pose proof two64_big.
  unfold readPacketBuffer.
  assert (Eh : exists r, h = [zlen h] ++ r).
  { destruct h as [|x r]; [discriminate|]. cbn [firstn] in H1. exists r. inversion H1. cbn [app]. congruence. }
  destruct Eh as [r Eh].
  assert (C1 : copyData (h ++ p) 1 0 = Ok [zlen h]).
  { rewrite Eh at 1. rewrite <- app_assoc. apply copyData_pre; [|reflexivity]. rewrite app_assoc, <- Eh. lia. }
  rewrite C1. cbn [bind]. rewrite unle1.
  replace (zlen h <? 12) with false by lia.
  rewrite copyData_pre by (reflexivity || lia). cbn [bind].
  rewrite E2. cbn [bind]. rewrite E3. destruct (zlen p >? 0) eqn:E.
  - rewrite copyData_suf by (reflexivity || lia). reflexivity.
  - do 2 f_equal. symmetry. apply zlen0. pose proof (zlen_nonneg p). lia.
Qed.

Lemma create_mem : forall un c k, create un c = Ok k ->
  exists t id p, k = mem un t id p /\ 16 + zlen p <= MAX_PACKET_BUFFER_SIZE.
Proof.
  intros un c k Hc. destruct c; cbn [create] in Hc;
    unfold createGetProtocolInfoRequest, createGetProtocolInfoReply, createUpgradeProtocolRequest,
    createUpgradeProtocolReply, createRpcRequestOrReply, createInvalidRequestReply,
    createServerNotification, createNoReplyRpcRequest, createConnectionRejectedReply in Hc;
    apply mk_ok in Hc; eauto.
Qed.

Section CFG.
Variables (un : Z * Z) (t id : Z) (p : list Z).
Hypothesis Hp : 16 + zlen p <= MAX_PACKET_BUFFER_SIZE.
Local Notation k := (mem un t id p).

Lemma cfg_split : exists h, zlen h = 16 /\ k = h ++ p /\ f_payloadSize h = Ok (zlen p) /\ f_headerSize h = Ok 16.
Proof.
  pose proof (zlen_nonneg p). unfold MAX_PACKET_BUFFER_SIZE in Hp.
  exists ([hdrSize; t; fst un; snd un] ++ le 4 (w32 (zlen p)) ++ le 8 id).
  split; [rewrite !zlen_app, !le_zlen, !zlen_cons, (@zlen_nil Z); reflexivity|].
  split; [unfold mem; rewrite <- !app_assoc; reflexivity|]. split.
  - unfold f_payloadSize. rewrite rd_mid by (rewrite ?le_zlen; reflexivity). cbn [bind].
    rewrite w32_small by lia. rewrite unle_le; [reflexivity|]. change (256 ^ Z.of_nat 4) with 4294967296. lia.
  - unfold f_headerSize.
    change ([hdrSize; t; fst un; snd un] ++ ?r) with ([] ++ [hdrSize] ++ ([t; fst un; snd un] ++ r)).
    rewrite (rd_mid [] [hdrSize]) by reflexivity. reflexivity.
Qed.

Lemma send_config_eq : send_config k = Ok (frame_of tConfig k).
Proof.
  unfold send_config. rewrite m_copy by exact Hp. cbn [bind].
  rewrite m_payloadSize by exact Hp. cbn [bind].
  destruct cfg_split as [h [Hh [-> [Eps _]]]].
  replace (rd (h ++ p) 0 16) with (Ok h) by (rewrite <- Hh; symmetry; apply rd_prefix). cbn [bind].
  pose proof (zlen_nonneg p).
  unfold frame_of, send_tasks, calculatePayloadSize. unfold MAX_PACKET_BUFFER_SIZE in Hp.
  destruct (zlen p >? 0) eqn:E.
  - rewrite rd_end by (reflexivity || lia). cbn [bind fold_right].
    replace (zlen h + (zlen p + 0)) with (zlen (h ++ p)) by (rewrite zlen_app; lia).
    replace (zlen (h ++ p) >? MAX_PAYLOAD_SIZE) with false
      by (rewrite zlen_app; unfold MAX_PAYLOAD_SIZE, PAYLOAD_SIZE_MASK; lia).
    cbn [bind concat]. rewrite app_nil_r. reflexivity.
  - assert (p = []) as -> by (apply zlen0; lia). cbn [bind fold_right concat]. rewrite !app_nil_r.
    rewrite Z.add_0_r.
    replace (zlen h >? MAX_PAYLOAD_SIZE) with false by (unfold MAX_PAYLOAD_SIZE, PAYLOAD_SIZE_MASK; lia).
    reflexivity.
Qed.

Lemma cfg_rt : readConfigurationPacket k = Ok (CfgPacket k).
Proof.
  pose proof (zlen_nonneg p). unfold MAX_PACKET_BUFFER_SIZE in Hp.
  assert (L : zlen k < two64) by (rewrite m_len; unfold two64; lia).
  unfold readConfigurationPacket.
  assert (C1 : copyData k 1 0 = Ok [16]).
  { unfold mem in *. change ([hdrSize; t; fst un; snd un] ++ ?r) with ([hdrSize] ++ ([t; fst un; snd un] ++ r)) in *.
    apply copyData_pre; [exact L|reflexivity]. }
  rewrite C1. cbn [bind]. rewrite unle1. change (negb (16 =? 16)) with false. cbv iota.
  destruct cfg_split as [h [Hh [E [Eps _]]]]. rewrite E in *.
  rewrite copyData_pre by (exact L || lia). cbn [bind]. rewrite Eps. cbn [bind].
  destruct (zlen p >? 0) eqn:E0.
  - rewrite copyData_suf by (exact L || lia). cbn [bind].
    rewrite w32_small by lia. replace (16 + zlen p <=? 16 + zlen p) with true by lia. reflexivity.
  - assert (p = []) as -> by (apply zlen0; lia). rewrite app_nil_r. reflexivity.
Qed.
End CFG.

(** [encode] succeeds exactly up to the size limit *)
Lemma encode_frame : forall m b, sendable m -> wire_size m < 2 ^ 32 -> encode m = Ok b ->
  exists body, b = frame_of (type_of_msg m) body /\ zlen body <= MAX_PAYLOAD_SIZE /\
    zlen body = wire_size m /\ delivers (type_of_msg m) body m.
Proof.
  intros m b Hs Hw He. destruct m; cbn [encode sendable type_of_msg wire_size] in *.
  - (* packet *)
    rewrite send_packet_eq in He by exact Hs.
    pose proof (zlen_nonneg header). pose proof (zlen_nonneg payload).
    rewrite w32_small in He by (change (2 ^ 32) with 4294967296 in Hw; lia).
    destruct (zlen header + zlen payload >? MAX_PAYLOAD_SIZE) eqn:X; inversion He; subst b.
    exists (header ++ payload). unfold frame_of. rewrite zlen_app.
    split; [reflexivity|]. split; [lia|]. split; [reflexivity|].
    intros server inst _. cbn [expected type_of_msg handled].
    destruct (inst tPacket) eqn:Ei; [|rewrite disp_skip by exact Ei; reflexivity].
    unfold dispatch. rewrite Ei. cbn [negb andb]. rewrite Z.eqb_refl.
    rewrite packet_rt; [reflexivity|exact Hs|rewrite zlen_app; lia].
  - (* available *)
    destruct (zlen sid >? 65535) eqn:X; [discriminate|].
    apply send_tasks_ok in He. destruct He as [-> Hl]. cbn [concat] in *. rewrite !app_nil_r in *.
    eexists; split; [reflexivity|]. split; [exact Hl|]. split; [rewrite !zlen_app, !le_zlen; lia|].
    intros server inst _. cbn [expected type_of_msg handled].
    destruct (inst tAvailable) eqn:Ei; [|rewrite disp_skip by exact Ei; reflexivity].
    unfold dispatch. rewrite Ei. cbn [negb andb].
    change (tAvailable =? tPacket) with false. cbv iota. rewrite Z.eqb_refl.
    rewrite avail_rt by (auto; lia). reflexivity.
  - apply send_tasks_ok in He. destruct He as [-> Hl]. cbn [concat] in *. rewrite !app_nil_r in *.
    eexists; split; [reflexivity|]. split; [exact Hl|]. split; [rewrite !zlen_app, !le_zlen; lia|].
    intros server inst _. cbn [expected type_of_msg handled].
    destruct (inst tUnavailable) eqn:Ei; [|rewrite disp_skip by exact Ei; reflexivity].
    unfold dispatch. rewrite Ei. cbn [negb andb].
    change (tUnavailable =? tPacket) with false. change (tUnavailable =? tAvailable) with false. cbv iota. rewrite Z.eqb_refl.
    rewrite idstring_rt by auto. reflexivity.
  - apply send_tasks_ok in He. destruct He as [-> Hl]. cbn [concat] in *. rewrite !app_nil_r in *.
    eexists; split; [reflexivity|]. split; [exact Hl|]. split; [rewrite !zlen_app, !le_zlen; lia|].
    intros server inst _. cbn [expected type_of_msg handled].
    destruct (inst tSubscribe) eqn:Ei; [|rewrite disp_skip by exact Ei; reflexivity].
    unfold dispatch. rewrite Ei. cbn [negb andb].
    change (tSubscribe =? tPacket) with false. change (tSubscribe =? tAvailable) with false.
    change (tSubscribe =? tUnavailable) with false. cbv iota. rewrite Z.eqb_refl.
    rewrite idstring_rt by auto. reflexivity.
  - apply send_tasks_ok in He. destruct He as [-> Hl]. cbn [concat] in *. rewrite !app_nil_r in *.
    eexists; split; [reflexivity|]. split; [exact Hl|]. split; [rewrite !zlen_app, !le_zlen; lia|].
    intros server inst _. cbn [expected type_of_msg handled].
    destruct (inst tUnsubscribe) eqn:Ei; [|rewrite disp_skip by exact Ei; reflexivity].
    unfold dispatch. rewrite Ei. cbn [negb andb].
    change (tUnsubscribe =? tPacket) with false. change (tUnsubscribe =? tAvailable) with false.
    change (tUnsubscribe =? tUnavailable) with false. change (tUnsubscribe =? tSubscribe) with false.
    cbv iota. rewrite Z.eqb_refl.
    rewrite idstring_rt by auto. reflexivity.
  - inversion He; subst b. exists []. unfold frame_of. rewrite (@zlen_nil Z), app_nil_r.
    split; [reflexivity|]. split; [unfold MAX_PAYLOAD_SIZE, PAYLOAD_SIZE_MASK; lia|]. split; [reflexivity|].
    intros server inst Hh. destruct server; [|discriminate]. cbn [expected].
    unfold dispatch. destruct (inst tInitDone); reflexivity.
  - apply send_tasks_ok in He. destruct He as [-> Hl]. cbn [concat] in *. rewrite !app_nil_r in *.
    eexists; split; [reflexivity|]. split; [exact Hl|]. split; [rewrite ?le_zlen; lia|].
    intros server inst _. cbn [expected type_of_msg handled].
    destruct (inst tSubscribeAck) eqn:Ei; [|rewrite disp_skip by exact Ei; reflexivity].
    unfold dispatch. rewrite Ei. cbn [negb andb].
    change (tSubscribeAck =? tPacket) with false. change (tSubscribeAck =? tAvailable) with false.
    change (tSubscribeAck =? tUnavailable) with false. change (tSubscribeAck =? tSubscribe) with false.
    change (tSubscribeAck =? tUnsubscribe) with false.
    cbv iota. rewrite Z.eqb_refl. rewrite id_rt by auto. reflexivity.
  - apply send_tasks_ok in He. destruct He as [-> Hl]. cbn [concat] in *. rewrite !app_nil_r in *.
    eexists; split; [reflexivity|]. split; [exact Hl|]. split; [rewrite ?le_zlen; lia|].
    intros server inst _. cbn [expected type_of_msg handled].
    destruct (inst tUnsubscribeAck) eqn:Ei; [|rewrite disp_skip by exact Ei; reflexivity].
    unfold dispatch. rewrite Ei. cbn [negb andb].
    change (tUnsubscribeAck =? tPacket) with false. change (tUnsubscribeAck =? tAvailable) with false.
    change (tUnsubscribeAck =? tUnavailable) with false. change (tUnsubscribeAck =? tSubscribe) with false.
    change (tUnsubscribeAck =? tUnsubscribe) with false. change (tUnsubscribeAck =? tSubscribeAck) with false.
    cbv iota. rewrite Z.eqb_refl. rewrite id_rt by auto. reflexivity.
  - destruct Hs as [un [c [Ha Hc]]]. apply create_mem in Hc. destruct Hc as [t [id [p [-> Hp]]]].
    rewrite send_config_eq in He by exact Hp. inversion He; subst b.
    eexists; split; [reflexivity|].
    split; [rewrite m_len; exact Hp|]. split; [reflexivity|].
    intros server inst _. cbn [expected type_of_msg handled].
    destruct (inst tConfig) eqn:Ei; [|rewrite disp_skip by exact Ei; reflexivity].
    unfold dispatch. rewrite Ei. cbn [negb andb].
    change (tConfig =? tPacket) with false. change (tConfig =? tAvailable) with false.
    change (tConfig =? tUnavailable) with false. change (tConfig =? tSubscribe) with false.
    change (tConfig =? tUnsubscribe) with false. change (tConfig =? tSubscribeAck) with false.
    change (tConfig =? tUnsubscribeAck) with false.
    cbv iota. rewrite Z.eqb_refl. rewrite cfg_rt by exact Hp. reflexivity.
  - apply send_tasks_ok in He. destruct He as [-> Hl]. cbn [concat] in *. rewrite !app_nil_r in *.
    eexists; split; [reflexivity|]. split; [exact Hl|]. split; [reflexivity|].
    intros server inst _. cbn [expected type_of_msg handled].
    destruct (inst tProps) eqn:Ei; [|rewrite disp_skip by exact Ei; reflexivity].
    unfold dispatch. rewrite Ei. cbn [negb andb].
    change (tProps =? tPacket) with false. change (tProps =? tAvailable) with false.
    change (tProps =? tUnavailable) with false. change (tProps =? tSubscribe) with false.
    change (tProps =? tUnsubscribe) with false. change (tProps =? tSubscribeAck) with false.
    change (tProps =? tUnsubscribeAck) with false. change (tProps =? tConfig) with false.
    cbv iota. rewrite Z.eqb_refl. rewrite props_rt by auto. destruct server; reflexivity.
  - inversion He; subst b. exists []. unfold frame_of. rewrite (@zlen_nil Z), app_nil_r.
    split; [reflexivity|]. split; [unfold MAX_PAYLOAD_SIZE, PAYLOAD_SIZE_MASK; lia|]. split; [reflexivity|].
    intros server inst Hh. destruct server; [discriminate|]. cbn [expected handled type_of_msg].
    unfold dispatch. destruct (inst tInitRequest); reflexivity.
Qed.

Lemma expected_continues : forall server inst m, continues (expected server inst m).
Proof.
  intros server inst m. destruct m; cbn [expected]; try (destruct server; exact I);
    match goal with |- continues (if ?c then _ else _) => destruct c; exact I end.
Qed.

Lemma type_small : forall m, 0 <= type_of_msg m < 16.
Proof. destruct m; (split; [discriminate|reflexivity]). Qed.

Lemma receive_one : forall server inst m b rest, sendable m -> wire_size m < 2 ^ 32 -> encode m = Ok b ->
  receive server inst (b ++ rest) = expected server inst m :: receive server inst rest.
Proof.
  intros server inst m b rest Hs Hw He.
  destruct (encode_frame m b Hs Hw He) as [body [-> [Hl [Hz Hd]]]].
  destruct (header_only server (type_of_msg m)) eqn:Hh.
  - assert (Hb : body = []).
    { apply zlen0. rewrite Hz. destruct m, server; cbn in Hh; try discriminate; reflexivity. }
    subst body. unfold frame_of. rewrite app_nil_r, (@zlen_nil Z).
    rewrite receive_header_only; [|apply type_small|exact Hh].
    f_equal. destruct m, server; cbn in Hh; try discriminate; cbn; [reflexivity|].
    rewrite andb_true_r. reflexivity.
  - unfold frame_of. rewrite receive_frame; [|apply type_small|exact Hl|exact Hh|].
    + rewrite Hd by exact Hh. reflexivity.
    + rewrite Hd by exact Hh. apply expected_continues.
Qed.

Lemma receive_all : forall server inst ms b,
  Forall sendable ms -> Forall (fun m => wire_size m < 2 ^ 32) ms -> encode_all ms = Ok b ->
  receive server inst b = map (expected server inst) ms.
Proof.
  intros server inst. induction ms as [|m ms IH]; intros b Hs Hw He; cbn [encode_all map] in *.
  - inversion He; subst. reflexivity.
  - inversion Hs; subst. inversion Hw; subst.
    destruct (encode m) as [a| |] eqn:Em; try discriminate. cbn [bind] in He.
    destruct (encode_all ms) as [r| |] eqn:Er; try discriminate. cbn [bind] in He. inversion He; subst.
    rewrite (receive_one server inst m a) by assumption. f_equal. apply IH; auto.
Qed.

Lemma encode_iff : forall m, sendable m -> wire_size m < 2 ^ 32 ->
  ((exists b, encode m = Ok b) <->
   wire_size m <= MAX_PAYLOAD_SIZE /\ (forall id sid ser, m = MAvailable id sid ser -> zlen sid <= 65535)).
Proof.
  intros m Hs Hw. split.
  - intros [b Hb]. destruct (encode_frame m b Hs Hw Hb) as [body [_ [Hl [Hz _]]]].
    split; [lia|]. intros id sid ser ->. cbn [encode] in Hb. destruct (zlen sid >? 65535) eqn:X; [discriminate|lia].
  - intros [Hl Ha]. destruct m; cbn [encode sendable wire_size] in *.
    + rewrite send_packet_eq by exact Hs.
      pose proof (zlen_nonneg header). pose proof (zlen_nonneg payload).
      rewrite w32_small by (change (2 ^ 32) with 4294967296 in Hw; lia).
      replace (zlen header + zlen payload >? MAX_PAYLOAD_SIZE) with false by lia. eauto.
    + replace (zlen sid >? 65535) with false by (specialize (Ha _ _ _ eq_refl); lia).
      apply send_tasks_iff. cbn [concat]. rewrite !zlen_app, !le_zlen, (@zlen_nil Z). lia.
    + apply send_tasks_iff. cbn [concat]. rewrite !zlen_app, !le_zlen, (@zlen_nil Z). lia.
    + apply send_tasks_iff. cbn [concat]. rewrite !zlen_app, !le_zlen, (@zlen_nil Z). lia.
    + apply send_tasks_iff. cbn [concat]. rewrite !zlen_app, !le_zlen, (@zlen_nil Z). lia.
    + eauto.
    + apply send_tasks_iff. cbn [concat]. rewrite !zlen_app, !le_zlen, (@zlen_nil Z). lia.
    + apply send_tasks_iff. cbn [concat]. rewrite !zlen_app, !le_zlen, (@zlen_nil Z). lia.
    + destruct Hs as [un [c [_ Hc]]]. apply create_mem in Hc. destruct Hc as [t [id [p [-> Hp]]]].
      rewrite send_config_eq by exact Hp. eauto.
    + apply send_tasks_iff. cbn [concat]. rewrite !zlen_app, (@zlen_nil Z). lia.
    + eauto.
Qed.

(** The 32-bit wrap of the packet size. *)
Definition big_header (n : Z) : list Z := [48; 1; 0; 0; 1; 0; 0; 0] ++ le 4 n ++ repeat 0 36.

Lemma big_packet_ok : forall p, 0 <= zlen p < 2 ^ 32 -> packet_ok (big_header (zlen p)) p.
Proof.
  intros p Hp. unfold packet_ok, big_header.
  assert (L : zlen ([48; 1; 0; 0; 1; 0; 0; 0] ++ le 4 (zlen p) ++ repeat 0 36) = 48).
  { rewrite !zlen_app, le_zlen. reflexivity. }
  rewrite L. split; [|split; [lia|split; [reflexivity|split; [|lia]]]].
  - apply Forall_app. split; [repeat constructor; lia|]. apply Forall_app. split; [apply le_bytes|].
    apply Forall_forall. intros x Hx. apply repeat_spec in Hx. subst. unfold is_byte; lia.
  - change (skipn 8 ?x) with (le 4 (zlen p) ++ repeat 0 36).
    apply firstn_app_exact. rewrite le_length. reflexivity.
Qed.

Lemma wrapped_packet : forall server inst p, inst tPacket = true -> zlen p = 2 ^ 32 - 48 ->
  exists b, encode (MPacket (big_header (zlen p)) p) = Ok b /\
            receive server inst b = [EStop tPacket].
Proof.
  intros server inst p Hi Hp. cbn [encode].
  rewrite send_packet_eq by (apply big_packet_ok; lia).
  assert (L : zlen (big_header (zlen p)) = 48).
  { unfold big_header. rewrite !zlen_app, le_zlen. reflexivity. }
  rewrite L, Hp. change (w32 (48 + (2 ^ 32 - 48))) with 0.
  change (0 >? MAX_PAYLOAD_SIZE) with false. cbv iota.
  eexists; split; [reflexivity|].
  unfold receive.
  assert (Hl : exists n, length (write_header tPacket 0 ++ big_header (2 ^ 32 - 48) ++ p) = S n).
  { rewrite app_length. unfold write_header. rewrite le_length. eexists; reflexivity. }
  destruct Hl as [n ->]. cbn [receive_n].
  replace (zlen (write_header tPacket 0 ++ big_header (2 ^ 32 - 48) ++ p) <? 4) with false
   by (rewrite zlen_app; unfold write_header; rewrite le_zlen; 
       pose proof (zlen_nonneg (big_header (2 ^ 32 - 48) ++ p)); lia).
  rewrite firstn_app_exact by (unfold write_header; rewrite le_length; reflexivity).
  unfold write_header at 1. rewrite unle_le by (apply pack_range; lia). rewrite unpack_pack by lia.
  rewrite skipn_app_exact by (unfold write_header; rewrite le_length; reflexivity).
  change (tPacket mod 16) with tPacket. change (0 mod 268435456) with 0.
  replace (header_only server tPacket) with false by (destruct server; reflexivity).
  replace (zlen (big_header (2 ^ 32 - 48) ++ p) <? 0) with false
   by (pose proof (zlen_nonneg (big_header (2 ^ 32 - 48) ++ p)); lia).
  change (Z.to_nat 0) with 0%nat. cbn [firstn].
  unfold dispatch. rewrite Hi. cbn [negb]. rewrite Z.eqb_refl.
  change (readPacketBuffer []) with (@Err pkt_read). cbn [bind]. reflexivity.
Qed.
