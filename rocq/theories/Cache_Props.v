(** C20: batching of packet buffers preserves the byte stream. *)
From Verif Require Import Base Bytes PStr_Model Cache_Model Cache_Spec Cache_Proofs.
Local Open Scope Z_scope.

Lemma run_plain : forall max ops n q, Inv n q -> n + zlen ops + 2 < two64 ->
  cmax q = max -> (forall b, In b (items q) -> fits (msg_of b)) ->
  (forall h p, In (QAdd h p) ops -> wf (h, p) /\ fits (h, p)) ->
  map see (snd (qrun q ops)) = map Some (snd (plain_run (map msg_of (items q)) (map plain ops)))
  /\ map msg_of (items (fst (qrun q ops))) = fst (plain_run (map msg_of (items q)) (map plain ops)).
Proof.
  induction ops as [|o r IH]; intros n q HI Hn Hm HF HW; [split; reflexivity|].
  rewrite zlen_cons in Hn. pose proof (zlen_nonneg r) as P. pose proof (i_cur _ _ HI) as PC.
  assert (HWr : forall h p, In (QAdd h p) r -> wf (h, p) /\ fits (h, p)) by (intros; apply HW; now right).
  cbn [qrun plain_run map]. destruct o as [h p| |]; cbn [qstep plain plain_step].
  - destruct (HW h p (or_introl eq_refl)) as [W F].
    destruct (add_ok n q h p HI) as (q' & b & E1 & E2 & E3 & E4 & HI'); [lia|exact W|]. rewrite E1.
    destruct (IH (n + 1) q' HI') as [R1 R2]; [lia|congruence| |exact HWr|].
    + rewrite E2. intros x X. apply in_app_or in X. destruct X as [X|[X|[]]]; auto. subst x. now rewrite E3.
    + rewrite E2, map_app in R1, R2. cbn [map] in R1, R2. rewrite E3 in R1, R2.
      destruct (qrun q' r) as [q2 xs]. destruct (plain_run (map msg_of (items q) ++ [(h, p)]) (map plain r)) as [p2 ys].
      cbn [fst snd map see] in *. split; congruence.
  - destruct (items q) as [|b l] eqn:E.
    + unfold getNextPacketBuffer. rewrite E. cbn [map].
      destruct (IH n q HI) as [R1 R2]; [lia|exact Hm|rewrite E; exact HF|exact HWr|]. rewrite E in R1, R2. cbn [map] in R1, R2.
      destruct (qrun q r) as [q2 xs]. destruct (plain_run [] (map plain r)) as [p2 ys].
      cbn [fst snd map see] in *. split; congruence.
    + destruct (next_ok n q b l HI E) as (q' & E1 & E2 & E3 & E4 & HI'). rewrite E1. cbn [map].
      destruct (IH n q' HI') as [R1 R2]; [lia|congruence| |exact HWr|].
      * rewrite E2. intros x X. apply HF. now right.
      * rewrite E2 in R1, R2. destruct (qrun q' r) as [q2 xs]. destruct (plain_run (map msg_of l) (map plain r)) as [p2 ys].
        cbn [fst snd map see] in *. split; [|congruence]. rewrite R1. reflexivity.
  - unfold getStreamingWriteTasks.
    destruct (write_ok (length (items q)) n q [] HI (le_n _)) as (q' & E3 & HI' & [[E1 E2]|[E1 (x & X1 & X2)]]).
    2:{ exfalso. apply X2. auto. }
    rewrite E1. cbn [app]. destruct (IH n q' HI') as [R1 R2]; [lia|congruence| |exact HWr|].
    + rewrite E2. intros x [].
    + rewrite E2 in R1, R2. cbn [map] in R1, R2.
      destruct (qrun q' r) as [q2 xs]. destruct (plain_run [] (map plain r)) as [p2 ys].
      cbn [fst snd map see] in *. rewrite concat_batch. split; congruence.
Qed.

(** C20: whatever is queued, taken out one by one or batched, in whatever
    order and with whatever cache setting, the bytes of the batches and the
    buffers taken out are those of a plain FIFO queue; no linear caching
    assertion fires.  (Histories of fewer than 2^64 - 2 operations; every
    buffer within the 28-bit message size.) *)
Theorem c20_byte_stream : forall max ops, zlen ops + 2 < two64 ->
  (forall h p, In (QAdd h p) ops -> wf (h, p) /\ fits (h, p)) ->
  map see (snd (qrun (queue_init max) ops)) = map Some (snd (plain_run [] (map plain ops)))
  /\ map msg_of (items (fst (qrun (queue_init max) ops))) = fst (plain_run [] (map plain ops)).
Proof.
  intros max ops Hn HW. apply (run_plain max ops 0 (queue_init max)); auto.
  - apply Inv_init.
  - intros b [].
Qed.

(** C20, grouping: a batch copies every maximal run of packets whose payload
    is at most the configured size into one write task; all other packets
    are sent as they are. *)
Theorem c20_write_tasks : forall max adds, zlen adds + 2 < two64 ->
  (forall m, In m adds -> wf m /\ fits m) ->
  snd (qrun (queue_init max) (map (fun m => QAdd (fst m) (snd m)) adds ++ [QBatch]))
  = repeat ONone (length adds) ++ [OTasks (batch max adds)].
Proof.
  intros max adds Hn HW.
  assert (H : forall adds n q, Inv n q -> n + zlen adds + 2 < two64 -> cmax q = max ->
     (forall b, In b (items q) -> fits (msg_of b)) -> (forall m, In m adds -> wf m /\ fits m) ->
     snd (qrun q (map (fun m => QAdd (fst m) (snd m)) adds ++ [QBatch]))
     = repeat ONone (length adds) ++ [OTasks (batch max (map msg_of (items q) ++ adds))]).
  { clear. induction adds as [|[h p] r IH]; intros n q HI Hn Hm HF HW.
    - cbn [map app length repeat qrun qstep]. unfold getStreamingWriteTasks.
      destruct (write_ok (length (items q)) n q [] HI (le_n _)) as (q' & E3 & HI' & [[E1 E2]|[E1 (x & X1 & X2)]]).
      + rewrite E1. cbn [app snd]. now rewrite app_nil_r, Hm.
      + exfalso. apply X2. auto.
    - rewrite zlen_cons in Hn. pose proof (zlen_nonneg r) as P. cbn [map app qrun qstep fst snd length repeat].
      destruct (HW (h, p) (or_introl eq_refl)) as [W F].
      destruct (add_ok n q h p HI) as (q' & b & E1 & E2 & E3 & E4 & HI'); [pose proof (i_cur _ _ HI); lia|exact W|]. rewrite E1.
      specialize (IH (n + 1) q' HI').
      destruct (qrun q' (map (fun m => QAdd (fst m) (snd m)) r ++ [QBatch])) as [q2 xs]. cbn [snd] in *.
      rewrite IH; [|lia|congruence| |intros; apply HW; now right].
      + rewrite E2, map_app, <- app_assoc. cbn [map app]. now rewrite E3.
      + rewrite E2. intros x X. apply in_app_or in X. destruct X as [X|[X|[]]]; auto. subst x. now rewrite E3. }
  apply (H adds 0 (queue_init max)); auto.
  - apply Inv_init.
  - intros b [].
Qed.

(** C20: with buffers of any size the assertions still never fire. *)
Theorem c20_no_assertion : forall max ops, zlen ops + 2 < two64 ->
  (forall h p, In (QAdd h p) ops -> wf (h, p)) ->
  ~ In OAssert (snd (qrun (queue_init max) ops)).
Proof.
  intros max ops Hn HW.
  assert (H : forall ops n q, Inv n q -> n + zlen ops + 2 < two64 ->
     (forall h p, In (QAdd h p) ops -> wf (h, p)) -> ~ In OAssert (snd (qrun q ops))).
  { clear. induction ops as [|o r IH]; intros n q HI Hn HW; [intros []|].
    rewrite zlen_cons in Hn. pose proof (zlen_nonneg r) as P. pose proof (i_cur _ _ HI) as PC.
    assert (HWr : forall h p, In (QAdd h p) r -> wf (h, p)) by (intros; apply HW; now right).
    assert (ST : exists m, n <= m <= n + 1 /\ Inv m (fst (qstep q o)) /\ snd (qstep q o) <> OAssert).
    { destruct o as [h p| |]; cbn [qstep].
      - destruct (add_ok n q h p HI) as (q' & b & E1 & E2 & E3 & E4 & HI'); [lia|apply HW; now left|]. rewrite E1.
        exists (n + 1). split; [lia|]. split; [exact HI'|discriminate].
      - destruct (items q) as [|b l] eqn:E.
        + unfold getNextPacketBuffer. rewrite E. exists n. split; [lia|]. split; [exact HI|discriminate].
        + destruct (next_ok n q b l HI E) as (q' & E1 & E2 & E3 & E4 & HI'). rewrite E1.
          exists n. split; [lia|]. split; [exact HI'|discriminate].
      - unfold getStreamingWriteTasks.
        destruct (write_ok (length (items q)) n q [] HI (le_n _)) as (q' & E3 & HI' & [[E1 E2]|[E1 EX]]); rewrite E1;
          exists n; (split; [lia|]); split; try exact HI'; discriminate. }
    destruct ST as (m & Hm & HI' & NA). cbn [qrun]. destruct (qstep q o) as [q' x]. cbn [fst snd] in *.
    specialize (IH m q' HI'). destruct (qrun q' r) as [q2 xs]. cbn [snd] in *. intros [X|X]; [congruence|].
    revert X. apply IH; [lia|exact HWr]. }
  apply (H ops 0 (queue_init max)); auto. apply Inv_init.
Qed.

(** Concrete batch: two small packets, a large one, a small one. *)
Example c20_example :
  let h := [12; 1; 0; 0; 1; 0; 0; 0; 2; 0; 0; 0] in
  let ops := [QAdd h [1; 2]; QAdd h []; QAdd h [1; 2; 3; 4; 5]; QAdd h [7]; QBatch; QNext] in
  (forall x y, In (QAdd x y) ops -> wf (x, y) /\ fits (x, y)) /\
  snd (qrun (queue_init 4) ops)
  = [ONone; ONone; ONone; ONone;
     OTasks [[14; 0; 0; 16] ++ h ++ [1; 2] ++ [12; 0; 0; 16] ++ h; [17; 0; 0; 16] ++ h; [1; 2; 3; 4; 5]; [13; 0; 0; 16] ++ h ++ [7]];
     OBuf None].
Proof.
  cbv zeta. split; [|vm_compute; reflexivity].
  intros x y H. repeat (destruct H as [H|H]; [inversion H; subst; clear H; unfold wf, fits; cbn; lia|]). destruct H.
Qed.

(** Finding: a packet that exceeds the message size makes the whole batch
    fail; packets queued before it have been taken out and are lost. *)
Theorem c20_oversized_packet_loses_batch_refuted :
  forall h p hb pb, wf (h, p) -> fits (h, p) -> 0 < zlen p -> wf (hb, pb) -> ~ fits (hb, pb) -> 0 < zlen pb ->
  snd (qrun (queue_init 0) [QAdd h p; QAdd hb pb; QBatch; QBatch]) = [ONone; ONone; OTooBig; OTasks []].
Proof.
  intros h p hb pb W F Hp WB NB Hpb. cbn [qrun qstep].
  unfold add at 1, getPacketCacheableGroupId, queue_init. cbn [cmax items groups cur nonc].
  destruct (Z.leb_spec (zlen p) 0); [lia|].
  set (b1 := {| hdr := h; pay := p; gid := 0 |}).
  unfold queuePacketBuffer at 1. change (cacheable b1) with false. cbn [items groups cur nonc cmax app].
  unfold add at 1, getPacketCacheableGroupId. cbn [cmax items groups cur nonc].
  destruct (Z.leb_spec (zlen pb) 0); [lia|].
  set (b2 := {| hdr := hb; pay := pb; gid := 0 |}).
  unfold queuePacketBuffer at 1. change (cacheable b2) with false. cbn [items groups cur nonc cmax app].
  unfold getStreamingWriteTasks at 1. cbn [items length write_tasks]. change (cacheable b1) with false. cbv iota.
  unfold getNextPacketBuffer at 1. cbn [items nonc]. change (cacheable b1) with false. change (0 + 1 + 1 =? 0) with false. cbv iota beta.
  unfold createTasks at 1. assert (H1 : headers b1 = Done (head_task (msg_of b1))) by (apply headers_ok; auto). rewrite H1.
  cbn [items]. change (cacheable b2) with false. cbv iota.
  unfold getNextPacketBuffer at 1. cbn [items nonc]. change (cacheable b2) with false. change (0 + 1 + 1 - 1 =? 0) with false. cbv iota beta.
  unfold createTasks at 1. destruct (headers_cases b2 WB) as [[F2 _]|[_ H2]]; [contradiction|]. rewrite H2.
  unfold getStreamingWriteTasks. cbn [items length write_tasks snd]. reflexivity.
Qed.

Example c20_oversized_exists : exists h p hb pb, wf (h, p) /\ fits (h, p) /\ 0 < zlen p /\ wf (hb, pb) /\ ~ fits (hb, pb) /\ 0 < zlen pb.
Proof.
  exists [1], [2], [1], (repeat 0 (Z.to_nat 268435455)).
  assert (L : zlen (repeat 0 (Z.to_nat 268435455)) = 268435455) by (unfold zlen; rewrite repeat_length; lia).
  unfold wf, fits. cbn [fst snd]. rewrite L. change (zlen [1]) with 1. change (zlen [2]) with 1. repeat split; lia.
Qed.

Print Assumptions c20_byte_stream.
Print Assumptions c20_write_tasks.
Print Assumptions c20_no_assertion.
Print Assumptions c20_oversized_packet_loses_batch_refuted.
