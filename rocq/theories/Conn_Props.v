(** Property theorems for the connection: C01, C02, C03, C04. *)
From Verif Require Import Base Conn_Model Conn_Spec Conn_Proofs Conn_Gap.
Local Open Scope Z_scope.

(** C01: without gap checking, what the consumer gets is exactly what was accepted, in order.
    [enqueueLastDescriptor] (which deliberately puts an event in front) is excluded. *)
Theorem c01_lossless_fifo : forall ops,
  (forall o, In o ops -> isLastDescOp o = false) ->
  stream false ops = accepted (trace false ops).
Proof. exact conn_lossless_nogap. Qed.
Print Assumptions c01_lossless_fifo.

(** C01 with gap checking on or off: apart from gap packets, the same. *)
Theorem c01_lossless_fifo_gapcheck : forall g ops,
  (forall o, In o ops -> isLastDescOp o = false) ->
  filter (fun p => negb (isGap p)) (stream g ops) = filter (fun p => negb (isGap p)) (accepted (trace g ops)).
Proof. exact conn_lossless_gap. Qed.
Print Assumptions c01_lossless_fifo_gapcheck.

(** C01 for every history whatsoever: the data packets are delivered exactly once, in order. *)
Theorem c01_data_lossless : forall g ops,
  filter isData (stream g ops) = filter isData (accepted (trace g ops)).
Proof. exact conn_data_lossless. Qed.
Print Assumptions c01_data_lossless.

(** C01: what was handed out once is never changed by later calls. *)
Theorem c01_delivered_monotone : forall g ops more,
  exists rest, delivered (trace g (ops ++ more)) = delivered (trace g ops) ++ rest.
Proof. exact delivered_in_order. Qed.
Print Assumptions c01_delivered_monotone.

(** C01: a refused enqueue changes nothing. *)
Theorem c01_refused_enqueue_unchanged : forall c m a p,
  o_res (snd (step c (Enq m a p))) <> Success -> step c (Enq m a p) = (c, snd (step c (Enq m a p))).
Proof. exact refused_unchanged. Qed.
Print Assumptions c01_refused_enqueue_unchanged.

(** C01: which packets are accepted (gap checking off): everything while the port is active,
    only events while it is not. *)
Theorem c01_acceptance : forall ops m a p,
  let c := final false ops in
  o_res (snd (step c (Enq m a p))) = (if a || isEventPacket p then Success else Ignored).
Proof. exact accept_rule_nogap. Qed.
Print Assumptions c01_acceptance.

Theorem c01_acceptance_multiple : forall c a ps,
  o_res (snd (step c (EnqMultiple a ps))) = (if a then Success else Ignored).
Proof. exact accept_multi. Qed.
Print Assumptions c01_acceptance_multiple.

(** C01: peek shows the packet the next dequeue returns and changes nothing. *)
Theorem c01_peek : forall c,
  fst (step c Peek) = c /\ o_packets (snd (step c Peek)) = o_packets (snd (step c Deq)) /\
  o_res (snd (step c Peek)) = o_res (snd (step c Deq)).
Proof. exact peek_next. Qed.
Print Assumptions c01_peek.

Definition d1 := {| dd_id := 1; dd_linear := true; dd_delta := 2; dd_type := DSInt64 |}.
Definition ex_ops : list op :=
  [Enq MEnqueue true (DescEv (Some 7%nat) (PDesc d1));
   Enq MEnqueue true (Data 1 3 (Some (0, 3%nat)));
   Deq;
   Enq MEnqueue false (DescEv (Some 8%nat) PUnchanged);
   Enq MEnqueue false (Data 2 3 (Some (6, 3%nat)));   (* inactive port: dropped *)
   Enq MEnqueue true (Data 3 4 (Some (20, 4%nat)));   (* gap of 14 *)
   Deq; Deq].

Example c01_example :
  stream false ex_ops = [DescEv (Some 7%nat) (PDesc d1); Data 1 3 (Some (0, 3%nat)); DescEv (Some 8%nat) PUnchanged; Data 3 4 (Some (20, 4%nat))]
  /\ (forall o, In o ex_ops -> isLastDescOp o = false).
Proof. split; [reflexivity|]. intros o H. cbn in H. repeat (destruct H as [<-|H]; [reflexivity|]). destruct H. Qed.

(** Unlike enqueue, enqueueMultiple drops event packets too while the port is inactive (F06):
    a descriptor change sent that way never reaches the consumer. *)
Theorem c01_enqueueMultiple_drops_events_refuted : exists p,
  isEventPacket p = true /\
  stream false [Enq MEnqueue false p] = [p] /\ stream false [EnqMultiple false [p]] = [].
Proof. exists (DescEv (Some 7%nat) (PDesc d1)). repeat split. Qed.
Print Assumptions c01_enqueueMultiple_drops_events_refuted.

(** C02: the reported numbers are those of the queue, if only data packets and descriptor events
    are offered and, when gap checking is on, packets are removed one at a time. The two bounds
    (fewer than 2^64 packets and samples) exclude wrap-around of the counters. *)
Theorem c02_counters_exact_partial : forall g ops, (forall o, In o ops -> op_ok g o) ->
  let c := final g ops in
  Z.of_nat (length (packets c)) < two64 -> total_samples (packets c) < two64 ->
  getPacketCount c = length (packets c) /\
  getAvailableSamples c = total_samples (packets c) /\
  hasEventPacket c = existsb isEventPacket (packets c) /\
  hasGapPacket c = existsb isGap (packets c) /\
  getSamplesUntilNextEventPacket c = total_samples (before_first isEventPacket (packets c)) /\
  getSamplesUntilNextDescriptor c = total_samples (before_first isDesc (packets c)) /\
  getSamplesUntilNextGapPacket c = total_samples (before_first isGap (packets c)).
Proof. exact counters_exact. Qed.
Print Assumptions c02_counters_exact_partial.

(** C02: the number of available samples is right (modulo 2^64) in every history. *)
Theorem c02_available_samples : forall g ops,
  getAvailableSamples (final g ops) = w64 (total_samples (packets (final g ops))).
Proof. exact samples_always. Qed.
Print Assumptions c02_available_samples.

Example c02_example : (forall o, In o ex_ops -> op_ok true o) /\
  packets (final true (firstn 6 ex_ops)) = [Data 1 3 (Some (0, 3%nat)); DescEv (Some 8%nat) PUnchanged; GapEv 14; Data 3 4 (Some (20, 4%nat))] /\
  getSamplesUntilNextGapPacket (final true (firstn 6 ex_ops)) = 3.
Proof.
  split; [|split; reflexivity].
  intros o H. cbn in H. repeat (destruct H as [<-|H]; [split; reflexivity|]). destruct H.
Qed.

(** C02 as stated is false of the code: after dequeueAll removed a gap packet the
    empty connection still reports an event and a gap packet (finding F01). *)
Theorem c02_dequeueAll_refuted : exists ops,
  packets (final true ops) = [] /\ hasEventPacket (final true ops) = true /\ hasGapPacket (final true ops) = true.
Proof.
  exists [Enq MEnqueue true (DescEv (Some 7%nat) (PDesc d1)); Enq MEnqueue true (Data 1 3 (Some (0, 3%nat)));
          Enq MEnqueue true (Data 3 4 (Some (20, 4%nat))); DeqAll].
  repeat split; reflexivity.
Qed.
Print Assumptions c02_dequeueAll_refuted.

(** ... the same after dequeueUpTo (F01) ... *)
Theorem c02_dequeueUpTo_refuted : exists ops,
  packets (final true ops) = [] /\ hasGapPacket (final true ops) = true.
Proof.
  exists [Enq MEnqueue true (DescEv (Some 7%nat) (PDesc d1)); Enq MEnqueue true (Data 1 3 (Some (0, 3%nat)));
          Enq MEnqueue true (Data 3 4 (Some (20, 4%nat))); DeqUpTo 10].
  repeat split; reflexivity.
Qed.
Print Assumptions c02_dequeueUpTo_refuted.

(** ... after one custom event went through (F02) ... *)
Theorem c02_custom_event_refuted : exists ops,
  packets (final false ops) = [] /\ hasEventPacket (final false ops) = true.
Proof. exists [Enq MEnqueue true (OtherEv 1); Deq]. split; reflexivity. Qed.
Print Assumptions c02_custom_event_refuted.

(** ... and a queued gap packet can even be hidden (F03): a gap event that came in through
    enqueueMultiple is counted as an event but uncounted as a gap. *)
Theorem c02_hidden_gap_refuted : exists ops,
  existsb isGap (packets (final true ops)) = true /\ hasGapPacket (final true ops) = false.
Proof.
  exists [Enq MEnqueue true (DescEv (Some 7%nat) (PDesc d1)); Enq MEnqueue true (Data 1 3 (Some (0, 3%nat)));
          EnqMultiple true [GapEv 5]; Deq; Deq; Deq; Enq MEnqueue true (Data 3 4 (Some (20, 4%nat)))].
  split; reflexivity.
Qed.
Print Assumptions c02_hidden_gap_refuted.

(** C03: if "nothing left" is only concluded from a failing single dequeue, no wake-up is lost:
    whenever packets are queued the listener was notified since. The interleaving of the
    listener's calls with enqueues is arbitrary. *)
Theorem c03_no_lost_wakeup_partial : forall g ops,
  (forall o, In o ops -> isLastDescOp o = false) ->
  packets (final g ops) <> [] -> woken drained_by_dequeue (trace g ops) = true.
Proof. exact no_lost_wakeup. Qed.
Print Assumptions c03_no_lost_wakeup_partial.

Example c03_example : packets (final true (firstn 6 ex_ops)) <> [] /\ woken drained_by_dequeue (trace true (firstn 6 ex_ops)) = true
  /\ woken drained_by_dequeue (trace false (ex_ops ++ [Deq; Deq])) = false.
Proof. split; [discriminate|split; reflexivity]. Qed.

(** C03 as stated is false (F04): dequeueAll answers NO_MORE_ITEMS, yet the next enqueue does not
    notify a listener that uses the "queue was empty" method. *)
Theorem c03_dequeueAll_lost_wakeup_refuted : exists ops,
  packets (final false ops) <> [] /\ woken drained_by_any (trace false ops) = false.
Proof.
  exists [Enq MEnqueue true (Data 1 3 None); DeqAll; Enq MEnqueue true (Data 2 3 None)].
  split; [discriminate|reflexivity].
Qed.
Print Assumptions c03_dequeueAll_lost_wakeup_refuted.

(** C04, only if: every gap packet in the consumer's stream sits directly in front of a data packet
    whose domain offset differs, by exactly the reported amount, from the end of the previous
    data packet, with no domain change in between. [pure_ops] excludes enqueueMultiple and
    enqueueLastDescriptor. *)
Theorem c04_gap_only_if_partial : forall ops l1 g l2, pure_ops ops -> stream true ops = l1 ++ GapEv g :: l2 ->
  exists l0 ida sa oa na m idb sb ob nb l3 dl,
    l1 = l0 ++ Data ida sa (Some (oa, na)) :: m /\ l2 = Data idb sb (Some (ob, nb)) :: l3 /\
    (forall p, In p m -> isData p = false) /\ (forall p, In p m -> changes_domain p = false) /\
    checkable (domain_after l0) = Some dl /\ g = ob - (oa + Z.of_nat na * dl) /\ g <> 0.
Proof. exact gap_only_if. Qed.
Print Assumptions c04_gap_only_if_partial.

(** C04, if: between two consecutive data packets of one linear integer domain there is a gap packet
    exactly if the second does not start where the first ended. *)
Theorem c04_gap_if_partial : forall ops l1 ida sa oa na m idb sb ob nb l3 dl, pure_ops ops ->
  stream true ops = l1 ++ Data ida sa (Some (oa, na)) :: m ++ Data idb sb (Some (ob, nb)) :: l3 ->
  (forall p, In p m -> isData p = false) -> (forall p, In p m -> changes_domain p = false) ->
  checkable (domain_after l1) = Some dl ->
  let g := ob - (oa + Z.of_nat na * dl) in
  (g = 0 -> forall p, In p m -> isGap p = false) /\
  (g <> 0 -> exists m', m = m' ++ [GapEv g] /\ forall p, In p m' -> isGap p = false).
Proof. exact gap_if. Qed.
Print Assumptions c04_gap_if_partial.

Example c04_example : pure_ops ex_ops /\
  stream true ex_ops = [DescEv (Some 7%nat) (PDesc d1)] ++ Data 1 3 (Some (0, 3%nat)) ::
     [DescEv (Some 8%nat) PUnchanged; GapEv 14] ++ Data 3 4 (Some (20, 4%nat)) :: [] /\
  checkable (domain_after [DescEv (Some 7%nat) (PDesc d1)]) = Some 2.
Proof.
  split; [|split; reflexivity].
  intros o H. cbn in H. repeat (destruct H as [<-|H]; [split; reflexivity|]). destruct H.
Qed.

(** C04 is false if packets are sent with enqueueMultiple (F05): the gap goes unreported. *)
Theorem c04_enqueueMultiple_refuted : exists ops,
  stream true ops = [DescEv (Some 7%nat) (PDesc d1); Data 1 3 (Some (0, 3%nat)); Data 2 3 (Some (100, 3%nat))].
Proof.
  exists [Enq MEnqueue true (DescEv (Some 7%nat) (PDesc d1));
          EnqMultiple true [Data 1 3 (Some (0, 3%nat)); Data 2 3 (Some (100, 3%nat))]].
  reflexivity.
Qed.
Print Assumptions c04_enqueueMultiple_refuted.
