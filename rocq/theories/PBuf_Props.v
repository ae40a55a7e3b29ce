(** C05, C06: packet buffer. Statements only; proofs in PBuf_Proofs.v. *)
From Verif Require Import Base PBuf_Model PBuf_Spec PBuf_Proofs.
Local Open Scope Z_scope.

(** C05: for every sequence of creations (of a positive byte count that fits size_t), releases in any
    order and resizes, the memory of the live packets lies inside the buffer and is pairwise disjoint. *)
Theorem c05_live_packets_disjoint_partial : forall n ops, 0 <= n -> Forall proper ops ->
  let s := run (sinit n) ops in
  Forall (in_bounds (size (buf s))) (live s) /\ all_disjoint (live s).
Proof. exact pbuf_disjoint. Qed.

(** C05: a resize only completes when no packet is alive. *)
Theorem c05_resize_waits_for_packets : forall n ops m, 0 <= n -> Forall proper ops ->
  let s := run (sinit n) ops in snd (resizeEnd s m) = Resized -> live s = [].
Proof. exact pbuf_resize_safe. Qed.

(** C05 without the positive-size condition is false: a zero-sample packet lets two live packets share bytes. *)
Theorem c05_zero_sample_packet_overlap_refuted : exists ops,
  Forall (fun o => match o with Create _ c r => 0 <= c * r < two64 | _ => True end) ops /\
  ~ all_disjoint (live (run (sinit 4) ops)).
Proof.
  exists [Create true 2 1; Create true 0 1; Create true 2 1; Release 0; Create true 2 1; Release 0; Create true 2 1].
  split; [repeat constructor; vm_compute; discriminate|].
  intros H. vm_compute in H. inversion H as [|? ? A B]; subst. inversion A as [|? ? C D]; subst. inversion D as [|? ? E F]; subst.
  vm_compute in E. destruct E as [E|E]; apply E; reflexivity.
Qed.

(** C05 without the no-overflow condition is false: the byte count wraps and the packet exceeds the buffer. *)
Theorem c05_size_overflow_refuted : exists ops,
  Forall (fun o => match o with Create _ c r => 0 <= c < two64 /\ 0 < r < two64 | _ => True end) ops /\
  ~ Forall (in_bounds 8) (live (run (sinit 8) ops)).
Proof.
  exists [Create true (2 ^ 63 + 1) 2]. split.
  - repeat constructor; vm_compute; try reflexivity; discriminate.
  - intros H. vm_compute in H. inversion H as [|? ? A B]; subst. destruct A as [_ A]. vm_compute in A. apply A. reflexivity.
Qed.

(** C06: in every state, a request is granted exactly when it does not exceed the reported count. *)
Theorem c06_create_iff_reported : forall s cnt raw m,
  1 <= cnt -> 1 <= raw -> cnt * raw < two64 -> underReset (buf s) = false ->
  getMaxAvailableContinousSampleCount (buf s) raw = Some m ->
  (is_created (snd (createPacket s true cnt raw)) = true <-> cnt <= m).
Proof. exact pbuf_reported. Qed.

(** C06: when packets are released oldest first and none is alive, any request of at most half the
    buffer is granted and a pending resize completes, whatever happened before. *)
Theorem c06_fifo_no_leak_partial : forall n ops cnt raw, 0 <= n -> Forall proper ops -> Forall fifo ops ->
  let s := run (sinit n) ops in
  live s = [] -> underReset (buf s) = false -> 0 < cnt * raw < two64 -> 2 * (cnt * raw) <= size (buf s) ->
  is_created (snd (createPacket s true cnt raw)) = true.
Proof. exact pbuf_fifo_half. Qed.
Theorem c06_fifo_resize_completes_partial : forall n ops m, 0 <= n -> Forall proper ops -> Forall fifo ops ->
  let s := run (sinit n) ops in
  live s = [] -> underReset (buf s) = true -> snd (resizeEnd s m) = Resized.
Proof. exact pbuf_fifo_resize. Qed.

(** C06 for other release orders is false: after this history no packet is alive, and from then on
    no request for any size ever succeeds, whatever is done. *)
Theorem c06_out_of_order_leak_refuted : exists ops, Forall proper ops /\ live (run (sinit 3) ops) = [] /\
  forall more o, is_created (snd (step (run (run (sinit 3) ops) more) o)) = false.
Proof.
  exists leak_trace. split; [repeat constructor; vm_compute; reflexivity|]. exact pbuf_leak.
Qed.

(** C06: "an empty buffer grants a request of its full size" is false (fragmentation at the end). *)
Theorem c06_full_size_after_drain_refuted : exists ops, Forall proper ops /\ Forall fifo ops /\
  let s := run (sinit 4) ops in live s = [] /\ size (buf s) = 4 /\ is_created (snd (createPacket s true 4 1)) = false.
Proof.
  exists [Create true 2 1; Release 0]. repeat split; try (repeat constructor; vm_compute; reflexivity).
Qed.

(** C06: getAvailableSampleCount over-reports: here 1 byte is free and 4 are reported. *)
Theorem c06_available_count_refuted : exists ops, Forall proper ops /\
  let s := run (sinit 4) ops in
  fold_right Z.add 0 (map pk_bytes (live s)) = 3 /\ getAvailableSampleCount (buf s) 1 = Some 4.
Proof. exists [Create true 3 1]. split; [repeat constructor; vm_compute; reflexivity|]. split; reflexivity. Qed.

(** Non-vacuity: a wrapped buffer with two live packets meets the hypotheses. *)
Example ex_disjoint :
  let ops := [Create true 3 2; Create true 2 1; Release 0; Create true 1 4; ResizeBegin] in
  Forall proper ops /\ live (run (sinit 8) ops) =
    [{| pk_addr := 6; pk_size := 2; pk_bytes := 2 |}; {| pk_addr := 0; pk_size := 4; pk_bytes := 4 |}].
Proof. split; [repeat constructor; vm_compute; reflexivity|reflexivity]. Qed.
Example ex_reported : getMaxAvailableContinousSampleCount (buf (run (sinit 8) [Create true 3 2])) 2 = Some 1.
Proof. reflexivity. Qed.
Example ex_fifo :
  let ops := [Create true 3 2; Create true 2 1; Release 0; Create true 1 4; Release 0; Release 0] in
  Forall proper ops /\ Forall fifo ops /\ live (run (sinit 8) ops) = [] /\ underReset (buf (run (sinit 8) ops)) = false.
Proof. repeat split; repeat constructor; vm_compute; reflexivity. Qed.

Print Assumptions c05_live_packets_disjoint_partial.
Print Assumptions c05_resize_waits_for_packets.
Print Assumptions c05_zero_sample_packet_overlap_refuted.
Print Assumptions c05_size_overflow_refuted.
Print Assumptions c06_create_iff_reported.
Print Assumptions c06_fifo_no_leak_partial.
Print Assumptions c06_fifo_resize_completes_partial.
Print Assumptions c06_out_of_order_leak_refuted.
Print Assumptions c06_full_size_after_drain_refuted.
Print Assumptions c06_available_count_refuted.
