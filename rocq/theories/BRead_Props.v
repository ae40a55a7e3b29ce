(** C23: the block reader returns consecutive (overlapping) blocks. *)
From Verif Require Import Base BRead_Model BRead_Spec BRead_Step BRead_Proofs.
Local Open Scope Z_scope.

(** Every call answers as the ideal reader does, for every block size, overlap and
    sequence of reads, if no more blocks are asked for than the reader says there
    are and, with overlap, the packets have one size that is at most the distance
    of two blocks.  The refuted theorems below show what happens otherwise. *)
Theorem c23_refines_ideal_partial : forall c h o, good_history c (o :: h) ->
  snd (step c (after c h) o) = snd (istep c (iafter c h) o).
Proof. intros c h o Hg. exact (proj1 (step_R c o h Hg (history_R c h (good_tail _ _ _ Hg)))). Qed.

(** As long as no event is received, the values returned by all reads together are
    the blocks number 0, 1, 2, ... of the received samples, as many as were asked for. *)
Theorem c23_blocks_partial : forall c h, good_history c h -> only_data h ->
  returned_values c h = flat_map (block c (received_values h)) (seq 0 (asked h)).
Proof. intros c h Hg Ho. exact (proj1 (returned_blocks c h Hg Ho)). Qed.

(** Without overlap they are contiguous: the beginning of what was received. *)
Theorem c23_contiguous_partial : forall c h, good_history c h -> only_data h -> shared c = 0 ->
  returned_values c h = firstn (Z.to_nat (Z.of_nat (asked h) * blockSize c)) (received_values h) /\
  Z.of_nat (asked h) * blockSize c <= len (received_values h).
Proof.
  intros c h Hg Ho Hs. destruct (returned_blocks c h Hg Ho) as [H1 H2]. assert (Hb : 0 < blockSize c) by apply (proj1 Hg).
  assert (Hh : hop c = blockSize c) by (unfold hop; lia). rewrite Hh in H2.
  assert (Hn : Z.of_nat (asked h) * blockSize c <= len (received_values h)) by (destruct H2 as [->|H2]; [unfold len; lia|lia]).
  split; [|exact Hn]. rewrite H1. apply blocks_contiguous; auto.
Qed.

(** ** What does not hold *)
Definition data (l : list Z) : op := Receive (Data {| smp := l; dom := None |}).
Definition conf (b o : Z) : config := {| blockSize := b; overlap := o; skipEvents := false |}.

(** packets of one size, larger than the distance of two blocks: too much of the
    queue is dropped and the iterator is moved before its beginning *)
Theorem c23_large_packets_refuted : exists c h, well_configured c /\ Forall good_packet (packets_of h) /\ asks_available c (Read 1 :: h) /\ only_data h /\
  (exists z, Forall (fun p => match p with Data x => len (smp x) = z | _ => True end) (packets_of h)) /\
  snd (step c (after c h) (Read 1)) = Undefined.
Proof.
  exists (conf 5 80), [Read 1; data [9;10;11;12]; data [5;6;7;8]; data [1;2;3;4]].
  split; [vm_compute; intuition congruence|]. split; [repeat constructor; cbn; congruence|]. split; [vm_compute; intuition congruence|].
  split; [intros p; cbn; intros [<-|[<-|[<-|[]]]]; eauto|]. split; [exists 4; repeat constructor|vm_compute; reflexivity].
Qed.

(** packets of different sizes: the second block starts at the wrong sample *)
Theorem c23_unequal_packets_refuted : exists c h x, well_configured c /\ Forall good_packet (packets_of h) /\ asks_available c (Read 1 :: h) /\ only_data h /\
  snd (step c (after c h) (Read 1)) = Returned x /\ count x = 1 /\ asked h = 1%nat /\ vals x <> block c (received_values h) 1.
Proof.
  exists (conf 6 50), [Read 1; data [9;10;11;12]; data [7;8]; data [5;6]; data [1;2;3;4]], {| vals := [2;3;4;5;6;7]; domain := []; count := 1; event := None; valid := true |}.
  split; [vm_compute; intuition congruence|]. split; [repeat constructor; cbn; congruence|]. split; [vm_compute; intuition congruence|].
  split; [intros p; cbn; intros [<-|[<-|[<-|[<-|[]]]]]; eauto|]. split; [vm_compute; reflexivity|]. split; [reflexivity|]. split; [reflexivity|vm_compute; congruence].
Qed.

(** asked for a block when there is less, the reader writes what there is; the next
    call then writes past the end of a buffer for the one block it was asked for *)
Theorem c23_short_read_refuted : exists c h x, well_configured c /\ Forall good_packet (packets_of h) /\ only_data h /\ shared c = 0 /\
  1 <= getAvailableCount c (after c h) /\ snd (step c (after c h) (Read 1)) = Returned x /\ len (vals x) > 1 * blockSize c.
Proof.
  exists (conf 4 0), [data [3;4;5;6;7;8;9;10;11;12;13;14]; Read 1; data [1;2]], {| vals := [3;4;5;6;7;8;9;10;11;12;13;14]; domain := []; count := 3; event := None; valid := true |}.
  split; [vm_compute; intuition congruence|]. split; [repeat constructor; cbn; congruence|]. split; [intros p; cbn; intros [<-|[<-|[]]]; eauto|].
  split; [reflexivity|]. split; [vm_compute; congruence|]. split; [vm_compute; reflexivity|reflexivity].
Qed.

(** the blocks still to come are not all counted *)
Theorem c23_available_refuted : exists c h x, good_history c h /\ only_data h /\ getAvailableCount c (after c h) = 0 /\
  snd (step c (after c h) (Read 1)) = Returned x /\ count x = 1.
Proof.
  exists (conf 4 75), [Read 1; data [6]; data [5]; data [4]; data [3]; data [2]; data [1]], {| vals := [2;3;4;5]; domain := []; count := 1; event := None; valid := true |}.
  split; [split; [vm_compute; intuition congruence|split; [repeat constructor; cbn; congruence|split; [right; exists 1; split; [vm_compute; intuition congruence|repeat constructor]|split; [intros H; discriminate H|split; [vm_compute; reflexivity|vm_compute; intuition congruence]]]]]|].
  split; [intros p; cbn; intros [<-|[<-|[<-|[<-|[<-|[<-|[]]]]]]]; eauto|]. split; [reflexivity|]. split; [vm_compute; reflexivity|reflexivity].
Qed.

(** a packet without samples makes the reader divide by zero *)
Theorem c23_empty_packet_refuted : exists c h, well_configured c /\ only_data h /\ 1 <= getAvailableCount c (after c h) /\ snd (step c (after c h) (Read 1)) = Undefined.
Proof.
  exists (conf 4 50), [data [3;4;5;6]; data []; data [1;2]]. split; [vm_compute; intuition congruence|].
  split; [intros p; cbn; intros [<-|[<-|[<-|[]]]]; eauto|]. split; [vm_compute; congruence|vm_compute; reflexivity].
Qed.

(** ** The hypotheses are met *)
Definition both (l d : list Z) : op := Receive (Data {| smp := l; dom := Some d |}).
Definition h1 : list op :=
  [Read 1; both [13;14;15;16] [30;31;32;33]; ReadWithDomain 1; Read 1; Receive Gap; both [11] [21]; Receive (Desc true); both [8;9;10] [18;19;20]; ReadWithDomain 2; both [4;5;6;7] [14;15;16;17]; both [1;2;3] [11;12;13]].
Definition c1 : config := {| blockSize := 3; overlap := 0; skipEvents := true |}.
Example c23_ex_no_overlap : good_history c1 h1 /\ map (fun k => snd (step c1 (after c1 (skipn (S k) h1)) (nth k h1 (Read 0)))) [8;3;2;0]%nat =
  [Returned {| vals := [1;2;3;4;5;6]; domain := [11;12;13;14;15;16]; count := 2; event := None; valid := true |};
   Returned {| vals := [7;8;9]; domain := []; count := 1; event := None; valid := true |};
   Returned {| vals := [10;11]; domain := [20;21]; count := 0; event := Some Gap; valid := true |};
   Returned {| vals := [13;14;15]; domain := []; count := 1; event := None; valid := true |}].
Proof.
  split; [|vm_compute; reflexivity].
  split; [vm_compute; intuition congruence|]. split; [repeat constructor; cbn; try congruence; intros d [= <-]; reflexivity|].
  split; [now left|]. split; [intros _ H; cbn in H; intuition congruence|]. split; [vm_compute; reflexivity|].
  unfold h1. cbn [asks_available]. repeat match goal with |- _ /\ _ => split end; try exact I; try (vm_compute; congruence); apply Forall_forall; intros p Hp; cbn in Hp; repeat (destruct Hp as [<-|Hp]; [first [exact I|cbn; congruence]|]); destruct Hp.
Qed.
Definition h2 : list op := [Read 2; both [9;10] [19;20]; both [7;8] [17;18]; ReadWithDomain 1; both [5;6] [15;16]; both [3;4] [13;14]; both [1;2] [11;12]].
Definition c2 : config := conf 4 50.
Example c23_ex_overlap : good_history c2 h2 /\ only_data h2 /\ asked h2 = 3%nat /\ returned_values c2 h2 = [1;2;3;4; 3;4;5;6; 5;6;7;8].
Proof.
  split; [|split; [intros p; cbn; intuition; subst; eauto|split; [reflexivity|vm_compute; reflexivity]]].
  split; [vm_compute; intuition congruence|]. split; [repeat constructor; cbn; try congruence; intros d [= <-]; reflexivity|].
  split; [right; exists 2; split; [vm_compute; intuition congruence|repeat constructor]|]. split; [intros H; discriminate H|]. split; [vm_compute; reflexivity|].
  unfold h2. cbn [asks_available]. repeat match goal with |- _ /\ _ => split end; try exact I; try (vm_compute; congruence); apply Forall_forall; intros p Hp; cbn in Hp; repeat (destruct Hp as [<-|Hp]; [first [exact I|cbn; congruence]|]); destruct Hp.
Qed.

Print Assumptions c23_refines_ideal_partial.
Print Assumptions c23_blocks_partial.
Print Assumptions c23_contiguous_partial.
Print Assumptions c23_large_packets_refuted.
Print Assumptions c23_unequal_packets_refuted.
Print Assumptions c23_short_read_refuted.
Print Assumptions c23_available_refuted.
Print Assumptions c23_empty_packet_refuted.
