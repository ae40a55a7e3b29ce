(** Theorems about the multi reader. *)
From Coq Require Import List Bool ZArith Lia.
From Verif Require Import MRead_Model MRead_Spec MRead_Proofs MRead_Start MRead_Hole.
Import ListNotations.
Open Scope Z_scope.

(** Signals whose packets follow one another without holes: between two events the
    calls hand out consecutive pieces, the same span of time of every signal,
    beginning at a multiple of the grid; nothing is handed out twice, left out or
    written to the buffers of another call, and no call fails to return. Provided
    that the counts handed out are multiples of the dividers ([whole]). *)
Theorem c49_aligned_partial : forall D G ss c h r xs,
  0 < G -> matched D ss -> grid c = Some G -> min_read c <= 1 ->
  Forall sensible h -> steady ss h -> accepted h ->
  run c h (fresh ss) = (r, xs) -> whole ss xs ->
  story D G ss None (combine h xs) /\ length xs = length h.
Proof. exact aligned. Qed.

(** With signals of one rate the proviso always holds. *)
Theorem c49_one_rate : forall D G ss c h r xs,
  0 < G -> matched D ss -> (forall u k d, In (u, k, d) ss -> k = 1) -> grid c = Some G -> min_read c <= 1 ->
  Forall sensible h -> steady ss h -> accepted h ->
  run c h (fresh ss) = (r, xs) ->
  story D G ss None (combine h xs) /\ length xs = length h.
Proof.
  intros D G ss c h r xs HG HM H1 Hc Hm Sn Sd Ac E. refine (aligned D G ss c h r xs HG HM Hc Hm Sn Sd Ac E _).
  intros n w to evs ok k d _ I. rewrite (H1 _ _ _ I). exists n. lia.
Qed.

(** What is said to be available can be read at once and in full. *)
Theorem c49_available_is_read : forall D G ss c h r xs r1 a,
  0 < G -> matched D ss -> (forall u k d, In (u, k, d) ss -> u = true) -> grid c = Some G -> min_read c <= 1 ->
  Forall sensible h -> steady ss h -> accepted h ->
  run c h (fresh ss) = (r, xs) -> whole ss xs ->
  step c Avail r = (r1, AvailIs a) -> 0 < a ->
  exists r2 w, step c (Read false false a None) r1 = (r2, Got a w Mine [] true).
Proof. exact available_is_read. Qed.

(** Each signal recorded from a_i to b_i before the first read: the first read
    reports the descriptors, the second begins at the first multiple of the grid
    that is not before the latest a_i. *)
Theorem c49_starts_at_latest : forall D G ss c h rs r xs m T n,
  0 < G -> matched D ss -> (forall u k d, In (u, k, d) ss -> u = true) -> grid c = Some G -> min_read c <= 1 ->
  (forall o, In o h -> exists i p, o = Push i p) -> accepted h ->
  length rs = length ss ->
  (forall i k d a b, nth_error ss i = Some (true, k, d) -> nth_error rs i = Some (a, b) ->
     recording d a b (of_signal i (arrived h)) /\ T + d <= b) ->
  latest (map fst rs) m -> 0 <= m -> first_multiple G m T ->
  run c h (fresh ss) = (r, xs) -> 0 <= n ->
  exists r1 w evs, step c (Read false false n None) r = (r1, Got 0 w Mine evs true) /\ evs <> []
   /\ (forall y, In y w -> y = [])
   /\ forall n2, 0 < n2 -> (forall k d, In (true, k, d) ss -> (k | n2)) ->
      exists r2 got w2, step c (Read false false n2 None) r1 = (r2, Got got w2 Mine [] true) /\ 0 < got <= n2
      /\ (n2 < 2 ^ 64 -> (forall i k d a b, nth_error ss i = Some (true, k, d) -> nth_error rs i = Some (a, b) -> T + d + D * n2 <= b) ->
          got = n2)
      /\ ((forall k d, In (true, k, d) ss -> (k | got)) -> exists ts nx, piece got T ss ts w2 nx).
Proof. exact starts. Qed.

(** Once a descriptor was refused, no call returns a sample any more, and every
    status says so. *)
Theorem c49_invalid_for_ever : forall c ss h xs1 n w to evs xs2 n' w' to' evs' ok',
  snd (run c h (fresh ss)) = xs1 ++ Got n w to evs false :: xs2 -> In (Got n' w' to' evs' ok') xs2 -> n' = 0 /\ ok' = false.
Proof.
  intros c ss h xs1 n w to evs xs2 n' w' to' evs' ok' E I. pose proof (false_for_ever _ _ _ _ _ _ _ _ _ E) as F. rewrite Forall_forall in F. exact (F _ I).
Qed.

(* ---------- what does not hold ---------- *)
Definition desc : pkt := Desc false true.
Definition get (n : Z) : op := Read false false n None.
Definition cfg1 : cfg := mkCfg (Some 1) 1.
Definition two : list shape := [(true, 1, 1); (true, 1, 1)].
Definition fast_slow : list shape := [(true, 1, 1); (true, 2, 2)].
Definition says (c : cfg) (ss : list shape) (h : list op) : list outcome := snd (run c h (fresh ss)).

(** Different rates: asking for more than there is takes a number that is not a
    multiple of the divider, and from then on the signals are apart. *)
Theorem c49_rates_drift_refuted : exists c ss h r xs,
  matched 1 ss /\ grid c = Some 1 /\ min_read c <= 1 /\ Forall sensible h /\ steady ss h /\ accepted h
  /\ (forall n, In (Read false false n None) h -> (2 | n))
  /\ run c h (fresh ss) = (r, xs)
  /\ In (Got 2 [[3; 4]; [2]] Mine [] true) xs
  /\ ~ exists T ts nx, piece 2 T ss ts [[3; 4]; [2]] nx.
Proof.
  exists cfg1, fast_slow, [Push 0 desc; Push 0 (Data 0 3); Push 1 desc; Push 1 (Data 0 10); get 0; get 4; Push 0 (Data 3 9); get 2].
  do 2 eexists. split; [|split; [reflexivity|split; [reflexivity|split; [|split; [|split; [|split; [|split; [vm_compute; reflexivity|split]]]]]]]].
  - split; [lia|]. split; [exists 1, 1, [(true, 2, 2)]; reflexivity|]. intros u k d [E|[E|[]]]; injection E as <- <- <-; lia.
  - repeat constructor; cbn; try lia; discriminate.
  - intros [|[|i]] k d E; cbn in E; try (injection E as <- <-; cbn; intuition lia). destruct i; discriminate.
  - intros i nl ok I. cbn in I; unfold desc in I; intuition congruence.
  - intros n I. cbn in I. unfold get in I. repeat (destruct I as [I|I]; [try discriminate; injection I as <-|]); try contradiction; [exists 0|exists 2|exists 1]; reflexivity.
  - cbn. tauto.
  - intros (T & ts & nx & P). unfold fast_slow in P. 
    inversion P as [|k d ss t ts1 w nx1 B P1 E1 E2 E3 E4|]. inversion P1 as [|k' d' ss' t' ts2 w' nx2 B1 P2 E5 E6 E7 E8|].
    lia.
Qed.
(** skipSamples does not round the count at all. *)
Theorem c49_skip_drift_refuted :
  says cfg1 fast_slow [Push 0 desc; Push 0 (Data 0 9); Push 1 desc; Push 1 (Data 0 10); get 0; Skip 3; get 2]
  = [Done; Done; Done; Done; Got 0 [[]; []] Mine [(0%nat, NDesc); (1%nat, NDesc)] true; Got 3 [[0; 1; 2]; [0]] Nowhere [] true; Got 2 [[3; 4]; [2]] Mine [] true].
Proof. vm_compute. reflexivity. Qed.

(** A signal with a hole in its ticks where the other one begins: whatever arrives
    later, all of it is thrown away and the reader never returns a sample. *)
Theorem c49_hole_refuted : exists c pre r xs,
  run c pre (fresh two) = (r, xs) /\ Forall sensible pre /\ accepted pre
  /\ of_signal 0 (arrived pre) = [desc; Data 0 2; Data 10 100] /\ of_signal 1 (arrived pre) = [desc; Data 5 100]
  /\ forall h, Forall sensible h ->
     (forall i p, In (i, p) (arrived h) -> exists a n, p = Data a n /\ (i = O -> 10 <= a)) ->
     forall x, In x (snd (run c h r)) ->
       (forall n w to evs ok, x = Got n w to evs ok -> n = 0 /\ evs = [] /\ (forall y, In y w -> y = []) /\ ok = true) /\ (forall n, x = AvailIs n -> n = 0).
Proof.
  exists cfg1, [Push 0 desc; Push 0 (Data 0 2); Push 0 (Data 10 100); Push 1 desc; Push 1 (Data 5 100); get 0].
  do 2 eexists. split; [vm_compute; reflexivity|]. split; [repeat constructor; cbn; try lia; discriminate|].
  split; [intros i nl ok I; cbn in I; unfold desc in I; intuition congruence|]. split; [reflexivity|]. split; [reflexivity|].
  intros h Sn Ar x I.
  match type of I with In x (snd (run _ _ ?r)) => assert (HJ : J 5 r) end.
  { split; [reflexivity|]. split; [reflexivity|]. split; [reflexivity|]. do 2 eexists. split; [reflexivity|]. split.
    - split; [reflexivity|]. split; [reflexivity|]. split; [reflexivity|]. split; [constructor|reflexivity].
    - constructor; [|constructor]. split; [discriminate|]. split; [reflexivity|constructor]. }
  assert (F : Forall (fine 5 1) (arrived h)).
  { apply Forall_forall. intros [i p] Ii. destruct (Ar i p Ii) as (a & n & -> & K). unfold fine. cbn [fst snd]. destruct i; [exists a, n; split; [reflexivity|specialize (K eq_refl); lia]|exists a, n; reflexivity]. }
  destruct (J_run 5 cfg1 h _ HJ Sn F) as (N & _). rewrite Forall_forall in N. specialize (N x I). split.
  - intros n w to evs ok ->. cbn in N. tauto.
  - intros n ->. exact N.
Qed.
(** A new descriptor whose ticks start over: the reader waits for its old start. *)
Theorem c49_start_never_earlier_refuted :
  says cfg1 two [Push 0 desc; Push 0 (Data 100 3); Push 1 desc; Push 1 (Data 100 3); get 3; get 3;
                 Push 0 desc; Push 1 desc; Push 0 (Data 0 50); Push 1 (Data 0 50); get 3; get 3]
  = [Done; Done; Done; Done; Got 0 [[]; []] Mine [(0%nat, NDesc); (1%nat, NDesc)] true; Got 3 [[100; 101; 102]; [100; 101; 102]] Mine [] true;
     Done; Done; Done; Done; Got 0 [[]; []] Mine [(0%nat, NDesc); (1%nat, NDesc)] true; Got 0 [[]; []] Mine [] true].
Proof. vm_compute. reflexivity. Qed.

(** A read of 0 samples with a minimum of 5 and an event waiting at one signal: 3
    samples of each are taken out and written to the buffers, the count is 0. *)
Definition cfg5 : cfg := mkCfg (Some 1) 5.
Theorem c49_zero_read_takes_samples_refuted :
  says cfg5 two [Push 0 desc; Push 0 (Data 0 3); Push 1 desc; Push 1 (Data 0 3); Push 1 desc; get 0; get 0]
  = [Done; Done; Done; Done; Done; Got 0 [[]; []] Mine [(0%nat, NDesc); (1%nat, NDesc)] true; Got 0 [[0; 1; 2]; [0; 1; 2]] Mine [] true].
Proof. vm_compute. reflexivity. Qed.
(** The same when the signals do not overlap: the call never returns. *)
Theorem c49_zero_read_spins_refuted :
  says cfg5 two [Push 0 desc; Push 0 (Data 0 3); Push 1 desc; Push 1 (Data 10 3); Push 1 desc; get 0; Push 0 (Data 3 4); get 0]
  = [Done; Done; Done; Done; Done; Got 0 [[]; []] Mine [(0%nat, NDesc); (1%nat, NDesc)] true; Done; Dies Spin].
Proof. vm_compute. reflexivity. Qed.
(** readWithDomain of 0 samples without buffers. *)
Theorem c49_null_domain_crashes_refuted : says cfg1 two [Read true true 0 None] = [Dies Crash].
Proof. vm_compute. reflexivity. Qed.
(** After a refused descriptor a read may write to the buffers of an earlier call. *)
Theorem c49_stale_buffers_refuted : exists h,
  Forall sensible h /\ last (says cfg1 two h) Done = Got 0 [[10; 11; 12; 13; 14]; [10; 11; 12; 13; 14]] Stale [] false.
Proof.
  exists [Push 0 desc; Push 0 (Data 0 3); Push 1 desc; Push 1 (Data 0 3); get 0; get 3; Push 0 (Desc false false); get 9;
          Push 0 desc; Notify 0; Push 1 desc; Notify 1; Push 0 (Data 10 5); Notify 0; Push 1 (Data 10 5); Notify 1; get 2; get 2].
  split; [repeat constructor; cbn; try lia; discriminate|vm_compute; reflexivity].
Qed.
(** The first signal is not used and sends nothing: reading throws. *)
Theorem c49_unused_first_throws_refuted :
  says cfg1 [(false, 1, 1); (true, 1, 1)] [Push 1 desc; Push 1 (Data 0 3); get 0; get 1]
  = [Done; Done; Got 0 [[]; []] Mine [(1%nat, NDesc)] true; Dies Throws].
Proof. vm_compute. reflexivity. Qed.
(** No signal is used: asking crashes. *)
Theorem c49_none_used_crashes_refuted : says cfg1 [(false, 1, 1)] [Avail] = [Dies Crash].
Proof. vm_compute. reflexivity. Qed.
(** A change to null descriptors followed by a gap: only the gap is reported. *)
Theorem c49_gap_hides_descriptor_refuted :
  says cfg1 two [Push 0 (Desc true true); Push 0 Gap; Push 1 desc; get 1] = [Done; Done; Done; Got 0 [[]; []] Mine [(0%nat, NGap); (1%nat, NDesc)] true].
Proof. vm_compute. reflexivity. Qed.
(** A packet that just arrived is not counted before the reader was notified. *)
Theorem c49_available_late_refuted :
  says cfg1 two [Push 0 desc; Push 0 (Data 0 3); Push 1 desc; Push 1 (Data 0 3); get 3; get 3; Push 0 (Data 3 3); Push 1 (Data 3 3); Avail; get 3]
  = [Done; Done; Done; Done; Got 0 [[]; []] Mine [(0%nat, NDesc); (1%nat, NDesc)] true; Got 3 [[0; 1; 2]; [0; 1; 2]] Mine [] true; Done; Done;
     AvailIs 0; Got 3 [[3; 4; 5]; [3; 4; 5]] Mine [] true].
Proof. vm_compute. reflexivity. Qed.

(* ---------- the hypotheses can be met ---------- *)
Definition sample_run : list op :=
  [Push 0 desc; Push 0 (Data 3 6); Push 1 desc; Push 1 (Data 0 10); get 0; Avail; get 2; Push 0 (Data 9 4);
   Read true false 2 (Some [[(0%nat, desc); (1%nat, Data 20 5)]; [(0%nat, Data 40 4)]]); Skip 2; get 2].
Example sample_says : says cfg1 fast_slow sample_run =
  [Done; Done; Done; Done; Got 0 [[]; []] Mine [(0%nat, NDesc); (1%nat, NDesc)] true; AvailIs 6; Got 2 [[3; 4]; [4]] Mine [] true; Done;
   Got 2 [[5; 6]; [6]] Mine [] true; Got 2 [[7; 8]; [8]] Nowhere [] true; Got 2 [[9; 10]; [10]] Mine [] true].
Proof. vm_compute. reflexivity. Qed.
Example sample_meets : matched 1 fast_slow /\ Forall sensible sample_run /\ steady fast_slow sample_run /\ accepted sample_run
  /\ whole fast_slow (says cfg1 fast_slow sample_run).
Proof.
  split; [|split; [|split; [|split]]].
  - split; [lia|]. split; [exists 1, 1, [(true, 2, 2)]; reflexivity|]. intros u k d [E|[E|[]]]; injection E as <- <- <-; lia.
  - repeat constructor; cbn; try lia; discriminate.
  - intros [|[|i]] k d E; cbn in E; try (injection E as <- <-; cbn; intuition lia). destruct i; discriminate.
  - intros i nl ok I. cbn in I; unfold desc in I; intuition congruence.
  - rewrite sample_says. intros n w to evs ok k d I [E|[E|[]]]; injection E as <- <-; cbn in I;
      repeat (destruct I as [I|I]; [try discriminate; injection I as <- _ _ _ _|]); try contradiction; try (exists 0; reflexivity); try (exists 1; reflexivity); exists 2; reflexivity.
Qed.
Definition sample_pushes : list op := [Push 0 desc; Push 1 desc; Push 1 (Data 6 3); Push 0 (Data 0 5); Push 1 (Data 12 1); Push 0 (Data 5 6)].
Example sample_starts : (forall o, In o sample_pushes -> exists i p, o = Push i p) /\ accepted sample_pushes /\ latest (map fst [(0, 11); (6, 14)]) 6
  /\ first_multiple 4 6 8
  /\ (forall i k d a b, nth_error fast_slow i = Some (true, k, d) -> nth_error [(0, 11); (6, 14)] i = Some (a, b) ->
     recording d a b (of_signal i (arrived sample_pushes)) /\ 8 + d <= b).
Proof.
  split; [|split; [|split; [|split]]].
  - intros o I. cbn in I. repeat (destruct I as [<-|I]; [eauto|]). contradiction.
  - intros i nl ok I. cbn in I; unfold desc in I; intuition congruence.
  - split; [cbn; tauto|]. intros x I. cbn in I. lia.
  - split; [exists 2; reflexivity|lia].
  - intros [|[|i]] k d a b E1 E2; cbn in E1, E2; [injection E1 as <- <-; injection E2 as <- <-|injection E1 as <- <-; injection E2 as <- <-|destruct i; discriminate].
    + split; [|lia]. exists false, [Data 0 5; Data 5 6]. split; [reflexivity|]. split; [discriminate|]. split; [|split; [eauto|split; [cbn; intuition lia|reflexivity]]].
      intros p [<-|[<-|[]]]; do 2 eexists; (split; [reflexivity|lia]).
    + split; [|lia]. exists false, [Data 6 3; Data 12 1]. split; [reflexivity|]. split; [discriminate|]. split; [|split; [eauto|split; [cbn; intuition lia|reflexivity]]].
      intros p [<-|[<-|[]]]; do 2 eexists; (split; [reflexivity|lia]).
Qed.
Example sample_invalid : says cfg1 two [Push 0 (Desc false false); get 1; get 1] =
  [Done] ++ Got 0 [[]; []] Mine [(0%nat, NDesc)] false :: [Got 0 [[]; []] Stale [] false].
Proof. reflexivity. Qed.

Print Assumptions c49_aligned_partial.
Print Assumptions c49_one_rate.
Print Assumptions c49_available_is_read.
Print Assumptions c49_starts_at_latest.
Print Assumptions c49_invalid_for_ever.
Print Assumptions c49_rates_drift_refuted.
Print Assumptions c49_skip_drift_refuted.
Print Assumptions c49_hole_refuted.
Print Assumptions c49_start_never_earlier_refuted.
Print Assumptions c49_zero_read_takes_samples_refuted.
Print Assumptions c49_zero_read_spins_refuted.
Print Assumptions c49_null_domain_crashes_refuted.
Print Assumptions c49_stale_buffers_refuted.
Print Assumptions c49_unused_first_throws_refuted.
Print Assumptions c49_none_used_crashes_refuted.
Print Assumptions c49_gap_hides_descriptor_refuted.
Print Assumptions c49_available_late_refuted.
