From Verif Require Import Base Conn_Model Conn_Spec.
Local Open Scope Z_scope.

Lemma run_app : forall a b c,
  run c (a ++ b) = (fst (run (fst (run c a)) b), snd (run c a) ++ snd (run (fst (run c a)) b)).
Proof.
  induction a as [|o a IH]; intros b c; cbn [app run].
  - cbn [fst snd app]. destruct (run c b); reflexivity.
  - destruct (step c o) as [c1 u] eqn:E. rewrite IH.
    destruct (run c1 a) as [c2 t2] eqn:E2. cbn [fst snd].
    destruct (run c2 b) as [c3 t3] eqn:E3. reflexivity.
Qed.

Lemma run_snoc : forall a o c,
  run c (a ++ [o]) = (fst (step (fst (run c a)) o), snd (run c a) ++ [(o, snd (step (fst (run c a)) o))]).
Proof.
  intros a o c. rewrite run_app. cbn [run]. destruct (step (fst (run c a)) o) as [c' u]. reflexivity.
Qed.

(** Induction over histories from the right. *)
Lemma history_ind : forall (P : conn -> list (op * out) -> list op -> Prop) c0,
  P c0 [] [] ->
  (forall ops o, P (fst (run c0 ops)) (snd (run c0 ops)) ops ->
     P (fst (step (fst (run c0 ops)) o)) (snd (run c0 ops) ++ [(o, snd (step (fst (run c0 ops)) o))]) (ops ++ [o])) ->
  forall ops, P (fst (run c0 ops)) (snd (run c0 ops)) ops.
Proof.
  intros P c0 H0 HS ops. induction ops as [|o ops IH] using rev_ind.
  - exact H0.
  - rewrite run_snoc. cbn [fst snd]. apply HS. exact IH.
Qed.

Lemma accepted_app : forall a b, accepted (a ++ b) = accepted a ++ accepted b.
Proof. intros. unfold accepted. apply flat_map_app. Qed.
Lemma delivered_app : forall a b, delivered (a ++ b) = delivered a ++ delivered b.
Proof. intros. unfold delivered. apply flat_map_app. Qed.
Lemma accepted_one : forall e, accepted [e] = accepted_by e.
Proof. intros. cbn. apply app_nil_r. Qed.
Lemma delivered_one : forall e, delivered [e] = delivered_by e.
Proof. intros. cbn. apply app_nil_r. Qed.

Lemma stream_eq : forall g ops, stream g ops = delivered (trace g ops) ++ packets (final g ops).
Proof.
  intros g ops. unfold stream, trace, final. rewrite run_snoc. cbn [snd fst].
  rewrite delivered_app, delivered_one. reflexivity.
Qed.

(** Queue effect of the helpers. *)
Lemma packets_onEnq : forall c p, packets (onPacketEnqueued c p) = packets c.
Proof. intros c [| | | | ]; reflexivity. Qed.
Lemma packets_onDeq : forall c p, packets (onPacketDequeued c p) = packets c.
Proof. intros c [| | | | ]; reflexivity. Qed.

Lemma packets_multi : forall ps c,
  packets (fold_left (fun c p => let c' := onPacketEnqueued c p in set_packets c' (packets c' ++ [p])) ps c)
  = packets c ++ ps.
Proof.
  induction ps as [|p ps IH]; intros c; cbn [fold_left].
  - rewrite app_nil_r; reflexivity.
  - rewrite IH. cbn [set_packets packets]. rewrite packets_onEnq, <- app_assoc. reflexivity.
Qed.

Lemma countPackets_fold_packets : forall l c,
  packets (fold_left countOne l c) = packets c.
Proof. induction l as [|p l IH]; intros c; [reflexivity|]. cbn [fold_left]. rewrite IH. destruct p; reflexivity. Qed.
Lemma packets_count : forall c, packets (countPackets c) = packets c.
Proof. intros c. unfold countPackets. rewrite countPackets_fold_packets. reflexivity. Qed.

(** Gap check: what it does to the queue. *)
Lemma checkForGaps_packets : forall c p c1, checkForGaps c p = GOk c1 ->
  packets c1 = packets c \/ (isData p = true /\ exists g, packets c1 = packets c ++ [GapEv g]).
Proof.
  intros c p c1 H. destruct p as [id n dom|v d|g|id|id]; cbn [checkForGaps initGapCheck] in H.
  - destruct (gapCheckState c) eqn:Eg; try discriminate; try (injection H as <-; left; reflexivity).
    + destruct dom as [[off cnt]|]; [|discriminate]. unfold beginGapCheck in H.
      destruct (_ && _); [|discriminate]. injection H as <-. left; reflexivity.
    + destruct dom as [[off cnt]|]; [|discriminate]. unfold doGapCheck in H.
      destruct (_ && _); [|discriminate]. injection H as <-.
      destruct (off - nextExpected c =? 0); [left; reflexivity|].
      right; split; [reflexivity|]. eexists; reflexivity.
  - left. destruct d as [| |d].
    + destruct (gapCheckState c); injection H as <-; reflexivity.
    + injection H as <-; reflexivity.
    + destruct (dd_linear d); [destruct (dd_type d)|]; injection H as <-; reflexivity.
  - discriminate.
  - injection H as <-; left; reflexivity.
  - injection H as <-; left; reflexivity.
Qed.

Definition gapcheck (c : conn) (p : packet) : gres :=
  match gapCheckState c with GDisabled => GOk c | _ => checkForGaps c p end.

(** One lemma summarising [Enq] on the queue. *)
Lemma enq_queue : forall c m a p c' u, enqueueInternal c m a p = (c', u) ->
  (o_res u <> Success /\ c' = c /\ o_packets u = [] /\ o_notif u = None) \/
  (o_res u = Success /\ o_packets u = [] /\ queueEmpty c' = false /\
   (packets c' = packets c ++ [p] \/
    (gapCheckState c <> GDisabled /\ isData p = true /\ exists g, packets c' = packets c ++ [GapEv g; p]))).
Proof.
  intros c m a p c' u H. unfold enqueueInternal in H.
  destruct (negb a && negb (isEvent p)).
  { injection H as <- <-. left. repeat split; discriminate. }
  fold (gapcheck c p) in H.
  destruct (gapcheck c p) as [c1|e|] eqn:Eg.
  - injection H as <- <-. right. split; [reflexivity|]. split; [reflexivity|]. split; [reflexivity|].
    cbn [set_queueEmpty set_packets packets]. rewrite packets_onEnq.
    unfold gapcheck in Eg. destruct (gapCheckState c) eqn:Es.
    1: { injection Eg as <-. left; reflexivity. }
    all: destruct (checkForGaps_packets _ _ _ Eg) as [->|[Hd [g ->]]];
      [left; reflexivity | right; split; [congruence|]; split; [exact Hd|]; exists g; rewrite <- app_assoc; reflexivity].
  - injection H as <- <-. left. repeat split; discriminate.
  - injection H as <- <-. left. repeat split; discriminate.
Qed.

Lemma refused_unchanged : forall c m a p,
  o_res (snd (step c (Enq m a p))) <> Success -> step c (Enq m a p) = (c, snd (step c (Enq m a p))).
Proof.
  intros c m a p H. cbn [step] in *. destruct (enqueueInternal c m a p) as [c' u] eqn:E.
  cbn [snd] in *. destruct (enq_queue _ _ _ _ _ _ E) as [(_ & -> & _)|(Hs & _)]; [reflexivity|contradiction].
Qed.

(** Gap state disabled is stable. *)
Lemma gapstate_onEnq : forall c p, gapCheckState (onPacketEnqueued c p) = gapCheckState c.
Proof. intros c [| | | | ]; reflexivity. Qed.
Lemma gapstate_onDeq : forall c p, gapCheckState (onPacketDequeued c p) = gapCheckState c.
Proof. intros c [| | | | ]; reflexivity. Qed.
Lemma countPackets_fold_gap : forall l c,
  let c' := (fold_left countOne l c) in
  gapCheckState c' = gapCheckState c /\ nextExpected c' = nextExpected c /\ delta c' = delta c /\
  queueEmpty c' = queueEmpty c /\ gapPacketsCnt c' = gapPacketsCnt c.
Proof.
  induction l as [|p l IH]; intros c; [repeat split|]. cbn [fold_left].
  specialize (IH (countOne c p)). cbv zeta in *. destruct IH as (-> & -> & -> & -> & ->). destruct p; repeat split.
Qed.
Lemma gap_count : forall c, gapCheckState (countPackets c) = gapCheckState c /\
  nextExpected (countPackets c) = nextExpected c /\ delta (countPackets c) = delta c /\
  queueEmpty (countPackets c) = queueEmpty c /\ gapPacketsCnt (countPackets c) = gapPacketsCnt c.
Proof. intros c. unfold countPackets. exact (countPackets_fold_gap (packets c) (set_counts c 0 0 (gapPacketsCnt c))). Qed.

Lemma multi_gap : forall ps c,
  gapCheckState (fold_left (fun c p => let c' := onPacketEnqueued c p in set_packets c' (packets c' ++ [p])) ps c)
  = gapCheckState c.
Proof.
  induction ps as [|p ps IH]; intros c; [reflexivity|]. cbn [fold_left]. rewrite IH. cbn. apply gapstate_onEnq.
Qed.

Lemma step_disabled : forall c o, gapCheckState c = GDisabled -> gapCheckState (fst (step c o)) = GDisabled.
Proof.
  intros c o H. destruct o as [m a p|a ps| | |n| |]; cbn [step].
  - unfold enqueueInternal. destruct (negb a && negb (isEvent p)); [exact H|].
    rewrite H. cbn. rewrite gapstate_onEnq. exact H.
  - unfold enqueueMultiple. destruct a; cbn; [|exact H]. rewrite multi_gap. exact H.
  - unfold dequeue. destruct (packets c); cbn; [exact H|]. rewrite gapstate_onDeq. exact H.
  - exact H.
  - cbn [dequeueUpTo fst snd]. destruct (gap_count (set_packets c (skipn (Nat.min n (length (packets c))) (packets c)))) as [-> _]. exact H.
  - unfold peek. destruct (packets c); exact H.
  - unfold enqueueLastDescriptor. destruct (valueDesc c), (domainDesc c); exact H.
Qed.

(** Main queue lemma: one step, seen through (delivered ++ queue). *)
Lemma step_queue : forall c o,
  let c' := fst (step c o) in let u := snd (step c o) in
  delivered_by (o, u) ++ packets c' = packets c ++ accepted_by (o, u) \/
  (gapCheckState c <> GDisabled /\ exists m a p g, o = Enq m a p /\ o_res u = Success /\ isData p = true /\
     delivered_by (o, u) ++ packets c' = packets c ++ [GapEv g; p]) \/
  (o = EnqLastDescriptor /\ exists v d, packets c' = DescEv v d :: packets c).
Proof.
  intros c o. destruct o as [m a p|a ps| | |n| |]; cbn [step]; cbv zeta.
  - destruct (enqueueInternal c m a p) as [c' u] eqn:E. cbn [fst snd].
    destruct (enq_queue _ _ _ _ _ _ E) as [(Hr & -> & _ & _)|(Hr & _ & _ & [Hp|(Hg & Hd & g & Hp)])].
    + left. cbn. destruct u as [[] ? ?]; cbn in *; try congruence; rewrite app_nil_r; reflexivity.
    + left. cbn. destruct u as [r ? ?]; cbn in Hr; subst r. exact Hp.
    + right; left. split; [exact Hg|]. exists m, a, p, g. repeat split; try assumption.
  - unfold enqueueMultiple. left. destruct a; cbn; [rewrite packets_multi; reflexivity|rewrite app_nil_r; reflexivity].
  - unfold dequeue. left. destruct (packets c) as [|p l] eqn:El; cbn; rewrite ?packets_onDeq; cbn; rewrite ?El, ?app_nil_r; reflexivity.
  - left. cbn. reflexivity.
  - left. cbn [dequeueUpTo fst snd delivered_by accepted_by o_packets mk]. rewrite packets_count. cbn [set_packets packets]. rewrite firstn_skipn, app_nil_r. reflexivity.
  - left. unfold peek. destruct (packets c) as [|p l] eqn:El; cbn; rewrite El, ?app_nil_r; reflexivity.
  - unfold enqueueLastDescriptor. destruct (valueDesc c) as [v|] eqn:Ev, (domainDesc c) as [| |d] eqn:Ed; cbn;
      try (left; rewrite app_nil_r; reflexivity); right; right; split; try reflexivity; eexists; eexists; reflexivity.
Qed.

Lemma conn_lossless_nogap : forall ops,
  (forall o, In o ops -> isLastDescOp o = false) ->
  stream false ops = accepted (trace false ops).
Proof.
  intros ops. rewrite stream_eq. unfold trace, final.
  apply (history_ind (fun c t ops => (forall o, In o ops -> isLastDescOp o = false) ->
            delivered t ++ packets c = accepted t) (init false)); [reflexivity|].
  intros ops' o IH HO.
  assert (Hd : gapCheckState (fst (run (init false) ops')) = GDisabled).
  { apply (history_ind (fun c _ _ => gapCheckState c = GDisabled) (init false)); [reflexivity|].
    intros; apply step_disabled; assumption. }
  rewrite delivered_app, accepted_app, delivered_one, accepted_one.
  rewrite <- IH by (intros x Hx; apply HO; apply in_or_app; left; exact Hx).
  destruct (step_queue (fst (run (init false) ops')) o) as [H|[(Hn & _)|(-> & _)]].
  - rewrite <- !app_assoc. f_equal. exact H.
  - contradiction.
  - specialize (HO EnqLastDescriptor). cbn in HO. discriminate HO. apply in_or_app; right; left; reflexivity.
Qed.

Lemma filter_app_cons : forall (f : packet -> bool) l p l', filter f (l ++ p :: l') = filter f l ++ filter f [p] ++ filter f l'.
Proof. intros. rewrite filter_app. f_equal. change (p :: l') with ([p] ++ l'). apply filter_app. Qed.

Lemma conn_lossless_gap : forall g ops,
  (forall o, In o ops -> isLastDescOp o = false) ->
  filter (fun p => negb (isGap p)) (stream g ops) = filter (fun p => negb (isGap p)) (accepted (trace g ops)).
Proof.
  intros g ops. rewrite stream_eq. unfold trace, final.
  apply (history_ind (fun c t ops => (forall o, In o ops -> isLastDescOp o = false) ->
     filter (fun p => negb (isGap p)) (delivered t ++ packets c) = filter (fun p => negb (isGap p)) (accepted t)) (init g));
    [reflexivity|].
  intros ops' o IH HO.
  rewrite delivered_app, accepted_app, delivered_one, accepted_one, (filter_app _ (accepted _)).
  rewrite <- IH by (intros x Hx; apply HO; apply in_or_app; left; exact Hx).
  destruct (step_queue (fst (run (init g) ops')) o) as [H|[(Hn & m & a & p & gp & Ho & Hr & Hd & H)|(-> & _)]].
  - rewrite <- !app_assoc, H, !filter_app, <- app_assoc. reflexivity.
  - rewrite <- !app_assoc, H. subst o. rewrite !filter_app, <- app_assoc. f_equal. f_equal.
    cbn [step] in *. destruct (snd (enqueueInternal _ m a p)) as [r ? ?]; cbn in Hr; subst r. reflexivity.
  - specialize (HO EnqLastDescriptor). cbn in HO. discriminate HO. apply in_or_app; right; left; reflexivity.
Qed.

Lemma conn_data_lossless : forall g ops,
  filter isData (stream g ops) = filter isData (accepted (trace g ops)).
Proof.
  intros g ops. rewrite stream_eq. unfold trace, final.
  apply (history_ind (fun c t ops =>
     filter isData (delivered t ++ packets c) = filter isData (accepted t)) (init g)); [reflexivity|].
  intros ops' o IH.
  rewrite delivered_app, accepted_app, delivered_one, accepted_one, (filter_app _ (accepted _)).
  rewrite <- IH.
  destruct (step_queue (fst (run (init g) ops')) o) as [H|[(Hn & m & a & p & gp & Ho & Hr & Hd & H)|(-> & v & d & H)]].
  - rewrite <- !app_assoc, H, !filter_app, <- app_assoc. reflexivity.
  - rewrite <- !app_assoc, H. subst o. rewrite !filter_app, <- app_assoc. f_equal. f_equal.
    cbn [step] in *. destruct (snd (enqueueInternal _ m a p)) as [r ? ?]; cbn in Hr; subst r. reflexivity.
  - rewrite <- app_assoc, H, !filter_app. cbn. rewrite app_nil_r. reflexivity.
Qed.

Lemma peek_next : forall c,
  fst (step c Peek) = c /\ o_packets (snd (step c Peek)) = o_packets (snd (step c Deq)) /\
  o_res (snd (step c Peek)) = o_res (snd (step c Deq)).
Proof. intros c. cbn [step]. unfold peek, dequeue. destruct (packets c); repeat split. Qed.

Lemma delivered_in_order : forall g ops more,
  exists rest, delivered (trace g (ops ++ more)) = delivered (trace g ops) ++ rest.
Proof.
  intros g ops more. unfold trace. rewrite run_app. cbn [snd]. rewrite delivered_app. eexists; reflexivity.
Qed.

(** ** Counters (C02) *)
Definition cnt (f : packet -> bool) (l : list packet) : Z := Z.of_nat (length (filter f l)).

Lemma total_app : forall a b, total_samples (a ++ b) = total_samples a + total_samples b.
Proof.
  unfold total_samples. induction a as [|p a IH]; intros b; cbn [app fold_right]; [lia|]. rewrite IH. lia.
Qed.
Lemma total_cons : forall p b, total_samples (p :: b) = samples_of p + total_samples b.
Proof. reflexivity. Qed.
Lemma cnt_app : forall f a b, cnt f (a ++ b) = cnt f a + cnt f b.
Proof. intros. unfold cnt. rewrite filter_app, app_length. lia. Qed.
Lemma cnt_one : forall f p, cnt f [p] = if f p then 1 else 0.
Proof. intros. unfold cnt. cbn. destruct (f p); reflexivity. Qed.
Lemma cnt_cons : forall f p l, cnt f (p :: l) = (if f p then 1 else 0) + cnt f l.
Proof. intros. change (p :: l) with ([p] ++ l). rewrite cnt_app, cnt_one. reflexivity. Qed.

(** The sample counter is right in every history. *)
Lemma countPackets_fold_samples : forall l c,
  let c' := fold_left countOne l c in
  w64 (samplesCnt c') = w64 (samplesCnt c + total_samples l) /\
  w64 (eventPacketsCnt c') = w64 (eventPacketsCnt c + cnt isEventPacket l).
Proof.
  induction l as [|p l IH]; intros c; cbv zeta.
  - unfold cnt. cbn. rewrite !Z.add_0_r. split; reflexivity.
  - cbn [fold_left]. rewrite cnt_cons, total_cons. cbv zeta in IH.
    destruct (IH (countOne c p)) as [-> ->].
    destruct p; cbn [countOne set_counts samplesCnt eventPacketsCnt samples_of isEventPacket];
      rewrite ?w64_add_l, ?Z.add_assoc, ?Z.add_0_l, ?Z.add_0_r; split; reflexivity.
Qed.

Definition normal (c : conn) : Prop :=
  w64 (samplesCnt c) = samplesCnt c /\ w64 (eventPacketsCnt c) = eventPacketsCnt c /\ w64 (gapPacketsCnt c) = gapPacketsCnt c.

Lemma w64_0 : w64 0 = 0. Proof. reflexivity. Qed.

Lemma countPackets_fold_normal : forall l c, normal c ->
  normal (fold_left countOne l c).
Proof.
  induction l as [|p l IH]; intros c H; [exact H|]. cbn [fold_left]. apply IH.
  destruct H as (A & B & C). destruct p; unfold normal; cbn; rewrite ?w64_idem; auto.
Qed.

Lemma countPackets_spec : forall c, normal c ->
  samplesCnt (countPackets c) = w64 (total_samples (packets c)) /\
  eventPacketsCnt (countPackets c) = w64 (cnt isEventPacket (packets c)) /\ normal (countPackets c).
Proof.
  intros c H. unfold countPackets.
  assert (N : normal (set_counts c 0 0 (gapPacketsCnt c))) by (destruct H as (A & B & C); unfold normal; cbn; auto).
  pose proof (countPackets_fold_normal (packets c) _ N) as N'.
  destruct (countPackets_fold_samples (packets c) (set_counts c 0 0 (gapPacketsCnt c))) as [A B]. cbv zeta in A, B.
  destruct N' as (N1 & N2 & N3). rewrite N1 in A. rewrite N2 in B. rewrite A, B. cbn. repeat split; auto.
Qed.

Lemma onEnq_samples : forall c p, samplesCnt c = w64 (total_samples (packets c)) ->
  samplesCnt (onPacketEnqueued c p) = w64 (total_samples (packets c) + samples_of p).
Proof.
  intros c p H. destruct p; cbn; rewrite H, ?w64_add_l, ?Z.add_0_r; reflexivity.
Qed.

Lemma checkForGaps_samples : forall c p c1, checkForGaps c p = GOk c1 ->
  samplesCnt c1 = samplesCnt c /\ total_samples (packets c1) = total_samples (packets c) /\
  eventPacketsCnt c1 = eventPacketsCnt c /\
  gapPacketsCnt c1 = (if Nat.eqb (length (packets c1)) (length (packets c)) then gapPacketsCnt c else w64 (gapPacketsCnt c + 1)).
Proof.
  intros c p c1 H.
  assert (K : forall g n d, set_gap c g n d = c1 -> samplesCnt c1 = samplesCnt c /\ total_samples (packets c1) = total_samples (packets c) /\
  eventPacketsCnt c1 = eventPacketsCnt c /\
  gapPacketsCnt c1 = (if Nat.eqb (length (packets c1)) (length (packets c)) then gapPacketsCnt c else w64 (gapPacketsCnt c + 1))).
  { intros g n d <-. cbn. rewrite Nat.eqb_refl. auto. }
  assert (K0 : c = c1 -> samplesCnt c1 = samplesCnt c /\ total_samples (packets c1) = total_samples (packets c) /\
  eventPacketsCnt c1 = eventPacketsCnt c /\
  gapPacketsCnt c1 = (if Nat.eqb (length (packets c1)) (length (packets c)) then gapPacketsCnt c else w64 (gapPacketsCnt c + 1))).
  { intros <-. rewrite Nat.eqb_refl. auto. }
  destruct p as [id n dom|v d|g|id|id]; cbn [checkForGaps initGapCheck] in H.
  - destruct (gapCheckState c) eqn:Eg; try discriminate; try (injection H as H; apply K0; exact H).
    + destruct dom as [[off k]|]; [|discriminate]. unfold beginGapCheck in H.
      destruct (_ && _); [|discriminate]. injection H as H. eapply K; exact H.
    + destruct dom as [[off k]|]; [|discriminate]. unfold doGapCheck in H.
      destruct (_ && _); [|discriminate]. injection H as H.
      destruct (off - nextExpected c =? 0); [eapply K; exact H|].
      subst c1. cbn. rewrite total_app. cbn. rewrite app_length. cbn.
      replace (Nat.eqb (length (packets c) + 1) (length (packets c))) with false by (symmetry; apply Nat.eqb_neq; lia).
      repeat split. lia.
  - destruct d as [| |d].
    + destruct (gapCheckState c); injection H as H; first [apply K0; exact H | eapply K; exact H].
    + injection H as H; eapply K; exact H.
    + destruct (dd_linear d); [destruct (dd_type d)|]; injection H as H; eapply K; exact H.
  - discriminate.
  - injection H as H; apply K0; exact H.
  - injection H as H; apply K0; exact H.
Qed.

Lemma gapcheck_samples : forall c p c1, gapcheck c p = GOk c1 ->
  samplesCnt c1 = samplesCnt c /\ total_samples (packets c1) = total_samples (packets c) /\
  eventPacketsCnt c1 = eventPacketsCnt c /\
  gapPacketsCnt c1 = (if Nat.eqb (length (packets c1)) (length (packets c)) then gapPacketsCnt c else w64 (gapPacketsCnt c + 1)).
Proof.
  intros c p c1 H. unfold gapcheck in H. destruct (gapCheckState c).
  1: { injection H as <-. rewrite Nat.eqb_refl. auto. }
  all: eapply checkForGaps_samples; exact H.
Qed.

Lemma multi_samples : forall ps c, samplesCnt c = w64 (total_samples (packets c)) ->
  let c' := fold_left (fun c p => let c' := onPacketEnqueued c p in set_packets c' (packets c' ++ [p])) ps c in
  samplesCnt c' = w64 (total_samples (packets c')).
Proof.
  induction ps as [|p ps IH]; intros c H; [exact H|]. cbn [fold_left]. apply IH.
  cbn [set_packets packets samplesCnt]. rewrite packets_onEnq, total_app, onEnq_samples by exact H.
  cbn. rewrite Z.add_0_r. reflexivity.
Qed.

Lemma countOne_samples_normal : forall l c, w64 (samplesCnt c) = samplesCnt c ->
  w64 (samplesCnt (fold_left countOne l c)) = samplesCnt (fold_left countOne l c).
Proof.
  induction l as [|p l IH]; intros c H; [exact H|]. cbn [fold_left]. apply IH.
  destruct p; cbn; rewrite ?w64_idem; auto.
Qed.

Lemma countPackets_samples : forall c, samplesCnt (countPackets c) = w64 (total_samples (packets c)).
Proof.
  intros c. unfold countPackets.
  destruct (countPackets_fold_samples (packets c) (set_counts c 0 0 (gapPacketsCnt c))) as [A _]. cbv zeta in A.
  rewrite countOne_samples_normal in A by reflexivity. exact A.
Qed.

Lemma step_samples : forall c o, samplesCnt c = w64 (total_samples (packets c)) ->
  samplesCnt (fst (step c o)) = w64 (total_samples (packets (fst (step c o)))).
Proof.
  intros c o H. destruct o as [m a p|a ps| | |n| |]; cbn [step].
  - unfold enqueueInternal. destruct (negb a && negb (isEvent p)); [exact H|].
    fold (gapcheck c p). destruct (gapcheck c p) as [c1|e|] eqn:Eg; cbn [fst]; try exact H.
    destruct (gapcheck_samples _ _ _ Eg) as (A & B & _).
    cbn. rewrite packets_onEnq, total_app, onEnq_samples by congruence. cbn. rewrite Z.add_0_r. reflexivity.
  - unfold enqueueMultiple. destruct a; cbn; [|exact H]. apply multi_samples. exact H.
  - unfold dequeue. destruct (packets c) as [|p l] eqn:El; cbn [fst].
    + cbn. rewrite El. exact H.
    + rewrite packets_onDeq. cbn [set_packets packets]. cbn in H.
      destruct p; cbn [onPacketDequeued set_counts samplesCnt set_packets]; rewrite H; cbn [samples_of];
        rewrite ?Z.add_0_l, ?w64_sub_l; try reflexivity. f_equal. unfold total_samples. lia.
  - reflexivity.
  - cbn [dequeueUpTo fst snd]. rewrite packets_count. cbn [set_packets packets].
    apply countPackets_samples.
  - unfold peek. destruct (packets c) eqn:El; cbn [fst]; rewrite El; exact H.
  - unfold enqueueLastDescriptor. destruct (valueDesc c), (domainDesc c); cbn; exact H.
Qed.

Lemma samples_always : forall g ops,
  getAvailableSamples (final g ops) = w64 (total_samples (packets (final g ops))).
Proof.
  intros g ops. unfold getAvailableSamples, final.
  apply (history_ind (fun c _ _ => samplesCnt c = w64 (total_samples (packets c))) (init g)); [reflexivity|].
  intros ops' o IH. apply step_samples. exact IH.
Qed.

(** Event and gap counters, for ordinary packets. *)
Definition okq (p : packet) : bool := match p with OtherEv _ => false | _ => true end.
Definition CInv (c : conn) : Prop :=
  forallb okq (packets c) = true /\
  eventPacketsCnt c = w64 (cnt isDesc (packets c)) /\
  gapPacketsCnt c = w64 (cnt isGap (packets c)) /\
  samplesCnt c = w64 (total_samples (packets c)).


Lemma CInv_init : forall g, CInv (init g).
Proof. intros g. unfold CInv. cbn. repeat split. Qed.

Lemma onEnq_counts : forall c p, ordinary p = true ->
  gapPacketsCnt (onPacketEnqueued c p) = gapPacketsCnt c /\
  eventPacketsCnt (onPacketEnqueued c p) = if isDesc p then w64 (eventPacketsCnt c + 1) else eventPacketsCnt c.
Proof. intros c [| | | | ] H; try discriminate H; split; reflexivity. Qed.

Lemma ordinary_props : forall p, ordinary p = true -> okq p = true /\ isGap p = false.
Proof. intros [| | | | ] H; try discriminate; split; reflexivity. Qed.

Lemma push_inv : forall c p, ordinary p = true -> CInv c ->
  CInv (set_packets (onPacketEnqueued c p) (packets (onPacketEnqueued c p) ++ [p])).
Proof.
  intros c p Hp (A & B & C & D). destruct (onEnq_counts c p Hp) as [E F]. destruct (ordinary_props p Hp) as [G I].
  unfold CInv. cbn [set_packets packets eventPacketsCnt gapPacketsCnt samplesCnt].
  rewrite packets_onEnq, forallb_app, A, !cnt_app, !cnt_one, I, total_app, E, F, onEnq_samples by exact D.
  cbn. rewrite G, B, C, !Z.add_0_r. repeat split.
  destruct (isDesc p); rewrite ?w64_add_l, ?Z.add_0_r; reflexivity.
Qed.

Lemma CInv_queueEmpty : forall c b, CInv c -> CInv (set_queueEmpty c b).
Proof. intros c b H. exact H. Qed.

Lemma gapcheck_CInv : forall c p c1, ordinary p = true -> gapcheck c p = GOk c1 -> CInv c -> CInv c1.
Proof.
  intros c p c1 Hp H (A & B & C & D).
  destruct (gapcheck_samples _ _ _ H) as (E & F & G & I).
  assert (Q : packets c1 = packets c \/ exists g, packets c1 = packets c ++ [GapEv g]).
  { unfold gapcheck in H. destruct (gapCheckState c).
    1: { injection H as <-; left; reflexivity. }
    all: destruct (checkForGaps_packets _ _ _ H) as [->|[_ Q]]; auto. }
  unfold CInv. rewrite E, F, G, I. destruct Q as [->|[g ->]].
  - rewrite Nat.eqb_refl. auto.
  - rewrite app_length. cbn [length].
    replace (Nat.eqb (length (packets c) + 1) (length (packets c))) with false by (symmetry; apply Nat.eqb_neq; lia).
    rewrite forallb_app, A, !cnt_app, !cnt_one. cbn. rewrite B, C, w64_add_l, Z.add_0_r. auto.
Qed.

Lemma cnt_events_ok : forall l, forallb okq l = true -> cnt isEventPacket l = cnt isDesc l + cnt isGap l.
Proof.
  induction l as [|p l IH]; intros H; [reflexivity|]. cbn [forallb] in H. apply andb_prop in H. destruct H as [H1 H2].
  rewrite !cnt_cons, IH by exact H2. destruct p; cbn [isEventPacket isDesc isGap okq] in *; try discriminate; lia.
Qed.

Lemma forallb_skipn : forall (f : packet -> bool) n l, forallb f l = true -> forallb f (skipn n l) = true.
Proof.
  intros f n l H. rewrite <- (firstn_skipn n l), forallb_app in H. apply andb_prop in H. tauto.
Qed.

Lemma step_CInv : forall g c o, op_ok g o -> (g = false -> gapCheckState c = GDisabled /\ cnt isGap (packets c) = 0) ->
  CInv c -> CInv (fst (step c o)).
Proof.
  intros g c o [Ho Hb] Hg H. destruct o as [m a p|a ps| | |n| |]; cbn [step].
  - cbn in Ho. rewrite andb_true_r in Ho. unfold enqueueInternal.
    destruct (negb a && negb (isEvent p)); [exact H|].
    fold (gapcheck c p). destruct (gapcheck c p) as [c1|e|] eqn:Eg; cbn [fst]; try exact H.
    apply CInv_queueEmpty. apply push_inv; [exact Ho|]. eapply gapcheck_CInv; eassumption.
  - cbn in Ho. unfold enqueueMultiple. destruct a; cbn [negb fst]; [|exact H]. apply CInv_queueEmpty.
    clear Hg Hb. revert c H. induction ps as [|p ps IH]; intros c H; [exact H|].
    cbn [fold_left forallb] in *. apply andb_prop in Ho. destruct Ho as [Ho1 Ho2].
    apply IH; [exact Ho2|]. apply push_inv; assumption.
  - unfold dequeue. destruct H as (A & B & C & D). destruct (packets c) as [|p l] eqn:El; cbn [fst].
    + unfold CInv. cbn. rewrite El. auto.
    + unfold CInv. rewrite packets_onDeq. cbn [set_packets packets].
      rewrite cnt_cons in B, C. cbn [forallb] in A. apply andb_prop in A. destruct A as [A1 A2]. rewrite A2.
      pose proof (step_samples c Deq) as S. cbn [step] in S. unfold dequeue in S. rewrite El in S. cbn [fst] in S.
      specialize (S D). rewrite packets_onDeq in S. rewrite S. cbn [set_packets packets].
      destruct p; cbn [onPacketDequeued set_counts set_packets eventPacketsCnt gapPacketsCnt isDesc isGap okq] in *; try discriminate; rewrite B, C, ?w64_sub_l; repeat split; f_equal; lia.
  - destruct g; [cbn in Hb; specialize (Hb eq_refl); discriminate|].
    destruct (Hg eq_refl) as [_ Hz]. destruct H as (A & B & C & D). unfold CInv. cbn.
    rewrite C, Hz. repeat split.
  - destruct g; [cbn in Hb; specialize (Hb eq_refl); discriminate|].
    destruct (Hg eq_refl) as [_ Hz]. destruct H as (A & B & C & D). cbn [dequeueUpTo fst].
    set (c0 := set_packets c (skipn (Nat.min n (length (packets c))) (packets c))).
    assert (N : normal c0). { unfold normal, c0. cbn. rewrite B, C, D, !w64_idem. auto. }
    destruct (countPackets_spec c0 N) as (P & Q & _).
    assert (A' : forallb okq (packets c0) = true) by (apply forallb_skipn; exact A).
    assert (Z0 : cnt isGap (packets c0) = 0).
    { pose proof (firstn_skipn (Nat.min n (length (packets c))) (packets c)) as FS.
      rewrite <- FS, cnt_app in Hz. unfold c0. cbn [set_packets packets]. unfold cnt in *. lia. }
    unfold CInv. rewrite packets_count, P, Q, A', cnt_events_ok, Z0, Z.add_0_r by exact A'.
    destruct (gap_count c0) as (_ & _ & _ & _ & ->).
    replace (gapPacketsCnt c0) with (gapPacketsCnt c) by reflexivity. rewrite C, Hz. auto.
  - unfold peek. destruct (packets c); exact H.
  - destruct H as (A & B & C & D). unfold enqueueLastDescriptor.
    assert (K : forall v d, CInv (set_packets (set_counts c (samplesCnt c) (w64 (eventPacketsCnt c + 1)) (gapPacketsCnt c)) (DescEv v d :: packets c))).
    { intros v d. unfold CInv. cbn [set_packets set_counts packets eventPacketsCnt gapPacketsCnt samplesCnt].
      rewrite !cnt_cons, total_cons. cbn [forallb okq isDesc isGap samples_of andb].
      rewrite B, C, D, w64_add_l, !Z.add_0_l. repeat split; auto. f_equal. lia. }
    destruct (valueDesc c), (domainDesc c); cbn [fst]; try apply K. unfold CInv. auto.
Qed.

Lemma ord_no_gap_step : forall c o, gapCheckState c = GDisabled -> forallb ordinary (offered o) = true ->
  cnt isGap (packets c) = 0 -> cnt isGap (packets (fst (step c o))) = 0.
Proof.
  intros c o Hd Ho Hz.
  destruct (step_queue c o) as [H|[(Hn & _)|(-> & v & d & H)]].
  - cbv zeta in H.
    assert (Q : cnt isGap (accepted_by (o, snd (step c o))) = 0).
    { assert (G : forall l, forallb ordinary l = true -> cnt isGap l = 0).
      { induction l as [|p l IH]; intros Hl; [reflexivity|]. cbn [forallb] in Hl. apply andb_prop in Hl.
        rewrite cnt_cons, IH by tauto. destruct (ordinary_props p) as [_ ->]; tauto. }
      destruct o; cbn in *; try reflexivity.
      - destruct (snd (enqueueInternal c m active p)) as [[] ? ?]; try reflexivity. apply G. exact Ho.
      - destruct (snd (enqueueMultiple c active ps)) as [[] ? ?]; try reflexivity. apply G. exact Ho. }
    assert (R : cnt isGap (delivered_by (o, snd (step c o)) ++ packets (fst (step c o))) = 0)
      by (rewrite H, cnt_app; lia).
    rewrite cnt_app in R. unfold cnt in *. lia.
  - contradiction.
  - cbv zeta in H. rewrite H, cnt_cons. cbn. exact Hz.
Qed.

Lemma counters_inv : forall g ops, (forall o, In o ops -> op_ok g o) -> CInv (final g ops).
Proof.
  intros g ops. unfold final.
  cut ((forall o, In o ops -> op_ok g o) -> CInv (fst (run (init g) ops)) /\
     (g = false -> gapCheckState (fst (run (init g) ops)) = GDisabled /\ cnt isGap (packets (fst (run (init g) ops))) = 0)); [tauto|].
  apply (history_ind (fun c _ ops => (forall o, In o ops -> op_ok g o) -> CInv c /\
     (g = false -> gapCheckState c = GDisabled /\ cnt isGap (packets c) = 0)) (init g)).
  - intros _. split; [apply CInv_init|]. intros ->. split; reflexivity.
  - intros ops' o IH HO.
    destruct IH as [I1 I2]; [intros x Hx; apply HO; apply in_or_app; left; exact Hx|].
    assert (Ho : op_ok g o) by (apply HO; apply in_or_app; right; left; reflexivity).
    split; [eapply step_CInv; eassumption|].
    intros ->. destruct (I2 eq_refl) as [J1 J2]. split; [apply step_disabled; exact J1|].
    apply ord_no_gap_step; try assumption. apply Ho.
Qed.

Lemma scanUntil_spec : forall stop l acc,
  (forall p, stop p = true -> isEventPacket p = true) ->
  w64 (scanUntil stop l acc) = w64 (acc + total_samples (before_first stop l)).
Proof.
  intros stop l. induction l as [|p l IH]; intros acc Hs; cbn [scanUntil before_first].
  - cbn. rewrite Z.add_0_r. reflexivity.
  - assert (Hd : isEventPacket p = false -> stop p = false).
    { destruct (stop p) eqn:E; [|reflexivity]. rewrite (Hs p E). discriminate. }
    destruct p; cbn in Hd.
    + rewrite Hd by reflexivity. rewrite IH by exact Hs. rewrite w64_add_l, total_cons. cbn. f_equal. lia.
    + destruct (stop _); [cbn; rewrite Z.add_0_r; reflexivity|]. rewrite IH by exact Hs. rewrite total_cons. reflexivity.
    + destruct (stop _); [cbn; rewrite Z.add_0_r; reflexivity|]. rewrite IH by exact Hs. rewrite total_cons. reflexivity.
    + destruct (stop _); [cbn; rewrite Z.add_0_r; reflexivity|]. rewrite IH by exact Hs. rewrite total_cons. reflexivity.
    + rewrite Hd by reflexivity. rewrite IH by exact Hs. rewrite total_cons. reflexivity.
Qed.

Lemma scanUntil_range : forall stop l acc, 0 <= acc < two64 -> 0 <= scanUntil stop l acc < two64.
Proof.
  intros stop l. induction l as [|p l IH]; intros acc H; cbn [scanUntil]; [exact H|].
  destruct p; try (destruct (stop _)); try apply IH; try exact H.
  unfold w64. apply Z.mod_pos_bound. reflexivity.
Qed.

Lemma total_nonneg : forall l, 0 <= total_samples l.
Proof. induction l as [|p l IH]; [cbn; lia|]. rewrite total_cons. destruct p; cbn [samples_of]; lia. Qed.
Lemma before_first_le : forall f l, total_samples (before_first f l) <= total_samples l.
Proof.
  induction l as [|p l IH]; cbn [before_first]; [lia|].
  destruct (f p); rewrite !total_cons; [|lia].
  change (total_samples []) with 0. pose proof (total_nonneg l). destruct p; cbn [samples_of]; lia.
Qed.
Lemma before_first_none : forall f l, cnt f l = 0 -> before_first f l = l.
Proof.
  induction l as [|p l IH]; intros H; [reflexivity|]. rewrite cnt_cons in H. cbn [before_first].
  pose proof (Nat2Z.is_nonneg (length (filter f l))) as Hn. fold (cnt f l) in Hn.
  destruct (f p); [lia|]. rewrite IH by lia. reflexivity.
Qed.
Lemma cnt_le : forall f l, cnt f l <= Z.of_nat (length l).
Proof. intros. unfold cnt. apply inj_le. induction l as [|p l IH]; cbn; [lia|]. destruct (f p); cbn; lia. Qed.
Lemma cnt_nonneg : forall f l, 0 <= cnt f l.
Proof. intros. unfold cnt. lia. Qed.
Lemma cnt_exists : forall f l, cnt f l = 0 <-> existsb f l = false.
Proof.
  intros f l. induction l as [|p l IH]; [split; reflexivity|]. rewrite cnt_cons. cbn [existsb].
  pose proof (cnt_nonneg f l).
  destruct (f p); cbn [orb]; [|rewrite <- IH; lia]. split; [lia|discriminate].
Qed.

Lemma w64_eq0 : forall l f, Z.of_nat (length l) < two64 -> (w64 (cnt f l) =? 0) = negb (existsb f l).
Proof.
  intros l f H. pose proof (cnt_le f l). pose proof (cnt_nonneg f l).
  rewrite w64_small by lia. destruct (cnt_exists f l) as [A B]. destruct (existsb f l) eqn:E; cbn.
  - apply Z.eqb_neq. intros K. specialize (A K). discriminate.
  - apply Z.eqb_eq. apply B. reflexivity.
Qed.

Lemma existsb_event : forall l, forallb okq l = true -> existsb isEventPacket l = existsb isDesc l || existsb isGap l.
Proof.
  induction l as [|p l IH]; intros H; [reflexivity|]. cbn [forallb] in H. apply andb_prop in H.
  cbn [existsb]. rewrite IH by tauto. destruct p; cbn in *; try reflexivity; try (destruct H; discriminate); destruct (existsb isDesc l); reflexivity.
Qed.

Lemma scan_exact : forall stop l, (forall p, stop p = true -> isEventPacket p = true) -> total_samples l < two64 ->
  scanUntil stop l 0 = total_samples (before_first stop l).
Proof.
  intros stop l Hs Hb.
  assert (Hr : 0 <= scanUntil stop l 0 < two64) by (apply scanUntil_range; unfold two64; lia).
  pose proof (scanUntil_spec stop l 0 Hs) as E. pose proof (before_first_le stop l). pose proof (total_nonneg (before_first stop l)).
  rewrite w64_small in E by exact Hr. rewrite Z.add_0_l, w64_small in E by lia. exact E.
Qed.

Lemma isEvent_eq : forall p, isEvent p = isEventPacket p.
Proof. intros []; reflexivity. Qed.
Lemma before_first_ext : forall f g l, (forall p, f p = g p) -> before_first f l = before_first g l.
Proof. intros f g l H. induction l as [|p l IH]; cbn; [reflexivity|]. rewrite H, IH. reflexivity. Qed.

Lemma counters_exact : forall g ops, (forall o, In o ops -> op_ok g o) ->
  let c := final g ops in
  Z.of_nat (length (packets c)) < two64 -> total_samples (packets c) < two64 ->
  getPacketCount c = length (packets c) /\
  getAvailableSamples c = total_samples (packets c) /\
  hasEventPacket c = existsb isEventPacket (packets c) /\
  hasGapPacket c = existsb isGap (packets c) /\
  getSamplesUntilNextEventPacket c = total_samples (before_first isEventPacket (packets c)) /\
  getSamplesUntilNextDescriptor c = total_samples (before_first isDesc (packets c)) /\
  getSamplesUntilNextGapPacket c = total_samples (before_first isGap (packets c)).
Proof.
  intros g ops HO c Hl Hs. destruct (counters_inv g ops HO) as (A & B & C & D). fold c in A, B, C, D.
  pose proof (total_nonneg (packets c)) as Hp.
  rewrite w64_small in D by lia.
  pose proof (w64_eq0 (packets c) isDesc Hl) as ED. pose proof (w64_eq0 (packets c) isGap Hl) as EG.
  rewrite <- B in ED. rewrite <- C in EG.
  split; [reflexivity|]. split; [exact D|].
  split. { unfold hasEventPacket. rewrite ED, EG, existsb_event, !negb_involutive by exact A. reflexivity. }
  split. { unfold hasGapPacket. rewrite EG, negb_involutive. reflexivity. }
  split; [|split].
  - unfold getSamplesUntilNextEventPacket. rewrite ED, EG.
    destruct (existsb isDesc (packets c)) eqn:X1, (existsb isGap (packets c)) eqn:X2; cbn [negb andb].
    4: { rewrite D. f_equal. symmetry. apply before_first_none. apply cnt_exists.
         rewrite existsb_event, X1, X2 by exact A. reflexivity. }
    all: rewrite scan_exact; [f_equal; apply before_first_ext; apply isEvent_eq | intros p; rewrite isEvent_eq; auto | exact Hs].
  - unfold getSamplesUntilNextDescriptor. rewrite ED. destruct (existsb isDesc (packets c)) eqn:X1; cbn [negb].
    + rewrite scan_exact; [reflexivity | intros [] E; try discriminate; reflexivity | exact Hs].
    + rewrite D. f_equal. symmetry. apply before_first_none. apply cnt_exists. exact X1.
  - unfold getSamplesUntilNextGapPacket. rewrite EG. destruct (existsb isGap (packets c)) eqn:X1; cbn [negb].
    + rewrite scan_exact; [reflexivity | intros [] E; try discriminate; reflexivity | exact Hs].
    + rewrite D. f_equal. symmetry. apply before_first_none. apply cnt_exists. exact X1.
Qed.

(** ** Wake-ups (C03) *)
Lemma woken_snoc : forall d t e, woken d (t ++ [e]) = woken_by d (woken d t) e.
Proof. intros. unfold woken. rewrite fold_left_app. reflexivity. Qed.

Lemma queueEmpty_onDeq : forall c p, queueEmpty (onPacketDequeued c p) = queueEmpty c.
Proof. intros c []; reflexivity. Qed.

Lemma enq_notif : forall c m a p c' u, enqueueInternal c m a p = (c', u) -> o_res u = Success ->
  is_wakeup (o_notif u) = match m with MEnqueue => queueEmpty c | _ => true end.
Proof.
  intros c m a p c' u H Hr. unfold enqueueInternal in H.
  destruct (negb a && negb (isEvent p)); [injection H as <- <-; discriminate|].
  fold (gapcheck c p) in H. destruct (gapcheck c p); injection H as <- <-; try discriminate.
  destruct m; cbn; [destruct (queueEmpty c)| |]; reflexivity.
Qed.

Lemma no_lost_wakeup : forall g ops,
  (forall o, In o ops -> isLastDescOp o = false) ->
  packets (final g ops) <> [] -> woken drained_by_dequeue (trace g ops) = true.
Proof.
  intros g ops HO.
  cut ((packets (final g ops) <> [] -> queueEmpty (final g ops) = false) /\
       (queueEmpty (final g ops) = false -> woken drained_by_dequeue (trace g ops) = true)); [tauto|].
  revert HO. unfold final, trace.
  apply (history_ind (fun c t ops => (forall o, In o ops -> isLastDescOp o = false) ->
    (packets c <> [] -> queueEmpty c = false) /\ (queueEmpty c = false -> woken drained_by_dequeue t = true)) (init g)).
  - intros _. split; cbn; congruence.
  - intros ops' o IH HO.
    destruct IH as [I1 I2]; [intros x Hx; apply HO; apply in_or_app; left; exact Hx|].
    rewrite woken_snoc. set (c := fst (run (init g) ops')) in *. set (t := snd (run (init g) ops')) in *.
    unfold woken_by. cbn [snd].
    destruct o as [m a p|a ps| | |n| |]; cbn [step].
    + destruct (enqueueInternal c m a p) as [c' u] eqn:E. cbn [fst snd].
      destruct (enq_queue _ _ _ _ _ _ E) as [(Hr & -> & _ & Hn)|(Hr & _ & Hq & Hp)].
      * rewrite Hn. cbn [is_wakeup drained_by_dequeue]. split; [exact I1|exact I2].
      * split; [intros _; exact Hq|]. intros _. rewrite (enq_notif _ _ _ _ _ _ E Hr).
        cbn [drained_by_dequeue]. destruct m; try reflexivity. destruct (queueEmpty c); [reflexivity|]. apply I2; reflexivity.
    + unfold enqueueMultiple. destruct a; cbn [negb fst snd o_notif mk is_wakeup drained_by_dequeue].
      * split; [reflexivity|]. intros _. destruct (queueEmpty c); [reflexivity|]. apply I2; reflexivity.
      * split; assumption.
    + unfold dequeue. destruct (packets c) as [|p l] eqn:El; cbn.
      * rewrite El. split; congruence.
      * rewrite packets_onDeq, queueEmpty_onDeq. cbn. split; [intros _; apply I1; congruence|exact I2].
    + cbn. split; [congruence|exact I2].
    + cbn [dequeueUpTo fst snd o_notif mk is_wakeup drained_by_dequeue]. destruct (gap_count (set_packets c (skipn (Nat.min n (length (packets c))) (packets c)))) as (_ & _ & _ & -> & _).
      rewrite packets_count. cbn [set_packets packets queueEmpty]. split; [|exact I2]. intros H. apply I1. intros K. rewrite K in H.
      rewrite skipn_nil in H. contradiction.
    + unfold peek. destruct (packets c) eqn:El; cbn; rewrite El; split; assumption.
    + specialize (HO EnqLastDescriptor). cbn in HO. discriminate HO. apply in_or_app; right; left; reflexivity.
Qed.

(** ** Acceptance rule (C01) *)
Lemma accept_rule_nogap : forall ops m a p,
  let c := final false ops in
  o_res (snd (step c (Enq m a p))) = (if a || isEventPacket p then Success else Ignored).
Proof.
  intros ops m a p c.
  assert (Hd : gapCheckState c = GDisabled).
  { apply (history_ind (fun c _ _ => gapCheckState c = GDisabled) (init false)); [reflexivity|].
    intros; apply step_disabled; assumption. }
  cbn [step]. unfold enqueueInternal. rewrite Hd, isEvent_eq.
  destruct a, (isEventPacket p); reflexivity.
Qed.

Lemma accept_multi : forall c a ps, o_res (snd (step c (EnqMultiple a ps))) = (if a then Success else Ignored).
Proof. intros c [] ps; reflexivity. Qed.
