(** C16, C17, C39, C40: the streaming server's signals, clients and subscribers. *)
From Verif Require Import Base Bytes PStr_Model PStr_Proofs SMgr_Model SMgr_Spec SMgr_Proofs.
Local Open Scope Z_scope.

(** ** C16: start and stop requests alternate and follow the subscribers *)
Lemma alternate_snoc : forall l b x, alternate b l -> x = (if l then b else negb (last l false)) -> alternate b (l ++ [x]).
Proof.
  induction l as [|y l IH]; intros b x H E; cbn [app alternate]; auto. destruct H as [-> H]. split; auto. apply IH; auto.
  rewrite E. destruct l; cbn [last]; auto.
Qed.

Theorem c16_streaming_edges_partial : forall cache thr h s, valid h ->
  alternate true (edges cache thr s h)
  /\ (running (edges cache thr s h) = true <-> subscribers s h <> []).
Proof.
  induction h as [|o h IH]; intros s HV.
  - cbn. split; [auto|]. split; intros H; [discriminate|congruence].
  - pose proof (after_step cache thr h o HV) as K. destruct HV as [HP HV]. destruct (IH s HV) as [A B].
    cbn [edges]. rewrite (k_edges _ _ _ _ _ K). unfold change, running in *.
    destruct (subscribers s h) as [|x l]; destruct (subscribers s (o :: h)) as [|y l'] eqn:E.
    + rewrite app_nil_r. split; auto.
    + assert (L : last (edges cache thr s h) false = false).
      { destruct (last (edges cache thr s h) false); auto. destruct B as [B _]. now specialize (B eq_refl). }
      split.
      * apply alternate_snoc; auto. rewrite L. destruct (edges cache thr s h); reflexivity.
      * rewrite last_last. split; congruence.
    + assert (L : last (edges cache thr s h) false = true) by (apply B; congruence).
      split.
      * apply alternate_snoc; auto. rewrite L. destruct (edges cache thr s h); [discriminate|reflexivity].
      * rewrite last_last. split; congruence.
    + rewrite app_nil_r. split; auto. split; [congruence|]. intros _. apply B. congruence.
Qed.

(** ** C17: a client is sent exactly the packets due to it, in order *)
Lemma queue_pending : forall cache thr c h, pending cache thr c h = queue_of c (after cache thr h).
Proof. reflexivity. Qed.

Theorem c17_delivery_partial : forall cache thr h c, valid h -> connected c h = true ->
  sent cache thr c h ++ pending cache thr c h = all_due c h.
Proof.
  induction h as [|o h IH]; intros c HV CC; [discriminate|].
  pose proof (after_step cache thr h o HV) as K. destruct HV as [HP HV].
  cbn [sent all_due]. rewrite queue_pending. destruct (begins c o && negb (connected c h)) eqn:BG.
  - destruct (k_begin _ _ _ _ _ K c BG) as [E1 E2]. rewrite E1, E2. cbn [app].
    destruct o; cbn [begins andb] in BG; try discriminate. reflexivity.
  - rewrite <- app_assoc, (k_sent _ _ _ _ _ K c CC BG), app_assoc, <- queue_pending. f_equal. apply IH; auto.
    cbn [connected] in CC. apply andb_false_iff in BG.
    destruct o; auto; cbn [begins] in BG.
    + apply orb_true_iff in CC. destruct BG as [BG|BG]; [destruct CC; congruence|]. now apply negb_false_iff in BG.
    + apply andb_true_iff in CC. tauto.
Qed.

(** nothing stays behind after a direct send or after the queues are drained *)
Theorem c17_send_is_prompt_partial : forall cache thr h s p c, valid (Send s p :: h) -> In c (subscribers s h) ->
  pending cache thr c (Send s p :: h) = [].
Proof.
  intros cache thr h s p c [HP HV] H. rewrite queue_pending. cbn [after].
  pose proof (send_step h _ s p (after_inv cache thr h HV) HP) as K.
  destruct (step (after cache thr h) (Send s p)) as [m' os]. now apply K.
Qed.

Theorem c17_drain_is_complete_partial : forall cache thr h c, valid h -> pending cache thr c (Drain :: h) = [].
Proof.
  intros cache thr h c HV. rewrite queue_pending. cbn [after].
  pose proof (drain_step h _ (after_inv cache thr h HV)) as K.
  destruct (step (after cache thr h) Drain) as [m' os]. now apply K.
Qed.

(** A client never sees a packet of a signal while it is not subscribed. *)
Theorem c17_only_subscribers_partial : forall cache thr h o c n p, valid (o :: h) -> connected c h = true ->
  In (Sent c n p) (says cache thr h o) -> pending cache thr c h = [] ->
  (exists s q, In q (carried s o) /\ p = q /\ n = number s h /\ In c (subscribers s h))
  \/ (exists s, o = Subscribe c s true /\ subscribers s h <> [] /\ n = number s h /\ exists v, fst (latest s h) = Some v /\ p = PDesc (Some v) (snd (latest s h))).
Proof.
  intros cache thr h o c n p HV CC HI PE. pose proof (after_step cache thr h o HV) as K. destruct HV as [HP HV].
  assert (BG : begins c o && negb (connected c h) = false) by (rewrite CC; apply andb_false_r).
  assert (IN : In (n, p) (flat_map (sent_to c) (says cache thr h o))).
  { apply in_flat_map. exists (Sent c n p). split; auto. cbn [sent_to]. rewrite Z.eqb_refl. now left. }
  destruct (connected c (o :: h)) eqn:CO.
  - pose proof (k_sent _ _ _ _ _ K c CO BG) as E. change (queue_of c (after cache thr h)) with (pending cache thr c h) in E. rewrite PE in E. cbn [app] in E.
    assert (IN2 : In (n, p) (due c h o)). { rewrite <- E. apply in_or_app. now left. }
    clear E IN. destruct o; cbn [due] in IN2; try (destruct IN2; fail).
    + right. destruct HP as [_ ->]. destruct (Z.eqb_spec c0 c) as [->|]; [|destruct IN2].
      exists s. destruct (mem c (subscribers s h)); [destruct IN2|].
      destruct (subscribers s h); [destruct IN2|]. destruct (latest s h) as [[v|] d]; [|destruct IN2].
      destruct IN2 as [E|[]]. inversion E; subst. repeat split; auto; try congruence. exists v. auto.
    + left. unfold due1 in IN2. cbn [fst snd] in IN2. destruct (mem c (subscribers s h)) eqn:M; [|destruct IN2].
      destruct IN2 as [E|[]]. inversion E; subst. exists s, p. cbn [carried]. rewrite Z.eqb_refl. apply mem_In in M. repeat split; auto. now left.
    + left. apply in_flat_map in IN2. destruct IN2 as ((s, q) & H1 & H2). unfold due1 in H2. cbn [fst snd] in H2.
      destruct (mem c (subscribers s h)) eqn:M; [|destruct H2]. destruct H2 as [E|[]]. inversion E; subst.
      exists s, p. apply mem_In in M. repeat split; auto. cbn [carried]. apply in_map_iff. exists (s, p). split; auto.
      apply filter_In. split; auto. cbn [fst]. apply Z.eqb_refl.
  - exfalso. assert (o = Disconnect c) as ->.
    { destruct o; cbn [connected] in CO; try congruence.
      - rewrite CC, orb_true_r in CO. discriminate.
      - rewrite CC, andb_true_r in CO. destruct (Z.eqb_spec c0 c); [congruence|discriminate]. }
    unfold says in HI. cbn [step] in HI. destruct (unregisterClient c (after cache thr h)). cbn [snd] in HI.
    apply in_map_iff in HI. destruct HI as (? & E & _). discriminate.
Qed.

(** ** C39: a client's list of available signals is the server's *)
Lemma told_offers : forall cache thr h c, valid h -> connected c h = true -> told cache thr c h = offers (after cache thr h).
Proof.
  induction h as [|o h IH]; intros c HV CC; [discriminate|].
  pose proof (after_step cache thr h o HV) as K. destruct HV as [HP HV]. cbn [told].
  rewrite <- (k_told _ _ _ _ _ K c CC). f_equal. destruct (begins c o && negb (connected c h)) eqn:BG; auto. apply IH; auto.
  cbn [connected] in CC. apply andb_false_iff in BG.
  destruct o; auto; cbn [begins] in BG.
  - apply orb_true_iff in CC. destruct BG as [BG|BG]; [destruct CC; congruence|]. now apply negb_false_iff in BG.
  - apply andb_true_iff in CC. tauto.
Qed.

Theorem c39_signal_list_partial : forall cache thr h c, valid h -> connected c h = true ->
  NoDup (map snd (told cache thr c h))
  /\ forall n s, In (n, s) (told cache thr c h) <-> registered s h = true /\ n = number s h.
Proof.
  intros cache thr h c HV CC. rewrite told_offers by auto. destruct (after_inv cache thr h HV) as [HI _]. split.
  - unfold offers. rewrite map_map. cbn [snd]. apply (i_keys _ _ _ _ _ _ _ HI).
  - intros n s. pose proof (i_regs _ _ _ _ _ _ _ HI s) as IR. cbn beta in IR. unfold offers. rewrite in_map_iff. split.
    + intros ((x, r) & E & IN). cbn [fst snd] in E. inversion E; subst. apply In_lookup in IN; [|apply (i_keys _ _ _ _ _ _ _ HI)].
      rewrite IN in IR. destruct IR as (R1 & _ & R3 & _). auto.
    + intros [R ->]. destruct (lookup s (regs (after cache thr h))) as [r|] eqn:L; [|congruence].
      destruct IR as (_ & _ & R3 & _). exists (s, r). cbn [fst snd]. split; [now rewrite R3|]. now apply lookup_In.
Qed.

(** Numbers of signals on offer differ, and a number is never given twice, as
    long as fewer than 2^32 signals are ever added. *)
Lemma number_range : forall s h, added h < 4294967296 -> 0 <= number s h <= added h /\ (registered s h = true -> 1 <= number s h).
Proof.
  induction h as [|o h IH]; intros H; [cbn; lia|].
  assert (0 <= added h) by (clear; induction h as [|o h IH]; cbn; [lia|destruct o; try lia; destruct (registered s h); lia]).
  destruct o; cbn [registered number added] in *; try (apply IH; assumption).
  - destruct (Z.eqb_spec s0 s) as [->|]; cbn [andb orb].
    + destruct (registered s h) eqn:R; cbn [negb].
      * rewrite Z.add_0_r in *. specialize (IH H). tauto.
      * unfold w32. rewrite Z.mod_small by (cbn; lia). lia.
    + destruct (registered s0 h); (split; [|intros; apply IH; auto; lia]); destruct IH; lia.
  - specialize (IH H). split; [tauto|]. intros X. apply andb_true_iff in X. tauto.
Qed.

Theorem c17_numbers_distinct_partial : forall h s s', added h < 4294967296 ->
  registered s h = true -> registered s' h = true -> number s h = number s' h -> s = s'.
Proof.
  induction h as [|o h IH]; intros s s' H R R' E; [discriminate|].
  assert (0 <= added h) by (clear; induction h as [|o h IH]; cbn; [lia|destruct o; try lia; destruct (registered s h); lia]).
  destruct o as [z|l|cc b|cc z ok|cc z|cc|z pp|l|]; cbn [registered number added] in *; try (eapply IH; eauto; fail).
  - assert (BND : forall x, registered x h = true -> registered z h = false -> number x h < w32 (added h + 1)).
    { intros x RX RZ. rewrite RZ in H. unfold w32. rewrite Z.mod_small by (cbn; lia).
      assert (HL : added h < 4294967296) by lia. destruct (number_range x h HL). lia. }
    assert (HL : added h < 4294967296) by (destruct (registered z h); lia).
    destruct (Z.eqb_spec z s) as [E1|E1]; destruct (Z.eqb_spec z s') as [E2|E2]; try subst z; cbn [andb orb] in *; auto.
    + destruct (registered s h) eqn:RS; cbn [negb] in *; [eauto|]. specialize (BND s' R' eq_refl). lia.
    + destruct (registered s' h) eqn:RS; cbn [negb] in *; [eauto|]. specialize (BND s R eq_refl). lia.
  - apply andb_true_iff in R. apply andb_true_iff in R'. eapply IH; eauto; tauto.
Qed.

(** ... as the clients see it: no two signals they know share a number. *)
Theorem c17_told_numbers_distinct_partial : forall cache thr h c n s s', valid h -> connected c h = true -> added h < 4294967296 ->
  In (n, s) (told cache thr c h) -> In (n, s') (told cache thr c h) -> s = s'.
Proof.
  intros cache thr h c n s s' HV CC HA H H'. destruct (c39_signal_list_partial cache thr h c HV CC) as [_ K].
  apply K in H. apply K in H'. eapply c17_numbers_distinct_partial; eauto; try tauto. destruct H, H'. congruence.
Qed.

Theorem c17_numbers_fresh_partial : forall h s s', added h < 4294967295 ->
  registered s h = false -> registered s' h = true -> number s' h < number s (AddSignal s :: h)
  /\ forall h' h0, h = h' ++ h0 -> number s' h0 < number s (AddSignal s :: h).
Proof.
  intros h s s' H R R'. cbn [number]. rewrite R, Z.eqb_refl. cbn [andb negb].
  assert (P : 0 <= added h) by (clear; induction h as [|o h IH]; cbn; [lia|destruct o; try lia; destruct (registered s h); lia]).
  assert (W : w32 (added h + 1) = added h + 1) by (unfold w32; rewrite Z.mod_small; [reflexivity|cbn; lia]).
  rewrite W. split.
  - assert (HL : added h < 4294967296) by lia. destruct (number_range s' h HL). lia.
  - intros h' h0 ->. assert (added h0 <= added (h' ++ h0)).
    { clear. induction h' as [|o h' IH]; cbn [app added]; [lia|]. destruct o; try lia. destruct (registered s (h' ++ h0)); lia. }
    assert (HL : added h0 < 4294967296) by lia. destruct (number_range s' h0 HL). lia.
Qed.

(** ** Where the claims fail *)

(** C16: adding and removing a signal 2^32 times brings its number back: one
    signal that stays and one that comes and goes end up with the same number. *)
Fixpoint churn (n : nat) : list op :=
  match n with O => [AddSignal 1] | S k => RemoveSignals [2] :: AddSignal 2 :: churn k end.

Lemma churn_facts : forall n, registered 1 (churn n) = true /\ registered 2 (churn n) = false /\ number 1 (churn n) = 1
  /\ added (churn n) = Z.of_nat n + 1 /\ valid (churn n).
Proof.
  induction n as [|n (A & B & C & D & E)]; [repeat split; auto|].
  cbn [churn registered number added valid polite mem existsb Z.eqb Pos.eqb orb andb negb]. rewrite A, B, C, D.
  repeat split; auto. lia.
Qed.

Theorem c17_numbers_refuted : exists h, valid h /\ exists s s', s <> s' /\ registered s h = true /\ registered s' h = true
  /\ number s h = number s' h.
Proof.
  exists (AddSignal 2 :: churn (Z.to_nat 4294967295)). destruct (churn_facts (Z.to_nat 4294967295)) as (A & B & C & D & E).
  rewrite Z2Nat.id in D by lia. revert A B C D E. generalize (churn (Z.to_nat 4294967295)) as h. intros h A B C D E.
  split; [split; [exact I|assumption]|]. exists 1, 2. split; [lia|]. cbn [registered number Z.eqb Pos.eqb orb andb]. rewrite A, B, C, D.
  repeat split; auto.
Qed.

(** C16, C17: a client that subscribes without having asked for streaming is
    accepted when it comes first, stays subscribed when it disconnects - so the
    signal is never stopped - and makes every later packet of the signal fail
    for the subscribers after it. *)
Theorem c16_c17_ghost_refuted : exists h s c other, connected c h = false /\ other <> c
  /\ running (edges 0 0 s (Disconnect c :: h)) = true
  /\ says 0 0 (Subscribe other s true :: Init other false :: Disconnect c :: h) (Send s (PEvent 1)) = [Refused].
Proof. exists [Subscribe 9 1 true; AddSignal 1], 1, 9, 7. repeat split; try reflexivity. lia. Qed.

(** C16: when starting the signal fails the client stays recorded as its
    subscriber, so the next subscriber does not start it either. *)
Theorem c16_failed_start_refuted : exists h s c c', connected c h = true /\ connected c' h = true /\ c <> c'
  /\ says 0 0 h (Subscribe c s false) = [StartFailed s]
  /\ says 0 0 (Subscribe c s false :: h) (Subscribe c' s true) = []
  /\ subscribers s (Subscribe c' s true :: Subscribe c s false :: h) = [c; c'].
Proof. exists [Init 2 false; Init 1 false; AddSignal 1], 1, 1, 2. repeat split; try reflexivity. lia. Qed.

(** C17: a batch that fails midway drops the packets after the failing one. *)
Theorem c17_batch_refuted : exists h l c s, valid h /\ connected c h = true /\ In c (subscribers s h) /\ carried s (Process l) <> []
  /\ says 0 0 h (Process l) = [Refused] /\ pending 0 0 c (Process l :: h) = pending 0 0 c h.
Proof.
  exists [Subscribe 1 1 true; Init 1 false; AddSignal 1], [(2, PEvent 0); (1, PEvent 1)], 1, 1.
  repeat split; try reflexivity; [now left|discriminate].
Qed.

(** ** C40: the two streaming settings reach the packet server exchanged *)
Theorem c40_settings_refuted : exists cache thr h c v, valid h /\ cache <> thr
  /\ lookup c (servers (after cache thr h)) = Some v /\ cacheMax v = thr /\ threshold v = cache.
Proof.
  exists 512, 3, [Init 1 false], 1, {| knows := []; queue := []; cacheMax := 3; threshold := 512 |}.
  repeat split; try reflexivity. lia.
Qed.

(** they always are *)
Lemma push_cfg : forall cs n p m, (forall c v, lookup c (servers m) = Some v -> cacheMax v = cfgThreshold m /\ threshold v = cfgCache m) ->
  let m' := fst (push_all cs n p m) in cfgCache m' = cfgCache m /\ cfgThreshold m' = cfgThreshold m /\
  (forall c v, lookup c (servers m') = Some v -> cacheMax v = cfgThreshold m /\ threshold v = cfgCache m).
Proof.
  induction cs as [|c cs IH]; intros n p m H; cbn [push_all]; cbv zeta; [auto|].
  destruct (lookup c (servers m)) as [v|] eqn:L; [|auto]. destruct (addDaqPacket n p v) as [v'|] eqn:A; [|auto].
  apply (IH n p (set_servers (update c v' (servers m)) m)). cbn [set_servers servers cfgThreshold cfgCache].
  intros x w. rewrite lookup_update. destruct (Z.eqb_spec x c) as [->|]; [|apply H]. rewrite L. intros E. inversion E; subst.
  apply H in L. unfold addDaqPacket in A. destruct p as [[?|] ?|?|?]; [| | |destruct (mem n (knows v)); [|discriminate]]; inversion A; subst; exact L.
Qed.

Definition exchanged (m : mgr) : Prop := forall c v, lookup c (servers m) = Some v -> cacheMax v = cfgThreshold m /\ threshold v = cfgCache m.
Definition same_cfg (m m' : mgr) : Prop := cfgCache m' = cfgCache m /\ cfgThreshold m' = cfgThreshold m.

Lemma addDaq_cfg : forall n p v v', addDaqPacket n p v = Some v' -> cacheMax v' = cacheMax v /\ threshold v' = threshold v.
Proof.
  intros n p v v' A. unfold addDaqPacket in A. destruct p as [[?|] ?|?|?]; [| | |destruct (mem n (knows v)); [|discriminate]]; inversion A; subst; auto.
Qed.

Lemma send1_cfg : forall c n p m, exchanged m -> let m' := fst (fst (sendDaqPacket c n p m)) in exchanged m' /\ same_cfg m m'.
Proof.
  intros c n p m H. unfold sendDaqPacket. destruct (lookup c (servers m)) as [v|] eqn:L; [|cbn; unfold same_cfg; auto].
  destruct (addDaqPacket n p v) as [v'|] eqn:A; [|cbn; unfold same_cfg; auto]. cbn [fst]. split; [|split; reflexivity].
  intros x w. cbn [set_servers servers cfgThreshold cfgCache]. rewrite lookup_update. destruct (Z.eqb_spec x c) as [->|]; [|apply H].
  rewrite L. intros E. inversion E; subst. cbn [emptied cacheMax threshold]. apply addDaq_cfg in A. destruct A as [-> ->]. now apply H in L.
Qed.

Lemma send_all_cfg : forall cs n p m, exchanged m -> let m' := fst (fst (send_all cs n p m)) in exchanged m' /\ same_cfg m m'.
Proof.
  induction cs as [|c cs IH]; intros n p m H; cbn [send_all]; cbv zeta; [cbn; unfold same_cfg; auto|].
  pose proof (send1_cfg c n p m H) as K. destruct (sendDaqPacket c n p m) as [[m1 o1] [|]]; cbn [fst] in *; auto.
  destruct K as [K1 K2]. specialize (IH n p m1 K1). destruct (send_all cs n p m1) as [[m2 o2] ok]. cbn [fst] in *.
  destruct IH as [I1 I2]. split; auto. unfold same_cfg in *. destruct I2, K2. split; congruence.
Qed.

Lemma remove_cfg : forall l m o, exchanged m -> let m' := fst (fold_left remove_one l (m, o)) in exchanged m' /\ same_cfg m m'.
Proof.
  induction l as [|s l IH]; intros m o H; cbn [fold_left]; cbv zeta; [cbn; unfold same_cfg; auto|].
  unfold remove_one at 2 4. destruct (lookup s (regs m)); [|now apply IH].
  apply (IH (removeSignal s m)). exact H.
Qed.

Lemma process_cfg : forall l m, exchanged m -> let m' := fst (processPackets l m) in exchanged m' /\ same_cfg m m'.
Proof.
  induction l as [|[s p] l IH]; intros m H; cbn [processPackets]; cbv zeta; [cbn; unfold same_cfg; auto|].
  assert (K : exchanged (fst (processPacket s p m)) /\ same_cfg m (fst (processPacket s p m))).
  { unfold processPacket. destruct (lookup s (regs m)) as [r|]; [|cbn; unfold same_cfg; auto].
    destruct (push_cfg (subs (note_descriptors p r)) (num (note_descriptors p r)) p (set_regs (update s (note_descriptors p r) (regs m)) m) H) as (K1 & K2 & K3).
    unfold exchanged, same_cfg. rewrite K1, K2. auto. }
  destruct (processPacket s p m) as [m1 [|]]; cbn [fst] in *; auto. destruct K as [K1 K2]. specialize (IH m1 K1).
  destruct (processPackets l m1) as [m2 ok]; cbn [fst] in *. destruct IH as [I1 I2]. split; auto. unfold same_cfg in *. destruct I2, K2. split; congruence.
Qed.

Lemma step_cfg : forall m o, exchanged m -> let m' := fst (step m o) in exchanged m' /\ same_cfg m m'.
Proof.
  intros m o H. assert (REFL : exchanged m /\ same_cfg m m) by (unfold same_cfg; auto). destruct o; cbn [step]; cbv zeta.
  - unfold registerSignal. destruct (lookup s (regs m)); cbn [fst]; auto.
  - now apply remove_cfg.
  - unfold registerClient. destruct (mem c (clients m)); cbn [fst]; auto. split; [|split; reflexivity].
    intros x v. cbn [servers cfgThreshold cfgCache].
    assert (KEPT : forall w, lookup x (if reconnected then servers m else erase c (servers m)) = Some w -> cacheMax w = cfgThreshold m /\ threshold w = cfgCache m).
    { intros w. destruct reconnected; [apply H|]. rewrite lookup_erase. destruct (x =? c); [discriminate|apply H]. }
    destruct (lookup c (if reconnected then servers m else erase c (servers m))) eqn:L; [apply KEPT|].
    rewrite lookup_app. destruct (lookup x (if reconnected then servers m else erase c (servers m))) eqn:LX.
    + intros E. inversion E; subst. now apply KEPT.
    + cbn [lookup]. destruct (c =? x); [|discriminate]. intros E. inversion E; subst. auto.
  - unfold registerSignalSubscriber. destruct (lookup s (regs m)) as [r|]; cbn [fst]; auto.
    destruct (mem c (subs r)); cbn [fst]; auto. destruct (subs r); cbn [fst]; auto. destruct (lastV r); cbn [fst]; auto.
    pose proof (send1_cfg c (num r) (PDesc (Some z0) (lastD r)) m H) as K. destruct (sendDaqPacket c (num r) (PDesc (Some z0) (lastD r)) m) as [[m1 o1] [|]]; cbn [fst] in *; auto.
  - unfold removeSignalSubscriber. destruct (lookup s (regs m)) as [r|]; cbn [fst]; auto. destruct (removeSubscriber c r). cbn [fst]. auto.
  - unfold unregisterClient. destruct (mem c (clients m)); cbn [fst]; auto. split; [|split; reflexivity].
    intros x v. cbn [servers cfgThreshold cfgCache]. rewrite lookup_erase. destruct (x =? c); [discriminate|]. apply H.
  - unfold sendPacketToSubscribers. destruct (lookup s (regs m)) as [r|]; cbn [fst]; auto.
    pose proof (send_all_cfg (subs (note_descriptors p r)) (num (note_descriptors p r)) p (set_regs (update s (note_descriptors p r) (regs m)) m) H) as K.
    destruct (send_all _ _ _ _) as [[m1 o1] ok]. exact K.
  - pose proof (process_cfg l m H) as K. destruct (processPackets l m). exact K.
  - unfold drain. cbn [fst]. split; [|split; reflexivity]. intros x v. cbn [set_servers servers cfgThreshold cfgCache].
    rewrite (map_ext _ (fun e : Z * psrv => (fst e, (fun c w => if mem c (clients m) then emptied w else w) (fst e) (snd e)))).
    + rewrite (lookup_map (fun c w => if mem c (clients m) then emptied w else w)). destruct (lookup x (servers m)) as [w|] eqn:L; cbn [option_map]; [|discriminate]. intros E. inversion E; subst.
      apply H in L. destruct (mem x (clients m)); exact L.
    + intros [y w]. cbn [fst snd]. destruct (mem y (clients m)); reflexivity.
Qed.

Theorem c40_settings_exchanged : forall cache thr h c v,
  lookup c (servers (after cache thr h)) = Some v -> cacheMax v = thr /\ threshold v = cache.
Proof.
  intros cache thr h. assert (K : exchanged (after cache thr h) /\ same_cfg (mgr_init cache thr) (after cache thr h)).
  { induction h as [|o h [I1 I2]]; cbn [after].
    - split; [intros c v; discriminate|split; reflexivity].
    - destruct (step_cfg (after cache thr h) o I1) as [K1 K2]. split; auto. unfold same_cfg in *. destruct I2, K2. split; congruence. }
  destruct K as [K1 [K2 K3]]. intros c v L. destruct (K1 c v L) as [-> ->]. cbn in K2, K3. auto.
Qed.

(** ** A concrete history *)
Definition busy : list op :=
  [Drain; Process [(1, PData 12); (2, PEvent 5)]; Send 1 (PData 11); Subscribe 21 1 true; Send 1 (PDesc (Some 7) (Some 8));
   Subscribe 20 2 true; Subscribe 20 1 true; Init 21 false; AddSignal 2; Init 20 false; AddSignal 1].

Example busy_valid : valid busy.
Proof.
  cbn [valid busy polite]. repeat split; try reflexivity; try (right; reflexivity); try (left; reflexivity).
  - cbn [In map fst] in H. destruct H as [<-|[<-|[]]]; reflexivity.
  - cbn [In map fst] in H. destruct H as [<-|[<-|[]]]; right; reflexivity.
Qed.
Example busy_run : connected 20 busy = true /\ connected 21 busy = true
  /\ sent 0 0 20 busy = [(1, PDesc (Some 7) (Some 8)); (1, PData 11); (1, PData 12); (2, PEvent 5)]
  /\ sent 0 0 21 busy = [(1, PDesc (Some 7) (Some 8)); (1, PData 11); (1, PData 12)]
  /\ told 0 0 21 busy = [(1, 1); (2, 2)] /\ told 0 0 20 busy = [(1, 1); (2, 2)]
  /\ edges 0 0 1 (Disconnect 20 :: busy) = [true] /\ edges 0 0 1 (Disconnect 21 :: Disconnect 20 :: busy) = [true; false]
  /\ pending 0 0 20 (Process [(1, PData 12)] :: Send 1 (PDesc (Some 7) None) :: Subscribe 20 1 true :: Init 20 true :: [AddSignal 1]) = [(1, PData 12)].
Proof. vm_compute. repeat split. Qed.

Print Assumptions c16_streaming_edges_partial.
Print Assumptions c17_delivery_partial.
Print Assumptions c17_send_is_prompt_partial.
Print Assumptions c17_drain_is_complete_partial.
Print Assumptions c17_only_subscribers_partial.
Print Assumptions c39_signal_list_partial.
Print Assumptions c17_numbers_distinct_partial.
Print Assumptions c17_told_numbers_distinct_partial.
Print Assumptions c17_numbers_fresh_partial.
Print Assumptions c17_numbers_refuted.
Print Assumptions c16_c17_ghost_refuted.
Print Assumptions c16_failed_start_refuted.
Print Assumptions c17_batch_refuted.
Print Assumptions c40_settings_refuted.
Print Assumptions c40_settings_exchanged.
