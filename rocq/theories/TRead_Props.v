(** C22: the tail reader returns the most recent samples, in order and aligned
    with their domain values. *)
From Verif Require Import Base TRead_Model TRead_Spec TRead_Proofs.
Local Open Scope Z_scope.

(** A call that returns no event returns the last min(n, available) of the samples
    received since the last event, and the domain values of exactly these samples.
    At least the last [history] of them are available; what is available stays so.
    The call is refused exactly when more is asked for than is or will be kept. *)
Theorem c22_last_samples_partial : forall history skip h d n s' o,
  0 <= history < two64 -> good_packets h -> calm history skip h -> 0 <= n < two64 ->
  (skip = true -> events_in (cache (after history skip h)) = 0%nat) ->
  (d = true -> Forall has_domain (since_event (received h))) ->
  step (after history skip h) (reading d n) = (s', Returned o) -> event o = None ->
  let a := getAvailableCount (after history skip h) in
  Z.min history (Z.of_nat (length (recent h))) <= a /\
  sufficient o = negb ((n >? a) && (n >? history)) /\
  (sufficient o = false -> vals o = [] /\ domain o = []) /\
  (sufficient o = true -> a <= Z.of_nat (length (recent h)) /\ vals o = last_of (Z.min n a) (recent h) /\ (d = true -> domain o = last_of (Z.min n a) (recent_domain h))) /\
  getAvailableCount s' = a /\ valid o = true.
Proof.
  intros history skip h d n s' o Hh Hg Hc Hn Hsk Hdom Hst Hev. cbv zeta.
  pose proof (inv_after history skip h Hh Hg Hc) as [I1 I2 I3 I4 I5 (x & I6 & I7) _].
  remember (after history skip h) as s. unfold getAvailableCount.
  assert (Hst' : doRead s d n = (s', Returned o)) by (destruct d; exact Hst). clear Hst.
  assert (Hpk : Forall (fun p => well_formed p /\ descriptor_or_data p) (cache s)).
  { apply Forall_forall. intros q Hq. apply I5 in Hq. destruct Hg as [Hg _]. rewrite Forall_forall in Hg. now apply Hg. }
  assert (Hwf : Forall well_formed (cache s)) by (eapply Forall_impl; [|exact Hpk]; cbn; intuition).
  assert (Hdd : Forall descriptor_or_data (cache s)) by (eapply Forall_impl; [|exact Hpk]; cbn; intuition).
  destruct Hg as [_ Hb].
  unfold doRead in Hst'. destruct (invalid s) eqn:Einv; [discriminate Hst'|].
  assert (Hq : data_only (cache s) \/ ((n >? cachedSamples s) && (n >? historySize s)) = true).
  { destruct ((n >? cachedSamples s) && (n >? historySize s)) eqn:Ein; [now right|left].
    destruct (loop d (skipEvents s) (cache s) [] 0 (cachedSamples s) false _) as [[[[c k] inv'] i'] e] eqn:El.
    rewrite I2 in El. destruct skip.
    - apply Forall_forall. intros q Hq. destruct (is_data q) eqn:Eq; [reflexivity|]. exfalso. specialize (Hsk eq_refl). unfold events_in in Hsk.
      assert (Hin : In q (filter (fun p => negb (is_data p)) (cache s))) by (apply filter_In; rewrite Eq; split; [exact Hq|reflexivity]).
      destruct (filter (fun p => negb (is_data p)) (cache s)); [contradiction Hin|discriminate Hsk].
    - assert (Hone : false = true -> (events_in (cache s) <= 1)%nat) by discriminate.
      assert (Hlt : cachedSamples s < two64) by lia.
      pose proof (loop_eff _ _ _ _ _ _ _ _ _ _ _ _ _ El (Forall_nil _) Hdd eq_refl I3 Hlt Hone) as (_ & _ & _ & _ & _ & L6 & _).
      injection Hst' as _ Ho. destruct e; [now apply L6|injection Ho as <-; discriminate Hev|discriminate Ho]. }
  assert (Hlen : forall l, Z.of_nat (length (values_of l)) = num_samples l) by reflexivity.
  assert (Htail : recent h = values_of x ++ values_of (since_event (cache s))) by (unfold recent; rewrite I6; apply values_app).
  destruct Hq as [Hq|Ein].
  - rewrite (since_all _ Hq) in *.
    assert (Hav : Z.min history (Z.of_nat (length (recent h))) <= cachedSamples s <= Z.of_nat (length (recent h))).
    { rewrite Htail, app_length, Nat2Z.inj_add, !Hlen, I3. pose proof (num_nonneg x). destruct I7 as [->|I7]; [rewrite num_nil; lia|lia]. }
    split; [apply Hav|].
    destruct ((n >? cachedSamples s) && (n >? historySize s)) eqn:Ein.
    + injection Hst' as <- <-. cbn [sufficient vals domain valid]. rewrite I1 in Ein. rewrite Ein. split; [reflexivity|]. split; [auto|]. split; [discriminate|]. split; reflexivity.
    + assert (Hd2 : d = true -> Forall has_domain (cache s)).
      { intros E. specialize (Hdom E). rewrite I6 in Hdom. apply Forall_app in Hdom. apply Hdom. }
      destruct (loop_data d (skipEvents s) (cache s) [] 0 (cachedSamples s) false
                 {| remainingToRead := n; offset := if cachedSamples s >? n then cachedSamples s - n else 0; gotv := []; gotd := [] |} Hq)
        as (i' & El & Ev & Ed); [cbn [offset]; destruct (cachedSamples s >? n) eqn:E; lia|cbn [remainingToRead]; lia|exact Hwf|exact Hd2|].
      rewrite El in Hst'. injection Hst' as <- <-. cbn [sufficient vals domain valid cachedSamples negb]. rewrite I1 in Ein. rewrite Ein.
      split; [reflexivity|]. split; [discriminate|]. split; [|split; reflexivity]. intros _.
      cbn [gotv gotd remainingToRead offset app] in Ev, Ed.
      assert (Hcut : forall A (u v : list A), Z.of_nat (length v) = cachedSamples s ->
        firstn (Z.to_nat n) (skipn (Z.to_nat (if cachedSamples s >? n then cachedSamples s - n else 0)) v) = last_of (Z.min n (cachedSamples s)) (u ++ v)).
      { clear - Hn. intros A u v Hv. unfold last_of. rewrite skipn_app, app_length.
        destruct (cachedSamples s >? n) eqn:E.
        - rewrite firstn_all2 by (rewrite skipn_length; lia). rewrite (skipn_all2 (n := _) u) by lia. cbn [app]. f_equal. lia.
        - change (Z.to_nat 0) with 0%nat. cbn [skipn]. rewrite firstn_all2 by lia. rewrite skipn_all2 by lia. cbn [app].
          replace (length u + length v - Z.to_nat (Z.min n (cachedSamples s)) - length u)%nat with 0%nat by lia. reflexivity. }
      split; [apply Hav|]. split.
      * rewrite Ev, Htail. apply Hcut. rewrite Hlen. symmetry. exact I3.
      * intros E. rewrite (Ed E). unfold recent_domain. rewrite I6, domains_app. apply Hcut.
        rewrite I3. clear - Hwf Hd2 E. specialize (Hd2 E). unfold num_samples. f_equal.
        induction (cache s) as [|p l IH]; [reflexivity|]. inversion Hwf; inversion Hd2; subst. destruct p as [smp [dl|]| |]; try contradiction.
        cbn [values_of domains_of flat_map]. rewrite !app_length. fold (values_of l). fold (domains_of l). rewrite IH by assumption. now rewrite H1.
  - rewrite Ein in Hst'. injection Hst' as <- <-. cbn [sufficient vals domain valid]. rewrite I1 in Ein. rewrite Ein.
    assert (Hav : Z.min history (Z.of_nat (length (recent h))) <= cachedSamples s).
    { rewrite Htail, app_length, Nat2Z.inj_add, !Hlen, I3. pose proof (num_nonneg x). pose proof (num_since (cache s)). destruct I7 as [->|I7]; [rewrite num_nil; lia|lia]. }
    split; [exact Hav|split; [reflexivity|split; [auto|split; [discriminate|split; reflexivity]]]].
Qed.

(** Reading never fails, whatever the history *)
Theorem c22_never_throws_partial : forall history skip h n,
  0 <= history < two64 -> good_packets h -> calm history skip h -> 0 <= n < two64 ->
  (skip = true -> (events_in (cache (after history skip h)) <= 1)%nat) ->
  snd (step (after history skip h) (Read n)) <> Thrown.
Proof.
  intros history skip h n Hh Hg Hc Hn Hsk. pose proof (inv_after history skip h Hh Hg Hc) as [I1 I2 I3 I4 I5 _ _].
  remember (after history skip h) as s. cbn [step]. unfold doRead. destruct (invalid s); [discriminate|].
  destruct ((n >? cachedSamples s) && (n >? historySize s)); [discriminate|].
  destruct (loop false (skipEvents s) (cache s) [] 0 (cachedSamples s) false _) as [[[[c k] inv'] i'] e] eqn:El. rewrite I2 in El.
  assert (Hdd : Forall descriptor_or_data (cache s)).
  { apply Forall_forall. intros q Hq. apply I5 in Hq. destruct Hg as [Hg _]. rewrite Forall_forall in Hg. now apply Hg. }
  destruct Hg as [_ Hb]. assert (Hlt : cachedSamples s < two64) by lia.
  pose proof (loop_eff _ _ _ _ _ _ _ _ _ _ _ _ _ El (Forall_nil _) Hdd eq_refl I3 Hlt Hsk) as (_ & _ & _ & _ & _ & _ & L).
  cbn [snd]. specialize (L eq_refl). destruct e; [discriminate|discriminate|contradiction].
Qed.

(** A reader that does not skip events returns every event once, in order: what it
    returned is a beginning of what was received, and the rest is still pending. *)
Theorem c22_events_in_order_partial : forall history h,
  0 <= history < two64 -> good_packets h -> calm history false h ->
  events_of (received h) = returned_events history false h ++ events_of (cache (after history false h)).
Proof. intros history h Hh Hg Hc. exact (inv_ev _ _ _ _ (inv_after history false h Hh Hg Hc) eq_refl). Qed.

(** and as long as one is pending, a call that is not refused returns the oldest *)
Theorem c22_event_progress_partial : forall history h n,
  0 <= history < two64 -> good_packets h -> calm history false h -> 0 <= n <= history ->
  events_of (received h) <> returned_events history false h ->
  invalid (after history false h) = false ->
  exists e rest, events_of (received h) = returned_events history false (Read n :: h) ++ rest /\
    returned_events history false (Read n :: h) = returned_events history false h ++ [e].
Proof.
  intros history h n Hh Hg Hc Hn Hp Hv.
  assert (Hc2 : calm history false (Read n :: h)) by (cbn [calm sizes_ok]; split; [lia|split; [discriminate|exact Hc]]).
  assert (Hg2 : good_packets (Read n :: h)) by exact Hg.
  pose proof (inv_after history false h Hh Hg Hc) as [I1 I2 I3 I4 I5 _ I8].
  pose proof (inv_ev _ _ _ _ (inv_after history false _ Hh Hg2 Hc2) eq_refl) as E2.
  change (received (Read n :: h)) with (received h) in E2.
  assert (Hnt := c22_never_throws_partial history false h n Hh Hg Hc ltac:(lia) ltac:(discriminate)).
  specialize (I8 eq_refl).
  assert (Hret : exists e, match snd (step (after history false h) (Read n)) with Returned x => match event x with Some e => [e] | None => [] end | _ => [] end = [e]).
  { remember (after history false h) as s. cbn [step] in *. unfold doRead in *. rewrite Hv in *.
    replace ((n >? cachedSamples s) && (n >? historySize s)) with false in * by (rewrite I1; symmetry; apply andb_false_intro2; lia).
    destruct (loop false (skipEvents s) (cache s) [] 0 (cachedSamples s) false _) as [[[[c k] inv'] i'] e] eqn:El. rewrite I2 in El.
    assert (Hdd : Forall descriptor_or_data (cache s)).
    { apply Forall_forall. intros q Hq. apply I5 in Hq. destruct Hg as [Hg _]. rewrite Forall_forall in Hg. now apply Hg. }
    destruct Hg as [_ Hb]. assert (Hlt : cachedSamples s < two64) by lia.
    assert (Hone : false = true -> (events_in (cache s) <= 1)%nat) by discriminate.
    pose proof (loop_eff _ _ _ _ _ _ _ _ _ _ _ _ _ El (Forall_nil _) Hdd eq_refl I3 Hlt Hone) as (_ & _ & _ & _ & _ & L6 & L7).
    cbn [snd] in *. destruct e as [|p|]; [|cbn [event]; now exists p|now contradiction Hnt].
    exfalso. destruct (L6 eq_refl eq_refl) as [_ Hd]. cbn [app] in Hd. apply Hp. rewrite I8.
    assert (Hnil : events_of (cache s) = []) by (clear - Hd; induction Hd as [|q l Hq Hl IH]; [reflexivity|]; cbn [events_of filter]; rewrite Hq; exact IH).
    rewrite Hnil. apply app_nil_r. }
  destruct Hret as [e He]. exists e, (events_of (cache (after history false (Read n :: h)))). split; [exact E2|]. cbn [returned_events]. now rewrite He.
Qed.

(** ** Refutations *)
(** F55: gap checking is on at the reader's own port, and the event it produces makes
    every later read throw: nothing can be read any more. *)
Theorem c22_gap_refuted :
  forall history n, 0 <= n <= history ->
  forall k, snd (step (after history false (repeat (Read n) k ++ [Receive (Data [3; 4] None); Receive (OtherEv 0)])) (Read n)) = Thrown.
Proof.
  intros history n Hn k.
  assert (Hst : forall s, cache s = [OtherEv 0; Data [3; 4] None] -> invalid s = false -> historySize s = history ->
     snd (doRead s false n) = Thrown /\ cache (fst (doRead s false n)) = [OtherEv 0; Data [3; 4] None] /\ invalid (fst (doRead s false n)) = false /\ historySize (fst (doRead s false n)) = history).
  { intros s E1 E2 E3. unfold doRead. rewrite E1, E2, E3. replace (n >? history) with false by lia. rewrite andb_false_r. cbn [loop app fst snd cache invalid historySize]. auto. }
  assert (Hall : let s := after history false (repeat (Read n) k ++ [Receive (Data [3; 4] None); Receive (OtherEv 0)]) in
     cache s = [OtherEv 0; Data [3; 4] None] /\ invalid s = false /\ historySize s = history).
  { induction k as [|k IH].
    - cbn [repeat app after]. unfold step, receive, init. cbn [cache cachedSamples historySize fst app].
      destruct (0 <? history) eqn:E; cbn [cache invalid historySize app]; [auto|]. cbn [trim fst cache invalid historySize app]. auto.
    - cbv zeta in *. destruct IH as (A & B & C). cbn [repeat app after step]. destruct (Hst _ A B C) as (_ & D & E & F). auto. }
  cbv zeta in Hall. destruct Hall as (A & B & C). cbn [step]. now apply Hst.
Qed.

(** F56: skipping two events in one call, the samples before the first are taken off
    twice: the reader then claims nearly 2^64 samples and returns nothing. *)
Theorem c22_skip_events_refuted :
  let h := [Receive (Data [5; 6] None); Read 2; Receive (Desc true); Receive (Desc true); Receive (Data [1; 2; 3] None)] in
  getAvailableCount (after 4 true h) = two64 - 1 /\ recent h = [5; 6] /\
  exists o, snd (step (after 4 true h) (Read 2)) = Returned o /\ vals o = [] /\ sufficient o = true.
Proof. vm_compute. split; [reflexivity|]. split; [reflexivity|]. eexists. split; [reflexivity|]. split; reflexivity. Qed.

(** F57: samples before a pending event are dropped with it although none was read:
    the call takes the last n of all cached samples but stops at the event. *)
Theorem c22_before_event_refuted :
  let h := [Receive (Data [4; 5] None); Receive (Desc true); Receive (Data [1; 2; 3] None)] in
  let r := step (after 4 false h) (Read 2) in
  exists o, snd r = Returned o /\ vals o = [] /\ event o = Some (Desc true) /\ getAvailableCount (fst r) = 2.
Proof. vm_compute. eexists. split; [reflexivity|]. split; [reflexivity|]. split; reflexivity. Qed.

(** ** The hypotheses can be met *)
Definition ex : list op :=
  [Receive (Data [7] (Some [70])); ReadWithDomain 3; Receive (Data [4; 5; 6] (Some [40; 50; 60])); Receive (Data [1; 2; 3] (Some [10; 20; 30]));
   Read 2; Receive (Desc true); Receive (Data [9; 9] None)].
Example c22_ex :
  good_packets ex /\ calm 4 false ex /\ recent ex = [1; 2; 3; 4; 5; 6; 7] /\ Forall has_domain (since_event (received ex)) /\
  returned_events 4 false ex = [Desc true] /\
  exists o s', step (after 4 false ex) (reading true 3) = (s', Returned o) /\ event o = None /\ sufficient o = true /\ vals o = [5; 6; 7] /\ domain o = [50; 60; 70] /\
    getAvailableCount s' = 4.
Proof.
  split; [split; [vm_compute; repeat constructor|vm_compute; reflexivity]|].
  split; [unfold two64; vm_compute; repeat split; intros; try lia; discriminate|].
  split; [reflexivity|]. split; [vm_compute; repeat constructor|]. split; [reflexivity|].
  vm_compute. eexists _, _. split; [reflexivity|]. repeat split; reflexivity.
Qed.
Example c22_event_ex :
  let h := [Receive (Data [4; 5] None); Receive (Desc true); Receive (Data [1; 2; 3] None)] in
  good_packets h /\ calm 4 false h /\ events_of (received h) <> returned_events 4 false h /\ invalid (after 4 false h) = false.
Proof. cbv zeta. split; [split; [vm_compute; repeat constructor|vm_compute; reflexivity]|]. split; [vm_compute; repeat split|]. split; [vm_compute; discriminate|reflexivity]. Qed.

Print Assumptions c22_last_samples_partial.
Print Assumptions c22_never_throws_partial.
Print Assumptions c22_events_in_order_partial.
Print Assumptions c22_event_progress_partial.
Print Assumptions c22_gap_refuted.
Print Assumptions c22_skip_events_refuted.
Print Assumptions c22_before_event_refuted.
