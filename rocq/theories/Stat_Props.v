(** C57: the statistics and the trigger function block. *)
From Verif Require Import Base Stat_Model Stat_Spec Stat_Proofs Stat_Trig Stat_Num.
Local Open Scope Z_scope.

(** Good descriptors, in whatever state the block is, make it ready; so do new
    properties when both descriptors are good. *)
Theorem c57_configured : forall s k d a, 1 <= p_block s -> p_block s * 100 < 2 ^ 64 -> 0 <= p_overlap s <= 99 ->
  let s' := after (step s (Descriptors (Some (Samples k)) (Some (Linear d a)))) in
  exists c, ready s' c /\ sensible c /\ configured c (p_block s) (p_overlap s) d a k (p_form s) /\ nested s' = nested s.
Proof.
  intros s k d a B1 B2 O. change (2 ^ 64) with 18446744073709551616 in B2. cbn [step only after]. unfold descriptors, configure. cbn [values domain p_block p_overlap p_form nested].
  eexists. split; [repeat split; reflexivity|].
  assert (Q : w64 (p_block s) = p_block s) by (apply w64_small; unfold two64; lia).
  assert (R : w64 (p_block s * p_overlap s) = p_block s * p_overlap s) by (apply w64_small; unfold two64; nia).
  assert (SZ : Z.of_nat (size_of (p_block s)) = p_block s) by (unfold size_of; rewrite Z2Nat.id; lia).
  assert (DV : 0 <= p_block s * p_overlap s / 100 <= p_block s - 1).
  { split; [apply Z.div_pos; nia|]. assert (p_block s * p_overlap s / 100 < p_block s); [|lia]. apply Z.div_lt_upper_bound; nia. }
  assert (OV : Z.of_nat (overlapped (size_of (p_block s)) (p_overlap s)) = p_block s * p_overlap s / 100).
  { unfold overlapped. rewrite SZ, R, Z2Nat.id; lia. }
  split; [|split; [|reflexivity]].
  - unfold sensible, make_conf. cbn [remainder blockSize outDelta delta p_block p_overlap]. split; [lia | reflexivity].
  - unfold configured, make_conf. cbn [remainder blockSize delta start kind form p_block p_overlap p_form].
    split; [exact SZ|]. split; [|repeat split; reflexivity]. lia.
Qed.
Theorem c57_reconfigured : forall s k d a b o f, values s = Some (Samples k) -> domain s = Some (Linear d a) ->
  1 <= b -> b * 100 < 2 ^ 64 -> 0 <= o <= 99 ->
  let s' := after (step s (SetProperties b o f)) in
  exists c, ready s' c /\ sensible c /\ configured c b o d a k f /\ nested s' = nested s.
Proof.
  intros s k d a b o f V D B1 B2 O.
  assert (X := c57_configured {| p_block := b; p_overlap := o; p_form := f; values := values s; domain := domain s; valid := valid s; cf := cf s;
               buf := buf s; next := next s; hist := hist s; nested := nested s |} k d a B1 B2 O).
  cbn [p_form p_block p_overlap nested] in X.
  cbn [step only after] in *. unfold set_properties, descriptors in *. cbn [values domain] in X. rewrite V, D in *. exact X.
Qed.
Definition set_up (b o : Z) : st :=
  after (run created [SetProperties b o Implicit; Descriptors (Some (Samples I32)) (Some (Linear 2 100))]).
Example configured_nonvacuous : exists c, ready (set_up 4 50) c /\ blockSize c = 4%nat /\ remainder c = 2%nat /\ outDelta c = 4.
Proof. eexists. unfold ready. repeat split; vm_compute; reflexivity. Qed.

(** What is sent without a trigger is settled by the samples and their domain
    values: each stretch without a gap gives one result for each complete
    block, whatever the packets are. *)
Theorem c57_blocks : forall s c ps, ready s c -> sensible c -> nested s = false -> Forall (fun p => snd p <> []) ps ->
  let r := run s (map (fun p : packet => Input (fst p) (snd p)) ps) in
  crash r = false /\ past_end r = false /\ results c (stretches (delta c) (stream (delta c) ps)) (outs r).
Proof.
  intros s c ps [V [C [B [N _]]]] H NE P.
  destruct (untriggered c ps s [] H V C NE) as [A1 [A2 A3]]; [cbn [stretches]; unfold holding; cbn [rev]; split; assumption | exact P |].
  cbn zeta in *. cbn [app stretches map concat] in A3. split; [exact A1|]. split; [exact A2|]. rewrite <- A3. apply all_results. exact H.
Qed.
(** the results of stretches are unique, so the way the samples are packed does not matter *)
Theorem c57_results_unique : forall c gs os os', results c gs os -> results c gs os' -> os = os'.
Proof.
  intros c gs os os' [x [X ->]] [y [Y ->]]. f_equal. revert y Y. induction X as [|g o gs x E X IH]; intros y Y; inversion Y as [|g' o' gs' y' E' Y']; subst; [reflexivity|].
  f_equal; [|apply IH; exact Y'].
  assert (G : forall i, nth_error o i = nth_error o' i).
  { intros i. assert (A := E i). assert (B := E' i). destruct (nth_error o i), (nth_error o' i).
    - destruct A as [_ ->], B as [_ ->]. reflexivity.
    - destruct A as [A _]. lia.
    - destruct B as [B _]. lia.
    - reflexivity. }
  clear -G. revert o' G. induction o as [|a o IH]; intros o' G; destruct o' as [|b o'].
  - reflexivity.
  - specialize (G 0%nat). discriminate.
  - specialize (G 0%nat). discriminate.
  - assert (H := G 0%nat). cbn [nth_error] in H. inversion H; subst. f_equal. apply IH. intros i. apply (G (Datatypes.S i)).
Qed.
Theorem c57_packets_do_not_matter : forall s c ps qs, ready s c -> sensible c -> nested s = false ->
  Forall (fun p => snd p <> []) ps -> Forall (fun p => snd p <> []) qs -> stream (delta c) ps = stream (delta c) qs ->
  outs (run s (map (fun p : packet => Input (fst p) (snd p)) ps)) = outs (run s (map (fun p : packet => Input (fst p) (snd p)) qs)).
Proof.
  intros s c ps qs R H N P Q E. destruct (c57_blocks s c ps R H N P) as [_ [_ A]]. destruct (c57_blocks s c qs R H N Q) as [_ [_ B]].
  rewrite E in A. eapply c57_results_unique; [exact A | exact B].
Qed.
Example blocks_nonvacuous :
  outs (run (set_up 4 50) [Input 0 [1; 2; 3]; Input 6 [4; 5]; Input 10 [6]; Input 20 [9; 9; 9; 9]])
  = [{| when := At 100; avg := Some 2; rms := Some 2 |}; {| when := At 104; avg := Some 4; rms := Some 4 |}; {| when := At 120; avg := Some 9; rms := Some 9 |}]
  /\ stream 2 [(0, [1; 2; 3]); (6, [4; 5])] = stream 2 [(0, [1]); (2, [2; 3; 4; 5])].
Proof. split; vm_compute; reflexivity. Qed.

(** With a trigger the same holds for the samples at which the trigger is on,
    if no change of the trigger comes later than a packet it concerns. *)
Theorem c57_triggered_partial : forall s c h, ready s c -> sensible c -> 0 < delta c -> nested s = true ->
  Forall running h -> in_order (changes_of h) -> rising (stream (delta c) (packets_of h)) -> on_time (start c) (delta c) h ->
  exists sel, selected (fun e => on (changes_of h) (start c + fst e)) (stream (delta c) (packets_of h)) sel /\
    crash (run s h) = false /\ results c (stretches (delta c) sel) (outs (run s h)).
Proof.
  intros s c h [V [C [B [N HI]]]] H D NE RU O RI OT.
  assert (T0 : exists t0, Forall (fun x => t0 <= start c + fst x) (stream (delta c) (packets_of h))).
  { generalize (stream (delta c) (packets_of h)) as l. intros l. induction l as [|x l [t Ht]].
    - exists 0. constructor.
    - exists (Z.min t (start c + fst x)). constructor; [lia|]. eapply Forall_impl; [|exact Ht]. cbn beta. intros; lia. }
  destruct T0 as [t0 T0].
  destruct (triggered_run c (changes_of h) h s [] [] t0 H D (conj V (conj C NE)) RU O eq_refl RI T0 OT) as [sel [A1 [A2 A3]]].
  - cbn [stretches]. unfold holding. cbn [rev]. split; assumption.
  - rewrite HI. intros k t _. reflexivity.
  - exists sel. split; [exact A1|]. split; [exact A2|]. cbn [app stretches map concat] in A3. rewrite <- A3. apply all_results. exact H.
Qed.
Definition with_trigger : st := after (run (set_up 2 0) [AddTrigger; TriggerDescriptors None (Some true)]).
Definition gated : list op := [TriggerData true 102; Input 0 [1; 2; 3; 4]; TriggerData false 110; Input 8 [5; 6; 7]].
Example triggered_nonvacuous : exists c, ready with_trigger c /\ nested with_trigger = true /\ Forall running gated /\
  in_order (changes_of gated) /\ rising (stream (delta c) (packets_of gated)) /\ on_time (start c) (delta c) gated /\
  outs (run with_trigger gated) = [{| when := At 102; avg := Some 2; rms := Some 2 |}; {| when := At 106; avg := Some 4; rms := Some 4 |}].
Proof.
  exists {| blockSize := 2; remainder := 2; delta := 2; outDelta := 4; start := 100; kind := I32; form := Implicit |}.
  split; [unfold ready; repeat split; vm_compute; reflexivity|]. split; [vm_compute; reflexivity|].
  split; [unfold gated; repeat constructor|]. split.
  { intros i j x y L X Y. unfold gated in *. cbn [changes_of flat_map app] in *.
    destruct i as [|[|i]], j as [|[|j]]; cbn [nth_error] in X, Y; try lia;
      try (destruct i; discriminate); try (destruct j; discriminate). inversion X; inversion Y; subst. cbn [snd]. lia. }
  split. { vm_compute. repeat (split || constructor). }
  split; [|vm_compute; reflexivity].
  intros b off l la bb t t' v Hh I1 I2. unfold gated in Hh. cbn [start delta] in *.
  destruct b as [|o1 [|o2 [|o3 [|o4 b]]]]; cbn [app] in Hh; inversion Hh; subst; cbn [In] in I1.
  - destruct I1 as [I1|[I1|[]]]; inversion I1; subst. rewrite <- timed_ticks in I2. cbn [timed In] in I2.
    repeat (destruct I2 as [I2|I2]; [inversion I2; subst; lia|]). contradiction.
  - contradiction.
  - destruct b; discriminate.
Qed.

(** Whatever the order, a packet with samples makes a block with a trigger read
    one domain value too many. *)
Theorem c57_reads_past_end_refuted : forall s c off l, valid s = true -> cf s = Some c -> nested s = true -> l <> [] ->
  crash (step s (Input off l)) = false -> past_end (step s (Input off l)) = true.
Proof.
  assert (G : forall c fuel vs a s, (length vs < fuel)%nat -> vs <> [] ->
    crash (triggered_parts fuel s c (timed (delta c) a vs)) = false -> past_end (triggered_parts fuel s c (timed (delta c) a vs)) = true).
  { intros c fuel. induction fuel as [|fuel IH]; intros vs a s L N C; [lia|].
    rewrite parts_unfold in * by (destruct vs; [contradiction | discriminate]).
    destruct (advance_timed (hist s) false (delta c) vs a) as [u1 [u2 [o1 [A1 [A2 [A3 A4]]]]]].
    rewrite A1 in *. cbn beta iota zeta in *.
    set (s1 := match timed (delta c) a u1 with [] => s | _ :: _ => with_hist s (drop_to (hist s) (fst (last (timed (delta c) a u1) (0, 0)))) end) in *.
    assert (U1 : u1 = [] -> s1 = s) by (intros ->; reflexivity). clearbody s1.
    set (a1 := a + Z.of_nat (length u1) * delta c) in *.
    destruct u2 as [|x u2]; [cbn [timed] in *; cbn [past_end] in *; exact A4|]. destruct A4 as [-> A4].
    destruct (advance_timed (hist s1) true (delta c) (x :: u2) a1) as [w1 [w2 [o2 [C1 [C2 [C3 C4]]]]]].
    rewrite C1 in *. cbn [timed] in *. cbn beta iota zeta in *. rewrite map_snd_timed in *.
    destruct (crash (calculate_and_send s1 c (a1 - start c) w1)); cbn [crash past_end] in *; [discriminate|].
    destruct (list_eq_dec Z.eq_dec w2 []) as [->|W2]; [rewrite C4; reflexivity|].
    rewrite (IH w2); [apply Bool.orb_true_r | | exact W2 | exact C].
    assert (E1 : length vs = (length u1 + length w1 + length w2)%nat) by (rewrite A2, C2, !app_length; lia).
    destruct w1 as [|y w1]; [|cbn [length] in *; lia]. destruct u1 as [|z u1]; [|cbn [length] in *; lia].
    exfalso. rewrite (U1 eq_refl) in *. cbn [length] in *. destruct w2 as [|q w2]; [contradiction|]. destruct C4 as [_ C4]. cbn [negb] in *.
    unfold a1 in *. replace (a + Z.of_nat 0 * delta c + Z.of_nat 0 * delta c) with (a + Z.of_nat 0 * delta c) in C4 by lia. congruence. }
  intros s c off l V C N NE. cbn [step]. unfold input. rewrite V, C, N. intros CR. apply G; [lia | exact NE | exact CR].
Qed.
Example past_end_nonvacuous : past_end (step with_trigger (Input 0 [1])) = true /\ crash (step with_trigger (Input 0 [1])) = false.
Proof. split; vm_compute; reflexivity. Qed.

(** The results depend on whether the trigger's packet or the input's packet
    is handled first. *)
Theorem c57_order_of_arrival_refuted : exists s c a b, ready s c /\ sensible c /\ nested s = true /\
  changes_of a = changes_of b /\ packets_of a = packets_of b /\ outs (run s a) <> outs (run s b).
Proof.
  exists with_trigger, {| blockSize := 2; remainder := 2; delta := 2; outDelta := 4; start := 100; kind := I32; form := Implicit |},
    [TriggerData true 100; Input 0 [1; 2]], [Input 0 [1; 2]; TriggerData true 100].
  split; [unfold ready; repeat split; vm_compute; reflexivity|]. split; [unfold sensible; cbn [remainder blockSize delta outDelta]; lia|].
  split; [vm_compute; reflexivity|]. split; [reflexivity|]. split; [reflexivity|]. vm_compute. discriminate.
Qed.

(** The average and the root mean square of a block, when the sums fit. *)
Theorem c57_average_partial : forall k l, l <> [] -> Forall (in_type k) l -> sizes l <= largest_sum k ->
  Z.of_nat (length l) <= largest_sum k ->
  average k (length l) l = Some (Z.quot (sum l) (Z.of_nat (length l))).
Proof. exact average_right. Qed.
Theorem c57_rms_partial : forall k l, l <> [] -> Forall (fun v => Z.abs v <= highest k /\ v * v <= largest_square k) l ->
  sum (squares l) <= largest_sum k -> Z.of_nat (length l) <= largest_sum k ->
  rootMeanSquare k (length l) l = Some (Z.sqrt (sum (squares l) / Z.of_nat (length l))).
Proof. exact rms_right. Qed.
Example arithmetic_nonvacuous : sizes [100; 27; -127] <= largest_sum I8 /\ average I8 3 [100; 27; -127] = Some 0 /\
  sum (squares [100; 50; -100]) <= largest_sum I8 /\ rootMeanSquare I8 3 [100; 50; -100] = Some 86.
Proof. repeat split; vm_compute; (reflexivity || discriminate). Qed.

(** They are wrong when they do not fit, also for samples of every type in range. *)
Theorem c57_rms_refuted :
  rootMeanSquare U8 2 [255; 255] = Some 179 /\ rootMeanSquare U8 10 (repeat 200 10) = Some 26 /\
  rootMeanSquare I8 3 [127; 127; 127] = None /\ rootMeanSquare I8 1 [-128] = None /\
  rootMeanSquare U16 1 [50000] = None /\ rootMeanSquare I32 1 [50000] = None /\ rootMeanSquare U32 1 [65536] = Some 0.
Proof. repeat split; vm_compute; reflexivity. Qed.
Theorem c57_average_refuted : average U8 300 (repeat 255 300) <> Some 255 /\
  (forall n l, Z.of_nat n mod 2 ^ 16 = 0 -> average U8 n l = None /\ average I8 n l = None /\ rootMeanSquare U8 n l = None /\ rootMeanSquare I8 n l = None).
Proof.
  split; [vm_compute; discriminate|]. intros n l H.
  assert (A : convert U16 (Z.of_nat n) = 0) by (unfold convert; cbn [signed bits andb]; cbn zeta; exact H).
  assert (B : convert I16 (Z.of_nat n) = 0) by (unfold convert; cbn [signed bits andb]; cbn zeta; rewrite H; reflexivity).
  assert (D : forall s, divide U16 s n = None) by (intros s; unfold divide; rewrite A; reflexivity).
  assert (E : forall s, divide I16 s n = None) by (intros s; unfold divide; rewrite B; reflexivity).
  unfold average, rootMeanSquare. cbn [aggregate].
  split; [destruct (total U8 (fun v => Some v) l 0); [rewrite D|]; reflexivity|].
  split; [destruct (total I8 (fun v => Some v) l 0); [rewrite E|]; reflexivity|].
  split; [destruct (total U8 (square U8) l 0); [rewrite D|]; reflexivity|].
  destruct (total I8 (square I8) l 0); [rewrite E|]; reflexivity.
Qed.

(** A block size of zero is accepted, and then the first packet divides by zero. *)
Theorem c57_block_size_zero_refuted : forall s k d a o f off l, nested s = false ->
  crash (run s [SetProperties 0 o f; Descriptors (Some (Samples k)) (Some (Linear d a)); Input off l]) = true.
Proof.
  intros s k d a o f off l N.
  assert (G : forall s1, nested s1 = false -> p_block s1 = 0 ->
    crash (input (descriptors s1 (Some (Samples k)) (Some (Linear d a))) off l) = true).
  { intros s1 N1 P1. unfold input, descriptors, configure. cbn [values domain valid cf nested]. rewrite N1.
    unfold calculate_and_send, calculate, output_start. cbn [buf next fst snd app]. unfold make_conf.
    cbn [blockSize remainder p_block]. rewrite P1.
    assert (Z0 : size_of 0 = 0%nat) by reflexivity. rewrite Z0. cbn [Nat.sub].
    destruct (length l <? 0)%nat eqn:E; [apply Nat.ltb_lt in E; lia|]. reflexivity. }
  cbn [run step only crash after]. rewrite G; [apply G| |]; unfold set_properties, configure; cbn [values domain];
    destruct (values s) as [[]|]; try destruct (domain s) as [[]|]; cbn [nested p_block]; try exact N; reflexivity.
Qed.

(** Explicit domain values of 16-bit unsigned samples are never written. *)
Theorem c57_explicit_domain_refuted : forall c tick, form c = Explicit -> kind c = U16 -> stamp_of c tick = Unwritten.
Proof. intros c tick F K. unfold stamp_of. rewrite F, K. reflexivity. Qed.
Theorem c57_explicit_domain_partial : forall c tick, kind c <> U16 ->
  match form c with
  | ExplicitRange => stamp_of c tick = Between (start c + tick) (start c + tick + Z.of_nat (blockSize c) * delta c - 1)
  | _ => stamp_of c tick = At (start c + tick)
  end.
Proof.
  intros c tick K. unfold stamp_of. destruct (form c); [reflexivity| |].
  - destruct (kind c); try contradiction; f_equal; lia.
  - f_equal; lia.
Qed.

(** While the input is refused, packets do nothing. *)
Theorem c57_refused : forall s v d off l, (v = Refused \/ d = Other) ->
  let s' := after (step s (Descriptors (Some v) (Some d))) in
  after (step s' (Input off l)) = s' /\ outs (step s' (Input off l)) = [] /\ crash (step s' (Input off l)) = false.
Proof.
  intros s v d off l H. assert (V : valid (after (step s (Descriptors (Some v) (Some d)))) = false).
  { cbn [step only after]. unfold descriptors, configure. cbn [values domain]. destruct v as [k|], d as [x y|]; try reflexivity. destruct H; discriminate. }
  cbn zeta. set (s' := after _) in *. clearbody s'. cbn [step]. unfold input. rewrite V. repeat split; reflexivity.
Qed.
(** ... unless the trigger then announces its descriptors: the members of the
    block that were never set are used. *)
Theorem c57_trigger_enables_unconfigured_refuted : forall s off l,
  crash (run s [AddTrigger; Descriptors (Some Refused) None; TriggerDescriptors (Some false) (Some true); Input off l]) = true.
Proof. intros s off l. cbn [run step only crash after]. unfold descriptors, configure. cbn [values]. destruct (domain _); reflexivity. Qed.
(** The trigger's own descriptor, 8-bit unsigned numbers, stops the block. *)
Theorem c57_trigger_descriptor_refuted : forall s d off l,
  outs (run s [TriggerDescriptors (Some true) d; Input off l]) = [].
Proof. intros s d off l. reflexivity. Qed.
(** A trigger that is removed leaves its history to the next one. *)
Theorem c57_removed_trigger_refuted : forall s b t, hist (after (run s [TriggerData b t; RemoveTrigger; AddTrigger])) = hist s ++ [(b, t)].
Proof. intros s b t. reflexivity. Qed.

(** The trigger block: it announces the changes between "at least the
    threshold" and "below", with the domain value of the sample, whatever the
    packets are. *)
Theorem c57_trigger : forall ps g,
  snd (trigger_packets g ps) = flips (active g) (concat ps) (states (threshold g) (active g) (concat ps)) /\
  active (fst (trigger_packets g ps)) = last (states (threshold g) (active g) (concat ps)) (active g).
Proof.
  intros ps g. rewrite trigger_packets_concat. destruct (trigger_packet_flips (concat ps) g) as [A [B _]]. split; assumption.
Qed.
(** so the announcements alternate *)
Theorem c57_trigger_alternates : forall ps g i a b,
  (i = 0%nat -> nth_error (snd (trigger_packets g ps)) 0 = Some a -> fst a = negb (active g)) /\
  (nth_error (snd (trigger_packets g ps)) i = Some a -> nth_error (snd (trigger_packets g ps)) (Datatypes.S i) = Some b -> fst b = negb (fst a)).
Proof.
  intros ps g i a b. rewrite (proj1 (c57_trigger ps g)). generalize (concat ps) as l. clear ps.
  generalize (active g) as w. generalize (threshold g) as thr. clear g. intros thr w l. revert w i.
  induction l as [|[t v] l IH]; intros w i; cbn [states flips].
  - split; [intros _; discriminate|]. destruct i; discriminate.
  - destruct (Bool.eqb (above thr v w) w) eqn:E.
    + apply Bool.eqb_prop in E. rewrite E. apply IH.
    + split.
      * intros _ H. inversion H. cbn [fst]. destruct (above thr v w), w; try discriminate; reflexivity.
      * destruct i as [|i].
        -- intros H K. inversion H; subst. cbn [fst]. change (nth_error (flips (above thr v w) l (states thr (above thr v w) l)) 0 = Some b) in K.
           assert (X : forall m w', nth_error (flips w' m (states thr w' m)) 0 = Some b -> fst b = negb w').
           { intros m. induction m as [|[t2 v2] m IHm]; intros w'; cbn [states flips]; [discriminate|].
             destruct (Bool.eqb (above thr v2 w') w') eqn:E2; [apply Bool.eqb_prop in E2; rewrite E2; apply IHm|].
             intros Q. inversion Q. cbn [fst]. destruct (above thr v2 w'), w'; try discriminate; reflexivity. }
           apply (X l). exact K.
        -- intros H K. apply (proj2 (IH (above thr v w) i)); [exact H | exact K].
Qed.
Example trigger_nonvacuous : snd (trigger_packets {| active := false; threshold := 5 |} [[(0, Some 1); (1, Some 5)]; [(2, None); (3, Some 7)]; [(4, Some 4)]])
  = [(true, 1); (false, 4)].
Proof. vm_compute. reflexivity. Qed.

Print Assumptions c57_configured.
Print Assumptions c57_reconfigured.
Print Assumptions c57_blocks.
Print Assumptions c57_results_unique.
Print Assumptions c57_packets_do_not_matter.
Print Assumptions c57_triggered_partial.
Print Assumptions c57_reads_past_end_refuted.
Print Assumptions c57_order_of_arrival_refuted.
Print Assumptions c57_average_partial.
Print Assumptions c57_rms_partial.
Print Assumptions c57_rms_refuted.
Print Assumptions c57_average_refuted.
Print Assumptions c57_block_size_zero_refuted.
Print Assumptions c57_explicit_domain_refuted.
Print Assumptions c57_explicit_domain_partial.
Print Assumptions c57_refused.
Print Assumptions c57_trigger_enables_unconfigured_refuted.
Print Assumptions c57_trigger_descriptor_refuted.
Print Assumptions c57_removed_trigger_refuted.
Print Assumptions c57_trigger.
Print Assumptions c57_trigger_alternates.
