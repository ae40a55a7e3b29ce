(** C18 (packet streaming reproduces the server's packets) and C19 (the
    client retains nothing the server has let go). *)
From Verif Require Import Base PStr_Model PStr_Spec PStr_Proofs.
Local Open Scope Z_scope.

(** C18: for every history of calls, destructions and flushes and every
    release threshold, the client accepts every buffer and outputs exactly
    what the ideal channel - no deduplication, no releases - outputs. *)
Theorem c18_refines_ideal : forall thr world ops, valid world [] [] ops ->
  exists c i, snd (system thr ops) = Some c /\ ideal_run ops = Some i
    /\ out c = i_out i /\ cdata c = i_data i /\ cdomd c = i_dom i.
Proof.
  intros thr world ops HV. unfold system, ideal_run.
  pose proof (run_sim world thr ops [] [] [] _ _ _ (Inv_init world) HV live_init) as H.
  destruct (server_run thr server_init ops) as [s bs].
  destruct H as (c & i & dd & ds & E & F & HI & _). exists c, i. cbn [snd].
  destruct (v_q _ _ _ _ _ _ _ HI). auto.
Qed.

(** C18, domain packets first: every accepted data call gives exactly one
    packet on its signal, in call order, with the descriptor announced for
    the signal and its domain packet attached. *)
Theorem c18_domain_first : forall thr world ops, valid world [] [] ops -> domain_first [] [] ops ->
  exists c, snd (system thr ops) = Some c /\ out c = direct ops [] [] [] /\ wait c = [].
Proof.
  intros thr world ops HV HF.
  unfold system. pose proof (run_sim world thr ops [] [] [] _ _ _ (Inv_init world) HV live_init) as H.
  destruct (server_run thr server_init ops) as [s bs].
  destruct H as (c & i & dd & ds & E & F & HI & _). exists c. cbn [snd].
  destruct (df_run world ops [] [] ideal_init [] [] [] DF_init HF) as (i' & E' & O' & P').
  rewrite F in E'. inversion E'; subst i'.
  destruct (v_q _ _ _ _ _ _ _ HI). rewrite q_out, O'. split; [auto|]. split; [reflexivity|].
  rewrite P' in q_wait. destruct (wait c); [reflexivity|discriminate].
Qed.

(** C18, descriptors: after any history the receiver has been told, through
    the events it was given, exactly the latest value and domain descriptor
    announced for each signal. *)
Theorem c18_descriptors_reproduced : forall thr world ops, valid world [] [] ops ->
  exists c, snd (system thr ops) = Some c
    /\ forall sig, heard sig (out c) (None, None) = announced sig ops (None, None).
Proof.
  intros thr world ops HV. destruct (c18_refines_ideal thr world ops HV) as (c & i & E & F & O & _).
  exists c. split; auto. intros sig. rewrite O.
  destruct (run_told ops ideal_init i) as [T A]; [intros g; reflexivity|exact F|].
  rewrite (T sig), A. reflexivity.
Qed.

(** C18, any order: each accepted call is delivered exactly once on its
    signal, or waits for a domain packet that has not been delivered; what is
    delivered has the content of the server's packet, recursively through its
    domain packet. *)
Theorem c18_exactly_once : forall thr world ops, valid world [] [] ops ->
  exists c, snd (system thr ops) = Some c
  /\ (forall sig x, delivered sig x (out c) + waiting_for sig x (wait c) = calls sig x [] ops)%nat
  /\ (forall w, In w (wait c) -> exists d, dom (world (pid (w_pkt w))) = Some d /\ forall g, delivered g d (out c) = 0%nat)
  /\ (forall g k, In (g, IData k) (out c) -> exists x, renders world x k /\ (0 < calls g x [] ops)%nat).
Proof.
  intros thr world ops HV. unfold system.
  pose proof (run_sim world thr ops [] [] [] _ _ _ (Inv_init world) HV live_init) as H.
  destruct (server_run thr server_init ops) as [s bs].
  destruct H as (c & i & dd & ds & E & F & HI & _ & HC). exists c. cbn [snd]. split; [auto|].
  assert (HC' : forall g x, (delivered g x (out c) + waiting_for g x (wait c) = calls g x [] ops)%nat).
  { intros g x. rewrite HC. reflexivity. }
  destruct (v_q _ _ _ _ _ _ _ HI). split; [exact HC'|]. split.
  - intros w W. destruct (q_late w W) as (d & D1 & D2). exists d.
    rewrite (q_world w W) in D1. split; auto. intros g. unfold delivered.
    destruct (filter (is_out g d) (out c)) as [|[h it] l] eqn:EF; auto. exfalso.
    assert (HIn : In (h, it) (filter (is_out g d) (out c))) by (rewrite EF; now left).
    apply filter_In in HIn. destruct HIn as [H1 H2]. unfold is_out in H2. cbn [fst snd] in H2.
    apply andb_true_iff in H2. destruct H2 as [_ H2]. destruct it as [e|[s0 b0 d0 m0]]; [discriminate|].
    apply Z.eqb_eq in H2. apply q_items in H1. cbn [src_of] in H1. subst s0. congruence.
  - intros g k HIn. exists (src_of k). split; [apply q_renders; now apply q_items in HIn|].
    rewrite <- HC'. assert (0 < delivered g (src_of k) (out c))%nat; [|lia].
    unfold delivered. destruct (filter (is_out g (src_of k)) (out c)) as [|a l] eqn:EF; [|cbn; lia].
    exfalso. assert (HI2 : In (g, IData k) (filter (is_out g (src_of k)) (out c))).
    { apply filter_In. split; auto. unfold is_out. cbn [fst snd]. destruct k. cbn [src_of]. now rewrite !Z.eqb_refl. }
    rewrite EF in HI2. destruct HI2.
Qed.

(** C19: after a flush the client refers only to packets that the server
    still refers to (plus buffers that wait for a domain packet); every
    packet the server still refers to can still be referred to. *)
Theorem c19_released_partial : forall thr world ops, valid world [] [] ops -> plain_handover [] [] ops ->
  exists c, snd (system thr (ops ++ [OFlush])) = Some c
  /\ (forall x, lookup x (refd c) <> None -> In x (live [] [] ops))
  /\ (forall w, In w (wait c) -> w_rel w = false -> In (pid (w_pkt w)) (live [] [] ops))
  /\ (forall x, In x (live [] [] ops) -> lookup x (refd c) <> None \/ exists w, In w (wait c) /\ pid (w_pkt w) = x).
Proof.
  intros thr world ops HV HP. unfold system.
  pose proof (run_sim world thr (ops ++ [OFlush]) [] [] [] _ _ _ (Inv_init world) (valid_flush _ _ _ _ HV) live_init) as H.
  pose proof (plain_tight world thr (ops ++ [OFlush]) [] [] [] [] _ _ _ (Inv_init world) (valid_flush _ _ _ _ HV) live_init
     (fun x H => H) (plain_flush _ _ _ HP) Tight_init) as HT.
  rewrite server_run_app in *. destruct (server_run thr server_init ops) as [s0 b0]. cbn [server_run server_step] in *.
  pose proof (flush_ready thr s0) as FR. destruct (checkAndSendReleasePacket thr true s0) as [s1 b1]. cbn [fst] in FR.
  destruct H as (c & i & dd & ds & E & F & HI & HL & _). exists c. cbn [snd]. split; [auto|].
  specialize (HT c E). destruct HT as [T1 T2]. rewrite FR in *. destruct HL as [_ HL]. rewrite live_flush in HL.
  split; [|split].
  - intros x Hx. apply HL. destruct (T1 x Hx) as [|[]]; auto.
  - intros w W R. apply HL. destruct (T2 w W R) as [|[]]; auto.
  - intros x Hx. apply HL in Hx. destruct (v_held _ _ _ _ _ _ _ HI x (or_introl Hx)) as [(k & K)|(w & W1 & W2 & _)].
    + left. congruence.
    + right. exists w. auto.
Qed.

(** C19, domain packets first: after a flush the client refers to exactly
    the packets the server still refers to. *)
Theorem c19_domain_first : forall thr world ops, valid world [] [] ops -> domain_first [] [] ops ->
  exists c, snd (system thr (ops ++ [OFlush])) = Some c /\ wait c = []
  /\ (forall x, lookup x (refd c) <> None <-> In x (live [] [] ops))
  /\ (live [] [] ops = [] -> areReferencesCleared c = true).
Proof.
  intros thr world ops HV HF.
  destruct (c18_domain_first thr world _ (valid_flush _ _ _ _ HV) (df_flush _ _ _ HF)) as (c0 & C0 & _ & W0).
  unfold system in *.
  pose proof (run_sim world thr (ops ++ [OFlush]) [] [] [] _ _ _ (Inv_init world) (valid_flush _ _ _ _ HV) live_init) as H.
  pose proof (df_tight world thr (ops ++ [OFlush]) [] [] [] [] _ _ _ _ _ _ (Inv_init world) (valid_flush _ _ _ _ HV) live_init
     DF_init (df_flush _ _ _ HF) Tight_init) as HT.
  rewrite server_run_app in *. destruct (server_run thr server_init ops) as [s0 b0]. cbn [server_run server_step] in *.
  pose proof (flush_ready thr s0) as FR. destruct (checkAndSendReleasePacket thr true s0) as [s1 b1]. cbn [fst] in FR.
  destruct H as (c & i & dd & ds & E & F & HI & HL & _). cbn [snd] in *. exists c. split; [auto|].
  rewrite E in C0. inversion C0; subst c0. split; [auto|].
  specialize (HT c E). destruct HT as [T1 T2]. rewrite FR in *. destruct HL as [_ HL]. rewrite live_flush in HL.
  assert (IFF : forall x, lookup x (refd c) <> None <-> In x (live [] [] ops)).
  { intros x. split.
    - intros Hx. apply HL. destruct (T1 x Hx) as [|[]]; auto.
    - intros Hx. apply HL in Hx. destruct (v_held _ _ _ _ _ _ _ HI x (or_introl Hx)) as [(k & K)|(w & W1 & W2 & _)].
      + congruence.
      + rewrite W0 in W1. destruct W1. }
  split; [exact IFF|]. intros HN. unfold areReferencesCleared. rewrite W0.
  destruct (refd c) as [|[x k] l] eqn:ER; auto. exfalso.
  assert (HX : In x (live [] [] ops)). { apply IFF. cbn [lookup]. rewrite Z.eqb_refl. discriminate. }
  rewrite HN in HX. destruct HX.
Qed.

(** ** A concrete history *)

Definition D10 := {| pid := 10; dom := None; body := 100 |}.
Definition V11 := {| pid := 11; dom := Some 10; body := 111 |}.
Definition V12 := {| pid := 12; dom := Some 10; body := 112 |}.
Definition world1 (x : Z) : pkt :=
  if x =? 10 then D10 else if x =? 11 then V11 else if x =? 12 then V12
  else {| pid := x; dom := None; body := 0 |}.

Definition intro_ops := [OEvent 1 (EvDesc (Some 51) (Some 52)); OEvent 2 (EvDesc (Some 52) None);
                         OEvent 3 (EvDesc (Some 51) (Some 52))].
Definition good_ops := intro_ops ++
  [OData 2 D10 false; OData 1 V11 false; OData 3 V11 false; OData 1 V12 true; ODestroy 11; OEvent 1 (EvDesc (Some 53) None);
   ODestroy 10].

Example good_ops_meets : valid world1 [] [] good_ops /\ domain_first [] [] good_ops /\ plain_handover [] [] good_ops.
Proof.
  unfold good_ops, intro_ops. repeat split; cbn; try lia; try tauto; intros; try (inversion H; subst); try tauto; try lia; try discriminate.
Qed.

Example good_ops_out :
  option_map out (snd (system 2 good_ops)) = Some
   [(1, IEvent (EvDesc (Some 51) (Some 52))); (2, IEvent (EvDesc (Some 52) None)); (3, IEvent (EvDesc (Some 51) (Some 52)));
    (2, IData (CP 10 100 52 None)); (1, IData (CP 11 111 51 (Some (CP 10 100 52 None))));
    (3, IData (CP 11 111 51 (Some (CP 10 100 52 None)))); (1, IData (CP 12 112 51 (Some (CP 10 100 52 None))));
    (1, IEvent (EvDesc (Some 53) None))]
  /\ live [] [] good_ops = []
  /\ option_map areReferencesCleared (snd (system 2 good_ops)) = Some false
  /\ option_map areReferencesCleared (snd (system 2 (good_ops ++ [OFlush]))) = Some true.
Proof. vm_compute. auto. Qed.

(** The value packet first: it waits and is delivered after its domain packet. *)
Definition late_ops := intro_ops ++ [OData 1 V11 false; OData 3 V11 false; OData 2 D10 false].
Example late_ops_meets : valid world1 [] [] late_ops /\ plain_handover [] [] late_ops
  /\ option_map (fun c => skipn 3 (out c)) (snd (system 2 late_ops)) = Some
   [(2, IData (CP 10 100 52 None)); (1, IData (CP 11 111 51 (Some (CP 10 100 52 None))));
    (3, IData (CP 11 111 51 (Some (CP 10 100 52 None))))].
Proof.
  split; [|split]; [| |vm_compute; reflexivity];
  unfold late_ops, intro_ops; repeat split; cbn; try lia; try tauto; intros; try (inversion H; subst); try tauto; try lia; try discriminate.
Qed.

(** ** What does not hold *)

(** Finding: an event other than a descriptor change is never given to the
    client's user. *)
Theorem c18_other_events_lost_refuted : forall thr world ops, valid world [] [] ops ->
  exists c, snd (system thr ops) = Some c /\ forall g n, ~ In (g, IEvent (EvOther n)) (out c).
Proof.
  intros thr world ops HV. destruct (c18_refines_ideal thr world ops HV) as (c & i & E & F & O & _).
  exists c. split; auto. rewrite O. unfold ideal_run in F. clear - F.
  assert (HH : forall ops i, (forall g n, ~ In (g, IEvent (EvOther n)) (i_out i)) ->
     forall i', fold_opt ideal_step ops i = Some i' -> forall g n, ~ In (g, IEvent (EvOther n)) (i_out i')).
  { assert (HB : forall f sig p d i i' k, (forall g n, ~ In (g, IEvent (EvOther n)) (i_out i)) ->
       deliver f sig p d i = Some (i', k) -> forall g n, ~ In (g, IEvent (EvOther n)) (i_out i')).
    { induction f as [|f IH]; intros sig p d i0 i1 k H E; [discriminate|].
      rewrite deliver_unfold in E. destruct (lookup sig (i_data i0)); [|discriminate]. cbv zeta in E.
      match type of E with option_map _ (fold_opt _ ?ws ?s) = _ => set (s1 := s) in E; set (wl := ws) in E end.
      assert (H1 : forall g n, ~ In (g, IEvent (EvOther n)) (i_out s1)).
      { intros g n HI. unfold s1 in HI. cbn in HI. apply in_app_or in HI. destruct HI as [HI|[HI|[]]]; [now apply (H g n)|discriminate]. }
      clearbody s1 wl. revert s1 H1 E. induction wl as [|w wl IHw]; intros s1 H1 E.
      - cbn in E. inversion E; subst. auto.
      - cbn [fold_opt] in E. unfold ideal_loop at 1 in E.
        destruct (deliver f (p_sig w) (p_pkt w) _ s1) as [[s2 k2]|] eqn:E2; [|discriminate].
        rewrite emit_all in E. eapply IHw; [|exact E].
        intros g n HI. cbn [i_out] in HI. apply in_app_or in HI. destruct HI as [HI|HI].
        + eapply IH; eauto.
        + apply in_map_iff in HI. destruct HI as (x & X & _). discriminate. }
    induction ops0 as [|o r IH]; intros j H j' E; cbn [fold_opt] in E; [inversion E; subst; auto|].
    destruct (ideal_step j o) as [j1|] eqn:E1; [|discriminate]. eapply IH; [|exact E].
    intros g n HI. destruct o as [sig [v d|m]|sig p l|x|]; cbn [ideal_step ideal_event] in E1;
      try (inversion E1; subst; now apply (H g n)).
    - inversion E1; subst. destruct (noteworthy sig v d (i_data j) (i_dom j)); cbn in HI; [|now apply (H g n)].
      apply in_app_or in HI. destruct HI as [HI|[HI|[]]]; [now apply (H g n)|discriminate].
    - destruct (lookup sig (i_data j)); [|inversion E1; subst; now apply (H g n)].
      unfold ideal_data in E1. destruct (lookup (pid p) (built j)).
      + inversion E1; subst. cbn in HI. apply in_app_or in HI. destruct HI as [HI|[HI|[]]]; [now apply (H g n)|discriminate].
      + destruct (existsb (is_pending (pid p)) (pend j)); [inversion E1; subst; now apply (H g n)|].
        destruct (dom p) as [d|].
        * destruct (lookup d (built j)) as [kk|].
          -- destruct (deliver _ sig p (Some kk) j) as [[j2 k2]|] eqn:ED; [|discriminate]. inversion E1; subst. eapply HB; eauto.
          -- inversion E1; subst. now apply (H g n).
        * destruct (deliver _ sig p None j) as [[j2 k2]|] eqn:ED; [|discriminate]. inversion E1; subst. eapply HB; eauto. }
  eapply HH; [|exact F]. cbn. auto.
Qed.

(** Finding: a packet that waited for its domain packet is built with the
    descriptor current when the domain packet arrives, not with the one that
    was current when it was sent. *)
Definition stale_ops := intro_ops ++ [OData 1 V11 false; OEvent 1 (EvDesc (Some 53) None); OData 2 D10 false].
Theorem c18_late_domain_descriptor_refuted :
  exists world ops, valid world [] [] ops /\ ops = stale_ops /\
    forall thr, exists c, snd (system (S thr) ops) = Some c /\
      skipn 3 (out c) = [(1, IEvent (EvDesc (Some 53) None)); (2, IData (CP 10 100 52 None));
                         (1, IData (CP 11 111 53 (Some (CP 10 100 52 None))))].
Proof.
  exists world1, stale_ops. split; [|split; [reflexivity|]].
  - unfold stale_ops, intro_ops. repeat split; cbn; try lia; try tauto; intros; try (inversion H; subst); try tauto; try lia.
  - intros thr. eexists. split; [vm_compute; reflexivity|vm_compute; reflexivity].
Qed.

(** Finding: a packet that is handed over with its last reference while the
    client waits for its domain packet is never released by the client. *)
Definition leak_ops := intro_ops ++ [OData 1 V11 false; OData 3 V11 true; OData 2 D10 false; ODestroy 10; OFlush].
Theorem c19_handover_while_waiting_refuted :
  exists world ops, valid world [] [] ops /\ ops = leak_ops /\ live [] [] ops = [] /\
    forall thr, exists c, snd (system (S thr) ops) = Some c /\ wait c = [] /\ lookup 11 (refd c) <> None.
Proof.
  exists world1, leak_ops. split; [|split; [reflexivity|split; [reflexivity|]]].
  - unfold leak_ops, intro_ops. repeat split; cbn; try lia; try tauto; intros; try (inversion H; subst); try tauto; try lia.
  - intros thr. destruct thr; eexists; (split; [vm_compute; reflexivity|]); vm_compute; split; congruence.
Qed.

(** Finding: a buffer whose domain packet is never sent stays at the client
    after the server has released it. *)
Definition orphan_ops := intro_ops ++ [OData 1 V11 false; ODestroy 11; ODestroy 10; OFlush].
Theorem c19_missing_domain_packet_refuted :
  exists world ops, valid world [] [] ops /\ ops = orphan_ops /\ live [] [] ops = [] /\
    forall thr, exists c, snd (system (S thr) ops) = Some c /\ areReferencesCleared c = false /\ length (wait c) = 1%nat.
Proof.
  exists world1, orphan_ops. split; [|split; [reflexivity|split; [reflexivity|]]].
  - unfold orphan_ops, intro_ops. repeat split; cbn; try lia; try tauto; intros; try (inversion H; subst); try tauto; try lia.
  - intros thr. destruct thr; eexists; (split; [vm_compute; reflexivity|]); vm_compute; split; congruence.
Qed.

Print Assumptions c18_refines_ideal.
Print Assumptions c18_domain_first.
Print Assumptions c18_descriptors_reproduced.
Print Assumptions c18_exactly_once.
Print Assumptions c19_released_partial.
Print Assumptions c19_domain_first.
Print Assumptions c18_other_events_lost_refuted.
Print Assumptions c18_late_domain_descriptor_refuted.
Print Assumptions c19_handover_while_waiting_refuted.
Print Assumptions c19_missing_domain_packet_refuted.
