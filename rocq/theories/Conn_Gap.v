(** Proofs about gap detection (C04). *)
From Verif Require Import Base Conn_Model Conn_Spec Conn_Proofs.
Local Open Scope Z_scope.

Definition track (s : option (Z * nat)) (p : packet) : option (Z * nat) :=
  match p with
  | Data _ _ d => d
  | DescEv _ PUnchanged => s
  | DescEv _ _ => None
  | _ => s
  end.
Definition last_data (l : list packet) : option (Z * nat) := fold_left track l None.

Fixpoint ends_gap (l : list packet) : option Z :=
  match l with
  | [] => None
  | [GapEv g] => Some g
  | _ :: l' => ends_gap l'
  end.

Definition expected_gap (l : list packet) (p : packet) : option Z :=
  match checkable (domain_after l), last_data l, p with
  | Some dl, Some (off, n), Data _ _ (Some (off2, _)) =>
      let g := off2 - (off + Z.of_nat n * dl) in if g =? 0 then None else Some g
  | _, _, _ => None
  end.

Lemma ends_gap_snoc : forall l p, ends_gap (l ++ [p]) = match p with GapEv g => Some g | _ => None end.
Proof.
  induction l as [|q l IH]; intros p.
  - cbn. destruct p; reflexivity.
  - cbn [app ends_gap]. rewrite IH. destruct q; try reflexivity.
    destruct l; reflexivity.
Qed.

Lemma domain_after_snoc : forall l p, domain_after (l ++ [p]) =
  match p with DescEv _ PUnchanged => domain_after l | DescEv _ d' => d' | _ => domain_after l end.
Proof. intros. unfold domain_after. rewrite fold_left_app. cbn. destruct p as [| ? [| |]| | |]; reflexivity. Qed.
Lemma last_data_snoc : forall l p, last_data (l ++ [p]) = track (last_data l) p.
Proof. intros. unfold last_data. rewrite fold_left_app. reflexivity. Qed.

Definition well_gapped (S : list packet) : Prop :=
  forall l1 p l3, S = l1 ++ p :: l3 -> isData p = true ->
    match p with Data _ _ (Some _) => ends_gap l1 = expected_gap l1 p | _ => ends_gap l1 = None end.

Definition gaps_followed (S : list packet) : Prop :=
  forall l1 g l3, S = l1 ++ GapEv g :: l3 -> exists p l, l3 = p :: l /\ isData p = true /\ expected_gap l1 p = Some g.

Definition state_matches (c : conn) (S : list packet) : Prop :=
  match gapCheckState c with
  | GDisabled => False
  | GUninit => domain_after S = PUnchanged
  | GNotAvail => checkable (domain_after S) = None
  | GInit => checkable (domain_after S) = Some (delta c) /\ last_data S = None
  | GRunning => checkable (domain_after S) = Some (delta c) /\
      exists off n, last_data S = Some (off, n) /\ nextExpected c = off + Z.of_nat n * delta c
  end.

Definition GInv (c : conn) (S : list packet) : Prop :=
  state_matches c S /\ well_gapped S /\ gaps_followed S /\ ends_gap S = None.

Lemma snoc_split : forall (S : list packet) q l1 p l3, S ++ [q] = l1 ++ p :: l3 ->
  (l3 = [] /\ l1 = S /\ p = q) \/ (exists l3', l3 = l3' ++ [q] /\ S = l1 ++ p :: l3').
Proof.
  intros S q l1 p l3 H. destruct l3 as [|x l3] using rev_ind.
  - left. apply app_inj_tail in H. destruct H; subst; auto.
  - right. clear IHl3. exists l3. replace (l1 ++ p :: l3 ++ [x]) with ((l1 ++ p :: l3) ++ [x]) in H.
    + apply app_inj_tail in H. destruct H as [-> ->]. auto.
    + rewrite <- app_assoc. reflexivity.
Qed.

Lemma snoc_nongap : forall S q, ends_gap S = None -> (isData q = true -> match q with Data _ _ (Some _) => expected_gap S q = None | _ => True end) ->
  isGap q = false ->
  well_gapped S -> gaps_followed S -> well_gapped (S ++ [q]) /\ gaps_followed (S ++ [q]).
Proof.
  intros S q HE HX HG HW HF. split.
  - intros l1 p l3 H Hd. destruct (snoc_split _ _ _ _ _ H) as [(-> & -> & ->)|(l3' & -> & H')].
    + specialize (HX Hd). destruct q as [? ? [?|]| | | |]; try discriminate; congruence.
    + apply (HW l1 p l3' H' Hd).
  - intros l1 g l3 H. destruct (snoc_split _ _ _ _ _ H) as [(-> & -> & <-)|(l3' & -> & H')].
    + discriminate.
    + destruct (HF _ _ _ H') as (p & l & -> & Hp). exists p, (l ++ [q]). split; [reflexivity|exact Hp].
Qed.

Lemma snoc_gap : forall S q g, ends_gap S = None -> isData q = true -> (exists i n x, q = Data i n (Some x)) ->
  expected_gap S q = Some g ->
  well_gapped S -> gaps_followed S -> well_gapped (S ++ [GapEv g; q]) /\ gaps_followed (S ++ [GapEv g; q]).
Proof.
  intros S q g HE Hd (i & n & x & Eq) HX HW HF.
  replace (S ++ [GapEv g; q]) with ((S ++ [GapEv g]) ++ [q]) by (rewrite <- app_assoc; reflexivity).
  assert (EX : expected_gap (S ++ [GapEv g]) q = expected_gap S q).
  { unfold expected_gap. rewrite domain_after_snoc, last_data_snoc. reflexivity. }
  split.
  - intros l1 p l3 H Hdp. destruct (snoc_split _ _ _ _ _ H) as [(-> & -> & ->)|(l3' & -> & H')].
    + rewrite Eq in *. rewrite EX, HX, ends_gap_snoc. reflexivity.
    + destruct (snoc_split _ _ _ _ _ H') as [(-> & -> & ->)|(l3'' & -> & H'')]; [discriminate|].
      apply (HW l1 p l3'' H'' Hdp).
  - intros l1 g' l3 H. destruct (snoc_split _ _ _ _ _ H) as [(-> & -> & E)|(l3' & -> & H')].
    + rewrite Eq in E. discriminate.
    + destruct (snoc_split _ _ _ _ _ H') as [(-> & -> & E)|(l3'' & -> & H'')].
      * injection E as ->. exists q, []. auto.
      * destruct (HF _ _ _ H'') as (p & l & -> & Hp). exists p, ((l ++ [GapEv g]) ++ [q]). split; [reflexivity|exact Hp].
Qed.

Lemma state_matches_ext : forall c c' S, gapCheckState c' = gapCheckState c -> delta c' = delta c -> nextExpected c' = nextExpected c ->
  state_matches c S -> state_matches c' S.
Proof. intros c c' S A B C H. unfold state_matches in *. rewrite A, B, C. exact H. Qed.

Lemma onEnq_gapfields : forall c p, gapCheckState (onPacketEnqueued c p) = gapCheckState c /\
  delta (onPacketEnqueued c p) = delta c /\ nextExpected (onPacketEnqueued c p) = nextExpected c.
Proof. intros c []; repeat split. Qed.

Lemma enq_GInv : forall c m a p S c' u, enqueueInternal c m a p = (c', u) -> GInv c S ->
  exists add, packets c' = packets c ++ add /\ GInv c' (S ++ add).
Proof.
  intros c m a p S c' u H I. pose proof I as (HS & HW & HF & HE). unfold enqueueInternal in H.
  assert (NOP : c' = c -> exists add, packets c' = packets c ++ add /\ GInv c' (S ++ add)).
  { intros ->. exists []. rewrite !app_nil_r. auto. }
  destruct (negb a && negb (isEvent p)).
  { injection H as <- <-. apply NOP; reflexivity. }
  assert (D : gapCheckState c <> GDisabled). { intros E. unfold state_matches in HS. rewrite E in HS. exact HS. }
  assert (H' : match checkForGaps c p with
    | GUB => (c, mk UB [] None)
    | GThrow e => (c, mk (Failed e) [] None)
    | GOk c1 =>
        let c2 := onPacketEnqueued c1 p in
        let c3 := set_queueEmpty (set_packets c2 (packets c2 ++ [p])) false in
        (c3, mk Success []
               (Some (match m with
                      | MEnqueue => Notify (queueEmpty c)
                      | MOnThisThread => NotifyOnThisThread
                      | MWithScheduler => NotifyWithScheduler
                      end)))
    end = (c', u)). { destruct (gapCheckState c); try exact H. contradiction. }
  clear H. destruct (checkForGaps c p) as [c1|e|] eqn:Eg; [|injection H' as <- <-; apply NOP; reflexivity..].
  cbv zeta in H'. injection H' as Hc' _.
  (* the plain case: nothing but p is appended *)
  assert (PLAIN : forall c1', c1 = c1' -> packets c1' = packets c -> isGap p = false ->
     (isData p = true -> match p with Data _ _ (Some _) => expected_gap S p = None | _ => True end) ->
     state_matches c1' (S ++ [p]) -> exists add, packets c' = packets c ++ add /\ GInv c' (S ++ add)).
  { intros c1' <- Hp Hg Hx Hm. exists [p].
    destruct (onEnq_gapfields c1 p) as (F1 & F2 & F3).
    split. { subst c'. cbn [set_queueEmpty set_packets packets]. rewrite packets_onEnq, Hp. reflexivity. }
    split. { eapply state_matches_ext; [| | |exact Hm]; subst c'; cbn [set_queueEmpty set_packets gapCheckState delta nextExpected]; assumption. }
    destruct (snoc_nongap S p HE Hx Hg HW HF) as [W F].
    split; [exact W|]. split; [exact F|]. rewrite ends_gap_snoc. destruct p; try reflexivity; discriminate. }
  unfold state_matches in HS.
  destruct p as [id n dom|v d|g|id|id]; cbn [checkForGaps initGapCheck] in Eg.
  - destruct (gapCheckState c) eqn:Es; [contradiction|discriminate| | |].
    + injection Eg as <-. eapply PLAIN; try reflexivity.
      * intros _. destruct dom; [|exact Logic.I]. unfold expected_gap. rewrite HS. reflexivity.
      * unfold state_matches. rewrite Es, domain_after_snoc. exact HS.
    + destruct dom as [[off k]|]; [|discriminate]. unfold beginGapCheck in Eg.
      destruct (_ && _); [|discriminate]. injection Eg as Eg. destruct HS as [HS1 HS2].
      eapply PLAIN; [symmetry; exact Eg|reflexivity|reflexivity| |].
      * intros _. unfold expected_gap. rewrite HS1, HS2. reflexivity.
      * unfold state_matches. cbn [set_gap gapCheckState delta nextExpected]. rewrite domain_after_snoc, last_data_snoc.
        split; [exact HS1|]. exists off, k. split; reflexivity.
    + destruct dom as [[off k]|]; [|discriminate]. unfold doGapCheck in Eg.
      destruct (_ && _); [|discriminate]. injection Eg as Eg.
      destruct HS as [HS1 (off0 & n0 & HS2 & HS3)].
      assert (EX : expected_gap S (Data id n (Some (off, k))) = if off - nextExpected c =? 0 then None else Some (off - nextExpected c)).
      { unfold expected_gap. rewrite HS1, HS2, HS3. reflexivity. }
      destruct (off - nextExpected c =? 0) eqn:Ez.
      * eapply PLAIN; [symmetry; exact Eg|reflexivity|reflexivity| |].
        -- intros _. exact EX.
        -- unfold state_matches. cbn [set_gap gapCheckState delta nextExpected]. rewrite Es, domain_after_snoc, last_data_snoc.
           split; [exact HS1|]. exists off, k. split; reflexivity.
      * exists [GapEv (off - nextExpected c); Data id n (Some (off, k))].
        split. { subst c'. cbn [set_queueEmpty set_packets packets]. rewrite packets_onEnq. subst c1.
                 cbn [enqueueGapPacket set_packets set_counts set_gap packets]. rewrite <- app_assoc. reflexivity. }
        split. { unfold state_matches. subst c'. cbn [set_queueEmpty set_packets gapCheckState delta nextExpected].
                 destruct (onEnq_gapfields c1 (Data id n (Some (off, k)))) as (-> & -> & ->). subst c1.
                 cbn [enqueueGapPacket set_packets set_counts set_gap gapCheckState delta nextExpected]. rewrite Es.
                 replace (S ++ [GapEv (off - nextExpected c); Data id n (Some (off, k))])
                   with ((S ++ [GapEv (off - nextExpected c)]) ++ [Data id n (Some (off, k))]) by (rewrite <- app_assoc; reflexivity).
                 rewrite !domain_after_snoc, last_data_snoc. split; [exact HS1|]. exists off, k. split; reflexivity. }
        destruct (snoc_gap S (Data id n (Some (off, k))) (off - nextExpected c) HE eq_refl) as [W F]; try assumption.
        { eexists; eexists; eexists; reflexivity. }
        split; [exact W|]. split; [exact F|].
        replace (S ++ [GapEv (off - nextExpected c); Data id n (Some (off, k))])
                   with ((S ++ [GapEv (off - nextExpected c)]) ++ [Data id n (Some (off, k))]) by (rewrite <- app_assoc; reflexivity).
        rewrite ends_gap_snoc. reflexivity.
  - destruct d as [| |d].
    + destruct (gapCheckState c) eqn:Es; try contradiction; injection Eg as Eg;
        (eapply PLAIN; [symmetry; exact Eg|reflexivity|reflexivity|discriminate|]); unfold state_matches;
        cbn [set_gap gapCheckState delta nextExpected]; rewrite ?Es, domain_after_snoc, ?last_data_snoc; try exact HS.
      rewrite HS. reflexivity.
    + injection Eg as Eg. eapply PLAIN; [symmetry; exact Eg|reflexivity|reflexivity|discriminate|]. unfold state_matches.
      cbn [set_gap gapCheckState]. rewrite domain_after_snoc. reflexivity.
    + destruct d as [did lin dl ty]. cbn [dd_linear dd_type dd_delta] in Eg.
      destruct lin; [destruct ty|]; injection Eg as Eg;
        (eapply PLAIN; [symmetry; exact Eg|reflexivity|reflexivity|discriminate|]); unfold state_matches;
        cbn [set_gap gapCheckState delta nextExpected]; rewrite domain_after_snoc, ?last_data_snoc; cbn [checkable track];
        try reflexivity; split; reflexivity.
  - discriminate.
  - injection Eg as Eg. eapply PLAIN; [symmetry; exact Eg|reflexivity|reflexivity|discriminate|].
    unfold state_matches. rewrite domain_after_snoc, last_data_snoc. exact HS.
  - injection Eg as Eg. eapply PLAIN; [symmetry; exact Eg|reflexivity|reflexivity|discriminate|].
    unfold state_matches. rewrite domain_after_snoc, last_data_snoc. exact HS.
Qed.

Lemma onDeq_gapfields : forall c p, gapCheckState (onPacketDequeued c p) = gapCheckState c /\
  delta (onPacketDequeued c p) = delta c /\ nextExpected (onPacketDequeued c p) = nextExpected c.
Proof. intros c []; repeat split. Qed.

Lemma gap_inv : forall ops, pure_ops ops ->
  GInv (final true ops) (delivered (trace true ops) ++ packets (final true ops)).
Proof.
  unfold final, trace.
  apply (history_ind (fun c t ops => pure_ops ops -> GInv c (delivered t ++ packets c)) (init true)).
  - intros _. split; [reflexivity|]. split; [|split].
    + intros l1 p l3 H. destruct l1; discriminate.
    + intros l1 g l3 H. destruct l1; discriminate.
    + reflexivity.
  - intros ops o IH HO.
    assert (IH' := IH (fun x Hx => HO x (in_or_app _ _ _ (or_introl Hx)))). clear IH.
    destruct (HO o) as [Hm Hl]; [apply in_or_app; right; left; reflexivity|].
    set (c := fst (run (init true) ops)) in *. set (t := snd (run (init true) ops)) in *.
    rewrite delivered_app, delivered_one.
    assert (SAME : forall c', gapCheckState c' = gapCheckState c -> delta c' = delta c -> nextExpected c' = nextExpected c ->
      forall S', S' = delivered t ++ packets c -> GInv c' S').
    { intros c' A B C S' ->. destruct IH' as (I1 & I2 & I3 & I4). split; [eapply state_matches_ext; eassumption|auto]. }
    destruct o as [m a p|a ps| | |n| |]; cbn [step]; try discriminate.
    + destruct (enqueueInternal c m a p) as [c' u] eqn:E. cbn [fst snd delivered_by]. rewrite app_nil_r.
      destruct (enq_GInv _ _ _ _ _ _ _ E IH') as (add & -> & I). rewrite app_assoc. exact I.
    + unfold dequeue. destruct (packets c) as [|p l] eqn:El; cbn [fst snd delivered_by o_packets mk].
      * apply SAME; try reflexivity. cbn [set_queueEmpty packets]. rewrite El, !app_nil_r. reflexivity.
      * destruct (onDeq_gapfields (set_packets c l) p) as (A & B & C). apply SAME; try assumption.
        rewrite packets_onDeq. cbn [set_packets packets]. rewrite <- app_assoc. reflexivity.
    + cbn [dequeueAll fst snd delivered_by o_packets mk]. apply SAME; try reflexivity. rewrite <- app_assoc. cbn. rewrite app_nil_r. reflexivity.
    + cbn [dequeueUpTo fst snd delivered_by o_packets mk].
      destruct (gap_count (set_packets c (skipn (Nat.min n (length (packets c))) (packets c)))) as (A & B & C & _ & _).
      apply SAME; try assumption. rewrite packets_count. cbn [set_packets packets]. rewrite <- app_assoc, firstn_skipn. reflexivity.
    + unfold peek. destruct (packets c) eqn:El; cbn [fst snd delivered_by]; apply SAME; try reflexivity; rewrite ?El, !app_nil_r; reflexivity.
Qed.

(** From the internal description to the declarative one. *)
Lemma ends_gap_some : forall l g, ends_gap l = Some g -> exists l', l = l' ++ [GapEv g].
Proof.
  intros l g H. destruct l as [|p l] using rev_ind; [discriminate|]. rewrite ends_gap_snoc in H.
  destruct p; try discriminate. injection H as ->. eexists; reflexivity.
Qed.

Lemma domain_after_keep : forall l2 l1, (forall p, In p l2 -> changes_domain p = false) -> domain_after (l1 ++ l2) = domain_after l1.
Proof.
  induction l2 as [|p l2 IH]; intros l1 H; [rewrite app_nil_r; reflexivity|].
  replace (l1 ++ p :: l2) with ((l1 ++ [p]) ++ l2) by (rewrite <- app_assoc; reflexivity).
  rewrite IH by (intros; apply H; right; assumption). rewrite domain_after_snoc.
  assert (Hc := H p (or_introl eq_refl)). destruct p as [|? [| |]| | |]; try reflexivity; discriminate.
Qed.
Lemma last_data_keep : forall l2 l1, (forall p, In p l2 -> changes_domain p = false) -> (forall p, In p l2 -> isData p = false) ->
  last_data (l1 ++ l2) = last_data l1.
Proof.
  induction l2 as [|p l2 IH]; intros l1 H Hd; [rewrite app_nil_r; reflexivity|].
  replace (l1 ++ p :: l2) with ((l1 ++ [p]) ++ l2) by (rewrite <- app_assoc; reflexivity).
  rewrite IH by (intros; first [apply H|apply Hd]; right; assumption). rewrite last_data_snoc.
  assert (Hc := H p (or_introl eq_refl)). assert (Hc' := Hd p (or_introl eq_refl)).
  destruct p as [|? [| |]| | |]; try reflexivity; discriminate.
Qed.

Lemma last_data_some : forall l off n, last_data l = Some (off, n) ->
  exists l0 i s m, l = l0 ++ Data i s (Some (off, n)) :: m /\
    (forall p, In p m -> isData p = false) /\ (forall p, In p m -> changes_domain p = false).
Proof.
  induction l as [|q l IH] using rev_ind; intros off n H; [discriminate|].
  rewrite last_data_snoc in H.
  assert (K : last_data l = Some (off, n) -> isData q = false -> changes_domain q = false ->
    exists l0 i s m, l ++ [q] = l0 ++ Data i s (Some (off, n)) :: m /\
    (forall p, In p m -> isData p = false) /\ (forall p, In p m -> changes_domain p = false)).
  { intros H' Hd Hc. destruct (IH _ _ H') as (l0 & i & s & m & -> & A & B). exists l0, i, s, (m ++ [q]).
    split; [rewrite <- app_assoc; reflexivity|].
    split; intros p Hp; apply in_app_or in Hp; destruct Hp as [Hp|[<-|[]]]; auto. }
  destruct q as [i s d|v [| |d]|g|i|i]; cbn [track] in H; try discriminate; try (apply K; [exact H|reflexivity|reflexivity]).
  subst d. exists l, i, s, []. split; [reflexivity|]. split; intros p [].
Qed.

Lemma gap_only_if : forall ops l1 g l2, pure_ops ops -> stream true ops = l1 ++ GapEv g :: l2 ->
  exists l0 ida sa oa na m idb sb ob nb l3 dl,
    l1 = l0 ++ Data ida sa (Some (oa, na)) :: m /\ l2 = Data idb sb (Some (ob, nb)) :: l3 /\
    (forall p, In p m -> isData p = false) /\ (forall p, In p m -> changes_domain p = false) /\
    checkable (domain_after l0) = Some dl /\ g = ob - (oa + Z.of_nat na * dl) /\ g <> 0.
Proof.
  intros ops l1 g l2 HO H. rewrite stream_eq in H. destruct (gap_inv ops HO) as (_ & _ & HF & _).
  destruct (HF _ _ _ H) as (p & l & -> & Hd & HX). unfold expected_gap in HX.
  destruct (checkable (domain_after l1)) as [dl|] eqn:Ec; [|discriminate].
  destruct (last_data l1) as [[oa na]|] eqn:El; [|discriminate].
  destruct p as [idb sb [[ob nb]|]| | | |]; try discriminate.
  cbv zeta in HX. destruct (Z.eqb_spec (ob - (oa + Z.of_nat na * dl)) 0); [discriminate|]. injection HX as <-.
  destruct (last_data_some _ _ _ El) as (l0 & i & s & m & -> & A & B).
  exists l0, i, s, oa, na, m, idb, sb, ob, nb, l, dl. repeat split; try assumption.
  rewrite <- Ec. f_equal. symmetry.
  replace (l0 ++ Data i s (Some (oa, na)) :: m) with ((l0 ++ [Data i s (Some (oa, na))]) ++ m) by (rewrite <- app_assoc; reflexivity).
  rewrite domain_after_keep by exact B. rewrite domain_after_snoc. reflexivity.
Qed.

Lemma gap_if : forall ops l1 ida sa oa na m idb sb ob nb l3 dl, pure_ops ops ->
  stream true ops = l1 ++ Data ida sa (Some (oa, na)) :: m ++ Data idb sb (Some (ob, nb)) :: l3 ->
  (forall p, In p m -> isData p = false) -> (forall p, In p m -> changes_domain p = false) ->
  checkable (domain_after l1) = Some dl ->
  let g := ob - (oa + Z.of_nat na * dl) in
  (g = 0 -> forall p, In p m -> isGap p = false) /\
  (g <> 0 -> exists m', m = m' ++ [GapEv g] /\ forall p, In p m' -> isGap p = false).
Proof.
  intros ops l1 ida sa oa na m idb sb ob nb l3 dl HO H Hd Hc Hk g. rewrite stream_eq in H.
  destruct (gap_inv ops HO) as (_ & HW & HF & _).
  set (A := Data ida sa (Some (oa, na))) in *. set (B := Data idb sb (Some (ob, nb))) in *.
  assert (H2 : delivered (trace true ops) ++ packets (final true ops) = (l1 ++ A :: m) ++ B :: l3)
    by (rewrite H, <- app_assoc; reflexivity).
  pose proof (HW _ _ _ H2 eq_refl) as E. cbn [B] in E.
  assert (EX : expected_gap (l1 ++ A :: m) B = if g =? 0 then None else Some g).
  { unfold expected_gap.
    replace (l1 ++ A :: m) with ((l1 ++ [A]) ++ m) by (rewrite <- app_assoc; reflexivity).
    rewrite domain_after_keep, last_data_keep by assumption. rewrite domain_after_snoc, last_data_snoc. cbn [A track].
    rewrite Hk. reflexivity. }
  unfold B in E at 1. cbv beta iota in E. fold B in E. rewrite EX in E.
  (* a gap packet inside m is its last packet *)
  assert (L : forall m1 x m2, m = m1 ++ GapEv x :: m2 -> m2 = []).
  { intros m1 x m2 Em. destruct m2 as [|q m2]; [reflexivity|]. exfalso.
    assert (H3 : delivered (trace true ops) ++ packets (final true ops) = (l1 ++ A :: m1) ++ GapEv x :: (q :: m2 ++ B :: l3)).
    { rewrite H, Em. repeat (rewrite <- ?app_assoc; cbn [app]). reflexivity. }
    destruct (HF _ _ _ H3) as (p & l & Ep & Hp & _). injection Ep as -> _.
    rewrite (Hd p) in Hp; [discriminate|]. rewrite Em. apply in_or_app. right. right. left. reflexivity. }
  assert (NG : forall m1 p, (exists m2, m = m1 ++ m2 /\ m2 <> []) -> In p m1 -> isGap p = false).
  { intros m1 p (m2 & Em & Hne) Hp. destruct p; try reflexivity. exfalso.
    apply in_split in Hp. destruct Hp as (x1 & x2 & ->).
    rewrite <- app_assoc in Em. cbn in Em. apply L in Em. destruct x2; [|discriminate]. apply app_eq_nil in Em. tauto. }
  split; intros Hg.
  - intros p Hp. destruct p; try reflexivity. exfalso. apply in_split in Hp. destruct Hp as (x1 & x2 & Em).
    pose proof (L _ _ _ Em) as ->. subst m. rewrite Hg in E. cbn in E.
    replace (l1 ++ A :: x1 ++ [GapEv diff]) with ((l1 ++ A :: x1) ++ [GapEv diff]) in E by (rewrite <- app_assoc; reflexivity).
    rewrite ends_gap_snoc in E. discriminate.
  - destruct (Z.eqb_spec g 0); [contradiction|].
    destruct (ends_gap_some _ _ E) as (l' & El).
    destruct m as [|q m' _] using rev_ind.
    + exfalso. change (l1 ++ [A]) with (l1 ++ [A]) in El. apply app_inj_tail in El. destruct El as [_ El]. discriminate.
    + replace (l1 ++ A :: m' ++ [q]) with ((l1 ++ A :: m') ++ [q]) in El by (rewrite <- app_assoc; reflexivity).
      apply app_inj_tail in El. destruct El as [_ ->]. exists m'. split; [reflexivity|].
      intros p Hp. apply (NG m' p); [|exact Hp]. exists [GapEv g]. split; [reflexivity|discriminate].
Qed.
