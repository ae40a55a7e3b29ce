From Verif Require Import Base TRead_Model TRead_Spec.
Local Open Scope Z_scope.

Definition data_only (l : list packet) : Prop := Forall (fun p => is_data p = true) l.

Lemma forallb_data : forall l, forallb is_data l = true <-> data_only l.
Proof. intros l. rewrite forallb_forall. unfold data_only. rewrite Forall_forall. reflexivity. Qed.
Lemma since_all : forall l, data_only l -> since_event l = l.
Proof. intros [|p r] H; [reflexivity|]. cbn [since_event]. apply forallb_data in H. now rewrite H. Qed.
Lemma forallb_snoc : forall l p, forallb is_data (l ++ [p]) = forallb is_data l && is_data p.
Proof. intros. rewrite forallb_app. cbn [forallb]. now rewrite andb_true_r. Qed.
Lemma since_snoc_data : forall l p, is_data p = true -> since_event (l ++ [p]) = since_event l ++ [p].
Proof.
  induction l as [|q r IH]; intros p H; cbn [app since_event].
  - cbn [forallb]. now rewrite H.
  - replace (forallb is_data (q :: r ++ [p])) with (forallb is_data (q :: r)).
    + destruct (forallb is_data (q :: r)); [reflexivity|]. now apply IH.
    + cbn [forallb]. rewrite forallb_snoc, H, andb_true_r. reflexivity.
Qed.
Lemma since_snoc_event : forall l p, is_data p = false -> since_event (l ++ [p]) = [].
Proof.
  induction l as [|q r IH]; intros p H; cbn [app since_event].
  - cbn [forallb]. now rewrite H.
  - replace (forallb is_data (q :: r ++ [p])) with false.
    + now apply IH.
    + cbn [forallb]. rewrite forallb_snoc, H, andb_false_r, andb_false_r. reflexivity.
Qed.
Lemma since_data : forall l, data_only (since_event l).
Proof.
  induction l as [|p r IH]; [constructor|]. cbn [since_event]. destruct (forallb is_data (p :: r)) eqn:E; [now apply forallb_data|apply IH].
Qed.
(** dropping a beginning that ends with an event does not matter *)
Lemma since_drop : forall a e r, is_data e = false -> since_event (a ++ e :: r) = since_event r.
Proof.
  induction a as [|p a IH]; intros e r H; cbn [app since_event].
  - cbn [forallb]. now rewrite H.
  - replace (forallb is_data (p :: a ++ e :: r)) with false; [now apply IH|].
    cbn [forallb]. rewrite forallb_app. cbn [forallb]. rewrite H. cbn [andb]. now rewrite !andb_false_r.
Qed.

Lemma values_app : forall a b, values_of (a ++ b) = values_of a ++ values_of b.
Proof. intros. unfold values_of. apply flat_map_app. Qed.
Lemma domains_app : forall a b, domains_of (a ++ b) = domains_of a ++ domains_of b.
Proof. intros. unfold domains_of. apply flat_map_app. Qed.
Lemma num_app : forall a b, num_samples (a ++ b) = num_samples a + num_samples b.
Proof. intros. unfold num_samples. rewrite values_app, app_length, Nat2Z.inj_add. reflexivity. Qed.
Lemma num_nonneg : forall l, 0 <= num_samples l.
Proof. intros. unfold num_samples. lia. Qed.
Lemma num_cons_data : forall smp dom l, num_samples (Data smp dom :: l) = cnt smp + num_samples l.
Proof. intros. unfold num_samples, cnt. cbn [values_of flat_map]. rewrite app_length, Nat2Z.inj_add. reflexivity. Qed.
Lemma num_cons_event : forall p l, is_data p = false -> num_samples (p :: l) = num_samples l.
Proof. intros [smp dom| |] l H; try discriminate; reflexivity. Qed.
Lemma num_nil : num_samples [] = 0. Proof. reflexivity. Qed.
Lemma cnt_nonneg : forall l, 0 <= cnt l. Proof. intros. unfold cnt. lia. Qed.
Lemma num_since : forall l, num_samples (since_event l) <= num_samples l.
Proof.
  induction l as [|p r IH]; [cbn [since_event]; lia|]. cbn [since_event]. destruct (forallb is_data (p :: r)); [lia|].
  destruct p as [smp dom| |]; [rewrite num_cons_data; pose proof (cnt_nonneg smp); lia|rewrite num_cons_event by reflexivity; lia..].
Qed.

(** ** The trimming *)
Lemma trim_spec : forall hs l a l' a' extra, 0 <= extra -> num_samples l + extra < two64 -> a = num_samples l + extra ->
  trim hs l a = (l', a') ->
  a' = num_samples l' + extra /\ num_samples l' <= num_samples l /\ events_of l' = events_of l /\
  (exists x, since_event l = x ++ since_event l' /\ (x = [] \/ (num_samples l' = num_samples (since_event l') /\ hs <= a'))) /\
  (forall p, In p l' -> In p l).
Proof.
  intros hs. induction l as [|p r IH]; intros a l' a' extra He Hb Ha Ht.
  - cbn [trim] in Ht. injection Ht as <- <-. split; [exact Ha|]. split; [lia|]. split; [reflexivity|]. split; [|auto]. exists []. split; [reflexivity|now left].
  - assert (Hev : forall q, is_data q = false -> trim hs (q :: r) a = (let '(r', a0) := trim hs r a in (q :: r', a0))) by (intros [? ?|?|?] E; [discriminate E|reflexivity|reflexivity]).
    destruct (is_data p) eqn:Ed.
    + destruct p as [smp dom| |]; [|discriminate Ed..]. cbn [trim] in Ht. pose proof (cnt_nonneg smp). pose proof (num_nonneg r).
      rewrite num_cons_data in *.
      assert (Hw : w64 (a - cnt smp) = num_samples r + extra) by (rewrite w64_small; lia). rewrite Hw in Ht.
      destruct (num_samples r + extra >=? hs) eqn:Eh.
      * destruct (IH _ _ _ extra He ltac:(lia) eq_refl Ht) as (H1 & H2 & H3 & (x & H4 & H5) & H6).
        split; [exact H1|]. split; [lia|]. split; [exact H3|]. split; [|intros q Hq; right; now apply H6].
        cbn [since_event]. destruct (forallb is_data (Data smp dom :: r)) eqn:Ef.
        -- exists (Data smp dom :: x). pose proof Ef as Ef'. cbn [forallb is_data andb] in Ef'. apply forallb_data in Ef'.
           rewrite (since_all r Ef') in H4. split; [cbn [app]; now rewrite <- H4|]. right.
           assert (Hl' : data_only l') by (apply Forall_forall; intros q Hq; exact (proj1 (Forall_forall _ _) Ef' q (H6 q Hq))).
           rewrite (since_all l' Hl'). split; [reflexivity|].
           destruct H5 as [->|[_ H5]]; [|exact H5]. cbn [app] in H4. rewrite (since_all l' Hl') in H4. subst l'. lia.
        -- exists x. split; [exact H4|exact H5].
      * injection Ht as <- <-. split; [rewrite num_cons_data; lia|]. split; [rewrite num_cons_data; lia|]. split; [reflexivity|]. split; [|auto].
        exists []. split; [reflexivity|now left].
    + rewrite (Hev p Ed) in Ht. rewrite (num_cons_event p r Ed) in *. destruct (trim hs r a) as [r' a0] eqn:Et. injection Ht as <- <-.
      destruct (IH _ _ _ extra He Hb Ha Et) as (H1 & H2 & H3 & (x & H4 & H5) & H6).
      rewrite !num_cons_event by exact Ed.
      assert (Hs : forall l, since_event (p :: l) = since_event l) by (intros l; exact (since_drop [] p l Ed)).
      split; [exact H1|]. split; [exact H2|]. split; [cbn [events_of filter]; rewrite Ed; cbn [negb]; f_equal; exact H3|].
      split; [exists x; rewrite !Hs; split; assumption|]. intros q [->|Hq]; [now left|right; now apply H6].
Qed.

(** ** The reading loop over data packets *)
Lemma part_app : forall (a b : list Z) k off, (0 <= k) -> 0 <= off ->
  firstn (Z.to_nat k) (skipn (Z.to_nat off) (a ++ b)) =
  (if off >? Z.of_nat (length a) then firstn (Z.to_nat k) (skipn (Z.to_nat (off - Z.of_nat (length a))) b)
   else firstn (Z.to_nat (Z.min k (Z.of_nat (length a) - off))) (skipn (Z.to_nat off) a) ++ firstn (Z.to_nat (k - Z.min k (Z.of_nat (length a) - off))) b).
Proof.
  intros a b k off Hk Ho. rewrite skipn_app. destruct (off >? Z.of_nat (length a)) eqn:E.
  - rewrite skipn_all2 by lia. cbn [app]. do 2 f_equal. lia.
  - rewrite firstn_app, skipn_length. replace (Z.to_nat off - length a)%nat with 0%nat by lia. cbn [skipn].
    destruct (Z.le_gt_cases k (Z.of_nat (length a) - off)).
    + rewrite Z.min_l by lia. f_equal. f_equal. lia.
    + rewrite Z.min_r by lia. f_equal.
      * rewrite !firstn_all2; [reflexivity| |]; rewrite skipn_length; lia.
      * f_equal. lia.
Qed.

Lemma loop_data : forall d skip l kept read cached inv i, data_only l -> 0 <= offset i -> 0 <= remainingToRead i ->
  Forall well_formed l ->
  (d = true -> Forall has_domain l) ->
  exists i', loop d skip l kept read cached inv i = (kept ++ l, cached, inv, i', NoEvent) /\
    gotv i' = gotv i ++ firstn (Z.to_nat (remainingToRead i)) (skipn (Z.to_nat (offset i)) (values_of l)) /\
    (d = true -> gotd i' = gotd i ++ firstn (Z.to_nat (remainingToRead i)) (skipn (Z.to_nat (offset i)) (domains_of l))).
Proof.
  intros d skip. induction l as [|p r IH]; intros kept read cached inv i Hd Ho Hr Hw Hdom.
  - exists i. cbn [loop values_of domains_of flat_map]. rewrite !skipn_nil, !firstn_nil, !app_nil_r. split; [reflexivity|]. split; reflexivity.
  - inversion Hd as [|? ? Hp Hd']. subst. inversion Hw as [|? ? Hp2 Hw']. subst. destruct p as [smp dom| |]; [|discriminate Hp..].
    assert (Hdr : d = true -> Forall has_domain r) by (intros E; specialize (Hdom E); inversion Hdom; assumption).
    assert (Hdp : d = true -> exists dl, dom = Some dl) by (intros E; specialize (Hdom E); inversion Hdom as [|? ? Hx ?]; subst; destruct dom as [dl|]; [now exists dl|contradiction]).
    cbn [loop].
    assert (Hrp : exists i1, readPacket d i smp dom = Some i1 /\ 0 <= offset i1 /\ 0 <= remainingToRead i1 /\
       gotv i1 ++ firstn (Z.to_nat (remainingToRead i1)) (skipn (Z.to_nat (offset i1)) (values_of r))
        = gotv i ++ firstn (Z.to_nat (remainingToRead i)) (skipn (Z.to_nat (offset i)) (values_of (Data smp dom :: r))) /\
       (d = true -> gotd i1 ++ firstn (Z.to_nat (remainingToRead i1)) (skipn (Z.to_nat (offset i1)) (domains_of r))
        = gotd i ++ firstn (Z.to_nat (remainingToRead i)) (skipn (Z.to_nat (offset i)) (domains_of (Data smp dom :: r))))).
    { unfold readPacket. cbn [values_of flat_map]. fold (values_of r). rewrite (part_app smp (values_of r)) by assumption. fold (cnt smp).
      destruct (offset i >? cnt smp) eqn:Eo.
      - eexists. split; [reflexivity|]. cbn [offset remainingToRead gotv gotd]. split; [lia|]. split; [exact Hr|]. split; [reflexivity|].
        intros E. destruct (Hdp E) as [dl ->]. cbn [domains_of flat_map]. fold (domains_of r). rewrite (part_app dl (domains_of r)) by assumption.
        cbn [well_formed] in Hp2. rewrite Hp2. fold (cnt smp). now rewrite Eo.
      - destruct d.
        + destruct (Hdp eq_refl) as [dl ->]. eexists. split; [reflexivity|]. cbn [offset remainingToRead gotv gotd]. split; [lia|]. split; [lia|].
          change (Z.to_nat 0) with 0%nat. cbn [skipn]. rewrite <- app_assoc. split; [reflexivity|]. intros _.
          cbn [domains_of flat_map]. fold (domains_of r). rewrite (part_app dl (domains_of r)) by assumption.
          cbn [well_formed] in Hp2. rewrite Hp2. fold (cnt smp). rewrite Eo. rewrite <- app_assoc. reflexivity.
        + eexists. split; [reflexivity|]. cbn [offset remainingToRead gotv gotd]. split; [lia|]. split; [lia|].
          change (Z.to_nat 0) with 0%nat. cbn [skipn]. rewrite <- app_assoc. split; [reflexivity|]. discriminate. }
    destruct Hrp as (i1 & -> & Ho1 & Hr1 & Hv1 & Hd1).
    destruct (IH (kept ++ [Data smp dom]) (w64 (read + cnt smp)) cached inv i1 Hd' Ho1 Hr1 Hw' Hdr) as (i' & -> & Hv & Hdd).
    exists i'. rewrite <- app_assoc. cbn [app]. split; [reflexivity|]. split; [rewrite Hv; exact Hv1|]. intros E. rewrite (Hdd E). now apply Hd1.
Qed.

(** what the loop leaves in the cache *)
Lemma loop_eff : forall d skip l kept read cached inv i c n inv' i' e,
  loop d skip l kept read cached inv i = (c, n, inv', i', e) -> data_only kept ->
  Forall descriptor_or_data l ->
  read = num_samples kept -> cached = num_samples (kept ++ l) -> cached < two64 ->
  (skip = true -> (events_in l <= 1)%nat) ->
  since_event c = since_event (kept ++ l) /\ n = num_samples c /\ n <= cached /\ (forall p, In p c -> In p (kept ++ l)) /\
  (skip = false -> events_of (kept ++ l) = match e with ByEvent p => [p] | _ => [] end ++ events_of c) /\
  (e = NoEvent -> skip = false -> c = kept ++ l /\ data_only (kept ++ l)) /\
  (d = false -> e <> Throws).
Proof.
  intros d skip. induction l as [|p r IH]; intros kept read cached inv i c n inv' i' e Hl Hk Hdd Hr Hc Hb Hs.
  - cbn [loop] in Hl. injection Hl as <- <- <- <- <-. rewrite app_nil_r in *. split; [reflexivity|]. split; [exact Hc|]. split; [lia|]. split; [auto|].
    split; [reflexivity|]. split; [intros _ _; split; [reflexivity|exact Hk]|]. discriminate.
  - inversion Hdd as [|? ? Hp Hdr]. subst x l. destruct p as [smp dom|ok|m]; [| |contradiction Hp].
    + cbn [loop] in Hl. destruct (readPacket d i smp dom) as [i1|] eqn:Er.
      * assert (Hsplit : (kept ++ [Data smp dom]) ++ r = kept ++ Data smp dom :: r) by (rewrite <- app_assoc; reflexivity).
        assert (Hk2 : data_only (kept ++ [Data smp dom])) by (apply Forall_app; split; [exact Hk|repeat constructor]).
        assert (Hnum : w64 (read + cnt smp) = num_samples (kept ++ [Data smp dom])).
        { rewrite num_app, num_cons_data, num_nil, Hr. rewrite num_app, num_cons_data in Hc. pose proof (num_nonneg kept). pose proof (num_nonneg r). pose proof (cnt_nonneg smp). rewrite w64_small; lia. }
        pose proof (IH _ _ _ _ _ _ _ _ _ _ Hl Hk2 Hdr Hnum ltac:(rewrite Hsplit; exact Hc) Hb Hs) as (H1 & H2 & H3 & H4 & H5 & H6 & H8).
        rewrite Hsplit in *. split; [exact H1|]. split; [exact H2|]. split; [exact H3|]. split; [exact H4|]. split; [exact H5|]. split; [exact H6|exact H8].
      * injection Hl as <- <- <- <- <-. split; [reflexivity|]. split; [exact Hc|]. split; [lia|]. split; [auto|]. split; [reflexivity|].
        split; [discriminate|]. intros E. subst d. unfold readPacket in Er. destruct (offset i >? cnt smp); discriminate Er.
    + cbn [loop] in Hl.
      assert (Hw : w64 (cached - read) = num_samples r).
      { rewrite num_app, num_cons_event in Hc by reflexivity. pose proof (num_nonneg kept). pose proof (num_nonneg r). rewrite w64_small; lia. }
      rewrite Hw in Hl. rewrite num_app, num_cons_event in Hc by reflexivity. pose proof (num_nonneg kept). pose proof (num_nonneg r).
      assert (Hev : events_of (kept ++ Desc ok :: r) = Desc ok :: events_of r).
      { unfold events_of. rewrite filter_app. cbn [filter is_data negb]. replace (filter (fun p => negb (is_data p)) kept) with (@nil packet); [reflexivity|].
        clear - Hk. induction Hk as [|q k Hq Hk IHk]; [reflexivity|]. cbn [filter]. rewrite Hq. exact IHk. }
      destruct (negb skip || (inv || negb ok)) eqn:Ee.
      * injection Hl as <- <- <- <- <-. rewrite since_drop by reflexivity. split; [reflexivity|]. split; [reflexivity|]. split; [lia|].
        split; [intros q Hq; apply in_or_app; right; right; exact Hq|]. split; [intros _; rewrite Hev; reflexivity|]. split; discriminate.
      * destruct skip; [|discriminate Ee].
        assert (Hz : data_only r).
        { specialize (Hs eq_refl). unfold events_in in Hs. cbn [filter is_data negb length] in Hs. apply Forall_forall. intros q Hq.
          destruct (is_data q) eqn:Eq; [reflexivity|]. exfalso.
          assert (Hin : In q (filter (fun p => negb (is_data p)) r)) by (apply filter_In; rewrite Eq; split; [exact Hq|reflexivity]).
          destruct (filter (fun p => negb (is_data p)) r); [contradiction Hin|cbn [length] in Hs; lia]. }
        (* the rest is data: the loop only passes over it *)
        assert (Hgen : forall l0 kept0 read0 i0 res, data_only l0 -> loop d true l0 kept0 read0 (num_samples r) (inv || negb ok) i0 = res ->
                 fst (fst (fst (fst res))) = kept0 ++ l0 /\ snd (fst (fst (fst res))) = num_samples r /\ (d = false -> snd res <> Throws)).
        { clear. induction l0 as [|p0 l0 IH0]; intros kept0 read0 i0 res Hd0 <-.
          - cbn [loop fst snd]. rewrite app_nil_r. split; [reflexivity|]. split; [reflexivity|discriminate].
          - inversion Hd0 as [|? ? Hp0 Hd1]. subst. destruct p0 as [smp dom| |]; [|discriminate Hp0..]. cbn [loop].
            destruct (readPacket d i0 smp dom) as [i1|] eqn:Er.
            + destruct (IH0 (kept0 ++ [Data smp dom]) (w64 (read0 + cnt smp)) i1 _ Hd1 eq_refl) as (A & B & C). rewrite <- app_assoc in A. split; [exact A|]. split; [exact B|exact C].
            + cbn [fst snd]. split; [reflexivity|]. split; [reflexivity|]. intros E. subst d. unfold readPacket in Er. destruct (offset i0 >? cnt smp); discriminate Er. }
        destruct (Hgen r [] read i _ Hz Hl) as (A & B & C). cbn [fst snd app] in A, B, C. subst c n.
        rewrite since_drop by reflexivity. split; [reflexivity|]. split; [reflexivity|]. split; [lia|].
        split; [intros q Hq; apply in_or_app; right; right; exact Hq|]. split; [discriminate|]. split; [discriminate|exact C].
Qed.

(** ** Histories *)
Lemma received_cons : forall o h, received (o :: h) = received h ++ match o with Receive p => [p] | _ => [] end.
Proof. intros [p|n|n] h; unfold received; cbn [flat_map rev app]; rewrite ?app_nil_r; reflexivity. Qed.
Lemma good_cons : forall o h, good_packets (o :: h) -> good_packets h /\ match o with Receive p => well_formed p /\ descriptor_or_data p | _ => True end.
Proof.
  intros o h [H1 H2]. rewrite received_cons in H1, H2. apply Forall_app in H1. destruct H1 as [H1 H3]. rewrite num_app in H2.
  pose proof (num_nonneg (match o with Receive p => [p] | _ => [] end)). split; [split; [exact H1|lia]|].
  destruct o; auto. now inversion H3.
Qed.

Record Inv (history : Z) (skip : bool) (h : list op) (s : state) : Prop := {
  inv_hist : historySize s = history;
  inv_skip : skipEvents s = skip;
  inv_num : cachedSamples s = num_samples (cache s);
  inv_le : num_samples (cache s) <= num_samples (received h);
  inv_in : forall p, In p (cache s) -> In p (received h);
  inv_tail : exists x, since_event (received h) = x ++ since_event (cache s) /\ (x = [] \/ history <= num_samples (since_event (cache s)));
  inv_ev : skip = false -> events_of (received h) = returned_events history skip h ++ events_of (cache s);
}.

Lemma events_app : forall a b, events_of (a ++ b) = events_of a ++ events_of b.
Proof. intros. unfold events_of. apply filter_app. Qed.

Lemma inv_after : forall history skip h, 0 <= history < two64 -> good_packets h -> calm history skip h -> Inv history skip h (after history skip h).
Proof.
  intros history skip h Hh. induction h as [|o h IH]; intros Hg Hc.
  - cbn [after init]. constructor; cbn [historySize skipEvents cachedSamples cache]; try reflexivity; try (cbn; lia); try contradiction.
    exists []. split; [reflexivity|now left].
  - destruct Hc as (Hsz & Hev & Hc). pose proof Hg as Hg0. apply good_cons in Hg. destruct Hg as [Hg Hp]. specialize (IH Hg Hc).
    cbn [after]. cbn [returned_events]. remember (after history skip h) as s eqn:Es. destruct IH as [I1 I2 I3 I4 I5 (x & I6 & I7) I8].
    assert (Hbound : num_samples (received (o :: h)) < two64) by apply Hg0. rewrite received_cons in Hbound.
    assert (Hread : forall d n, 0 <= n -> (skip = true -> (events_in (cache s) <= 1)%nat) -> received (o :: h) = received h ->
       step s o = doRead s d n ->
       Inv history skip (o :: h) (fst (step s o))).
    { intros d n Hn Hone Hrec Hstep. 
      assert (Hfin : since_event (cache (fst (step s o))) = since_event (cache s) -> cachedSamples (fst (step s o)) = num_samples (cache (fst (step s o))) ->
         num_samples (cache (fst (step s o))) <= num_samples (cache s) -> (forall p, In p (cache (fst (step s o))) -> In p (cache s)) ->
         historySize (fst (step s o)) = historySize s -> skipEvents (fst (step s o)) = skipEvents s ->
         (skip = false -> events_of (cache s) = match snd (step s o) with Returned y => match event y with Some e => [e] | None => [] end | _ => [] end ++ events_of (cache (fst (step s o)))) ->
         Inv history skip (o :: h) (fst (step s o))).
      { intros F1 F2 F3 F4 F5 F6 F7. constructor.
        - congruence.
        - congruence.
        - exact F2.
        - rewrite Hrec. lia.
        - rewrite Hrec. intros p Hp0. apply I5, F4, Hp0.
        - rewrite Hrec, F1. exists x. split; assumption.
        - intros Esk. rewrite Hrec, (I8 Esk). cbn [returned_events]. rewrite <- Es, <- app_assoc. f_equal. now apply F7. }
      unfold doRead in Hstep. destruct (invalid s) eqn:Einv.
      { rewrite Hstep in *. cbn [fst snd] in *. apply Hfin; auto; try lia. }
      destruct ((n >? cachedSamples s) && (n >? historySize s)) eqn:Einsuf.
      { rewrite Hstep in *. cbn [fst snd event] in *. apply Hfin; auto; try lia. }
      destruct (loop d (skipEvents s) (cache s) [] 0 (cachedSamples s) false {| remainingToRead := n; offset := if cachedSamples s >? n then cachedSamples s - n else 0; gotv := []; gotd := [] |}) as [[[[c k] inv'] i'] e] eqn:El.
      rewrite I2 in El.
      assert (Hpk : Forall descriptor_or_data (cache s)).
      { apply Forall_forall. intros q Hq. apply I5 in Hq. destruct Hg as [Hg _]. rewrite Forall_forall in Hg. now apply Hg. }
      pose proof (num_nonneg (match o with Receive p => [p] | _ => [] end)). rewrite num_app in Hbound.
      pose proof (loop_eff _ _ _ _ _ _ _ _ _ _ _ _ _ El (Forall_nil _) Hpk eq_refl I3 ltac:(lia) Hone) as (L1 & L2 & L3 & L4 & L5 & _). cbn [app] in *.
      rewrite Hstep in *. cbn [fst snd cache cachedSamples historySize skipEvents] in Hfin |- *.
      apply Hfin; auto; [lia|]. intros Esk. rewrite (L5 Esk). destruct e; reflexivity. }
    destruct o as [p|n|n]; [|apply (Hread false n); try assumption; try reflexivity; cbn [sizes_ok] in Hsz; lia
                            |apply (Hread true n); try assumption; try reflexivity; cbn [sizes_ok] in Hsz; lia].
    clear Hread. cbn [step fst snd]. rewrite num_app in Hbound.
    assert (Hadd : Inv history skip (Receive p :: h) (receive p s)); [|exact Hadd].
    unfold receive. destruct (is_data p) eqn:Ed.
    + destruct p as [smp dom| |]; [|discriminate Ed..]. rewrite num_cons_data, num_nil in Hbound. pose proof (cnt_nonneg smp) as Hcn. pose proof (num_nonneg (cache s)) as Hnc.
      destruct (cachedSamples s <? historySize s) eqn:Elt.
      * constructor; cbn [historySize skipEvents cachedSamples cache]; try assumption.
        -- rewrite num_app, num_cons_data, num_nil, I3, w64_small; lia.
        -- rewrite received_cons, !num_app. lia.
        -- rewrite received_cons. intros q Hq. apply in_app_iff in Hq. apply in_app_iff. destruct Hq as [Hq|Hq]; [left; now apply I5|now right].
        -- rewrite received_cons, !since_snoc_data by reflexivity. exists x. rewrite I6, <- app_assoc. split; [reflexivity|].
           destruct I7 as [I7|I7]; [now left|right]. rewrite num_app, num_cons_data, num_nil. lia.
        -- intros Esk. rewrite received_cons, !events_app, (I8 Esk). cbn [returned_events]. rewrite <- Es. cbn [step snd]. rewrite <- !app_assoc. reflexivity.
      * destruct (trim (historySize s) (cache s) (w64 (cachedSamples s + cnt smp))) as [c a] eqn:Et.
        rewrite I3, w64_small in Et by lia.
        assert (Hlt : num_samples (cache s) + cnt smp < two64) by lia. pose proof (trim_spec _ _ _ _ _ (cnt smp) Hcn Hlt eq_refl Et) as (T1 & T2 & T3 & (y & T4 & T5) & T6).
        constructor; cbn [historySize skipEvents cachedSamples cache]; try assumption.
        -- rewrite num_app, num_cons_data, num_nil. lia.
        -- rewrite received_cons, !num_app. lia.
        -- rewrite received_cons. intros q Hq. apply in_app_iff in Hq. apply in_app_iff. destruct Hq as [Hq|Hq]; [left; now apply I5, T6|now right].
        -- rewrite received_cons, !since_snoc_data by reflexivity. exists (x ++ y). rewrite I6, T4, <- !app_assoc. split; [reflexivity|].
           rewrite num_app, num_cons_data, num_nil, Z.add_0_r. rewrite I1 in *. destruct T5 as [->|[T5 T5']]; [|right; lia].
           rewrite app_nil_r. destruct I7 as [I7|I7]; [now left|right]. rewrite app_nil_l in T4. rewrite T4 in I7. lia.
        -- intros Esk. rewrite received_cons, !events_app, (I8 Esk), T3. cbn [returned_events]. rewrite <- Es. cbn [step snd]. rewrite <- !app_assoc. reflexivity.
    + assert (Hcase : (match p with
          | Data smp _ => if cachedSamples s <? historySize s then (cache s ++ [p], w64 (cachedSamples s + cnt smp)) else let '(c, a) := trim (historySize s) (cache s) (w64 (cachedSamples s + cnt smp)) in (c ++ [p], a)
          | _ => (cache s ++ [p], cachedSamples s) end) = (cache s ++ [p], cachedSamples s)) by (destruct p; [discriminate Ed|reflexivity|reflexivity]).
      rewrite Hcase. rewrite (num_cons_event p [] Ed), num_nil in Hbound.
      constructor; cbn [historySize skipEvents cachedSamples cache]; try assumption.
      * rewrite num_app, (num_cons_event p [] Ed), num_nil, I3. lia.
      * rewrite received_cons, !num_app, (num_cons_event p [] Ed), num_nil. lia.
      * rewrite received_cons. intros q Hq. apply in_app_iff in Hq. apply in_app_iff. destruct Hq as [Hq|Hq]; [left; now apply I5|now right].
      * rewrite received_cons, !since_snoc_event by exact Ed. exists []. split; [reflexivity|now left].
      * intros Esk. rewrite received_cons, !events_app, (I8 Esk). cbn [returned_events]. rewrite <- Es. cbn [step snd]. rewrite <- !app_assoc. reflexivity.
Qed.
