From Verif Require Import Base BRead_Model BRead_Spec BRead_Step.
Local Open Scope Z_scope.

Definition datas (l : list packet) : list dpkt := flat_map (fun p => match p with Data x => [x] | _ => [] end) l.
Lemma datas_app : forall a b, datas (a ++ b) = datas a ++ datas b.
Proof. intros. unfold datas. apply flat_map_app. Qed.
Lemma values_datas : forall l, values_of l = flat smp (datas l).
Proof. induction l as [|p l IH]; [reflexivity|]. destruct p; cbn [values_of datas flat_map app flat] in *; fold (values_of l); fold (datas l); rewrite ?IH; reflexivity. Qed.
Lemma domains_datas : forall l, domains_of l = flat dv (datas l).
Proof. induction l as [|p l IH]; [reflexivity|]. destruct p; cbn [domains_of datas flat_map app flat] in *; fold (domains_of l); fold (datas l); rewrite ?IH; reflexivity. Qed.

Definition nostop (skip : bool) (l : list packet) : Prop := Forall (fun p => ends_segment skip p = false) l.
Lemma segment_spec : forall skip l, exists a, fst (segment skip l) = a /\ nostop skip a /\
  match snd (segment skip l) with
  | None => l = a
  | Some (e, r) => l = a ++ e :: r /\ ends_segment skip e = true
  end.
Proof.
  intros skip l. induction l as [|p r IH].
  - exists []. split; [reflexivity|]. split; [constructor|reflexivity].
  - cbn [segment]. destruct (ends_segment skip p) eqn:E.
    + exists []. cbn [fst snd]. split; [reflexivity|]. split; [constructor|]. split; [reflexivity|exact E].
    + destruct IH as (a & H1 & H2 & H3). destruct (segment skip r) as [a' b] eqn:Es. cbn [fst snd] in *. subst a'. exists (p :: a). split; [reflexivity|].
      split; [constructor; assumption|]. destruct b as [[e t]|]; [destruct H3 as [-> H3]; split; [reflexivity|exact H3]|now rewrite H3].
Qed.
Lemma segment_app : forall skip a l, nostop skip a -> segment skip (a ++ l) = (a ++ fst (segment skip l), snd (segment skip l)).
Proof.
  intros skip a l H. induction H as [|p a Hp Ha IH].
  - cbn [app]. now destruct (segment skip l).
  - cbn [app segment]. rewrite Hp, IH. reflexivity.
Qed.

(** conditions on the packets of a segment *)
Record Fine (c : config) (d : bool) (all : list dpkt) : Prop := {
  f_dom : Forall dom_ok all;
  f_dd : d = true -> Forall (fun x => dom x <> None) all;
  f_pos : Forall (fun x => 0 < size x) all;
  f_fit : ov c = 0 \/ exists z, 0 < z <= hp c /\ Forall (fun x => size x = z) all;
}.
Definition valid_events (l : list packet) : Prop := ~ In (Desc false) l.

Lemma cut_app : forall (X Y : list Z) p t, (p + t <= length X)%nat -> firstn t (skipn p (X ++ Y)) = firstn t (skipn p X).
Proof.
  intros X Y p t H. rewrite skipn_app, firstn_app, skipn_length. replace (t - (length X - p))%nat with 0%nat by lia. cbn [firstn]. apply app_nil_r.
Qed.
Lemma skipn_skipn : forall (x y : nat) (l : list Z), skipn x (skipn y l) = skipn (x + y) l.
Proof.
  intros x y. revert x. induction y as [|y IH]; intros x l; [now rewrite Nat.add_0_r|]. rewrite Nat.add_succ_r. destruct l as [|a l]; [now rewrite !skipn_nil|]. cbn [skipn]. apply IH.
Qed.
Lemma cut_add : forall (X : list Z) p t u, firstn t (skipn p X) ++ firstn u (skipn (p + t) X) = firstn (t + u) (skipn p X).
Proof.
  intros X p t u. rewrite <- (firstn_skipn t (firstn (t + u) (skipn p X))). rewrite firstn_firstn, Nat.min_l by lia. f_equal.
  rewrite <- firstn_skipn_comm, skipn_skipn. do 2 f_equal; lia.
Qed.
Lemma firstn_Forall : forall A (P : A -> Prop) (l : list A) n, Forall P l -> Forall P (firstn n l).
Proof. intros A P l n H. rewrite <- (firstn_skipn n l) in H. apply Forall_app in H. apply H. Qed.

Lemma end_pos : forall c tr q cu pv k r, Pos c tr q cu pv k r -> (cu < length q)%nat \/ (cu = length q /\ pv = 0 /\ k * hp c + r = tot (tr ++ q)).
Proof.
  intros c tr q cu pv k r [P1 P2 P3 _ _ _ _]. destruct (Nat.lt_ge_cases cu (length q)) as [H|H]; [now left|right].
  assert (E : cu = length q) by lia. subst cu. rewrite firstn_all in P3. assert (Hn : nth_error q (length q) = None) by (apply nth_error_None; lia). rewrite Hn in P2.
  split; [reflexivity|]. split; [exact P2|]. rewrite tot_app. lia.
Qed.
Lemma mid_pos : forall c tr q cu pv k r, Pos c tr q cu pv k r -> (cu < length q)%nat -> k * hp c + r < tot (tr ++ q).
Proof.
  intros c tr q cu pv k r [P1 P2 P3 _ _ _ _] H. destruct (nth_error q cu) as [x|] eqn:Ex; [|apply nth_error_None in Ex; lia].
  rewrite tot_app. pose proof (tot_firstn_S _ _ _ Ex). pose proof (tot_firstn_le q (S cu)). lia.
Qed.

Lemma block_read : forall c d, well_configured c -> forall N A T i tr k r j fuel,
  nostop (skipEvents c) A -> valid_events A ->
  Pos c tr (queue i) (cur i) (prev i) k r -> written i mod blockSize c = r ->
  1 <= j -> remaining i = j * hp c + ov c - r -> j * hp c + ov c < two64 ->
  Fine c d (tr ++ queue i ++ datas A) ->
  k * hp c + blockSize c <= tot (tr ++ queue i ++ datas A) ->
  (Z.to_nat (blockSize c - r) + length A <= N)%nat -> (N <= fuel)%nat ->
  exists fuel' pre A' tr' i',
    readPackets fuel c d (A ++ T) false i = readPackets fuel' c d (A' ++ T) false i' /\
    (fuel + length A' <= fuel' + Z.to_nat (blockSize c - r) + length A)%nat /\ A = pre ++ A' /\
    tr' ++ queue i' ++ datas A' = tr ++ queue i ++ datas A /\
    Pos c tr' (queue i') (cur i') (prev i') (k + 1) 0 /\ written i' mod blockSize c = 0 /\
    remaining i' = (if j =? 1 then 0 else (j - 1) * hp c + ov c) /\
    outv i' = outv i ++ firstn (Z.to_nat (blockSize c - r)) (skipn (Z.to_nat (k * hp c + r)) (flat smp (tr ++ queue i ++ datas A))) /\
    outd i' = outd i ++ (if d then firstn (Z.to_nat (blockSize c - r)) (skipn (Z.to_nat (k * hp c + r)) (flat dv (tr ++ queue i ++ datas A))) else []).
Proof.
  intros c d Hc. destruct (config_facts c Hc) as (Hov & Hhp & Hsum).
  induction N as [|N IH]; intros A T i tr k r j fuel Hns Hve HP Hw Hj Hrem Hb HF Hen HN Hfu.
  - destruct HP. lia.
  - destruct fuel as [|fuel]; [lia|]. pose proof HP as HP0. destruct (end_pos _ _ _ _ _ _ _ HP) as [Hcur|(Hcur & Hpv & Hpos)].
    + (* read from the current packet *)
      pose proof HF as [F1 F2 F3 F4]. rewrite app_assoc in F1, F2.
      assert (F1' : Forall dom_ok (tr ++ queue i)) by (apply Forall_app in F1; apply F1).
      assert (F2' : d = true -> Forall (fun x => dom x <> None) (tr ++ queue i)) by (intros E; specialize (F2 E); apply Forall_app in F2; apply F2).
      destruct (one_read c d i tr k r j Hc HP Hcur Hw Hj Hrem Hb F1' F2') as (i' & t & tr' & k' & r' & O1 & O2 & O3 & O4 & O5 & O6 & O7 & O8 & O9).
      assert (Hrem0 : remaining i =? 0 = false) by (destruct HP; nia).
      cbn [readPackets]. replace (cur i <? length (queue i))%nat with true by (symmetry; apply Nat.ltb_lt; exact Hcur). rewrite Hrem0, O1.
      assert (Hall : tr' ++ queue i' ++ datas A = tr ++ queue i ++ datas A) by (rewrite !app_assoc, O3; reflexivity).
      assert (Hk0 : 0 <= k * hp c + r) by (destruct HP; nia).
      assert (Hv : forall f, (length (flat f (tr ++ queue i)) = Z.to_nat (tot (tr ++ queue i)))%nat ->
         firstn (Z.to_nat t) (skipn (Z.to_nat (k * hp c + r)) (flat f (tr ++ queue i))) = firstn (Z.to_nat t) (skipn (Z.to_nat (k * hp c + r)) (flat f (tr ++ queue i ++ datas A)))).
      { intros f Hl. rewrite (app_assoc tr), (flat_app f (tr ++ queue i)). symmetry. apply cut_app. rewrite Hl. clear - O2 O8 Hk0. lia. }
      assert (Hlv : (length (flat smp (tr ++ queue i)) = Z.to_nat (tot (tr ++ queue i)))%nat) by (unfold tot; lia).
      assert (Hld : d = true -> (length (flat dv (tr ++ queue i)) = Z.to_nat (tot (tr ++ queue i)))%nat).
      { intros E. specialize (F2' E). clear - F1' F2'. induction (tr ++ queue i) as [|x l IHl]; [reflexivity|]. inversion F1' as [|? ? G1 G2]; inversion F2' as [|? ? G3 G4]; subst.
        unfold tot in *. cbn [flat flat_map]. rewrite !app_length. fold (flat dv l). fold (flat smp l). specialize (IHl G2 G4). unfold dv at 1. destruct (dom x) as [dx|] eqn:Ed; [|contradiction]. rewrite (G1 dx Ed). lia. }
      destruct O9 as [(Q1 & -> & -> & Q4)|(Q1 & -> & -> & Q4)].
      * rewrite <- Hall in HF, Hen.
        destruct (IH A T i' tr' k (r + t) j fuel Hns Hve O4 O5 Hj Q4 Hb HF Hen ltac:(clear - HN O2 Q1; lia) ltac:(clear - Hfu; lia)) as (fuel' & pre & A' & tr2 & i2 & I1 & I2 & I3 & I4 & I5 & I6 & I7 & I8 & I9).
        exists fuel', pre, A', tr2, i2. split; [exact I1|]. split; [clear - I2 O2 Q1; lia|]. split; [exact I3|]. split; [rewrite I4; exact Hall|]. split; [exact I5|]. split; [exact I6|]. split; [exact I7|].
        rewrite Hall in I8, I9. assert (Hr : 0 <= r) by (destruct HP; lia).
        assert (Hn1 : Z.to_nat (k * hp c + (r + t)) = (Z.to_nat (k * hp c + r) + Z.to_nat t)%nat) by (rewrite Z.add_assoc; apply Z2Nat.inj_add; [exact Hk0|clear - O2; lia]).
        assert (Hn2 : Z.to_nat (blockSize c - r) = (Z.to_nat t + Z.to_nat (blockSize c - (r + t)))%nat) by (clear - O2 Q1; lia).
        rewrite Hn2. split.
        -- rewrite I8, O6, (Hv smp Hlv), Hn1, <- app_assoc. f_equal. apply cut_add.
        -- rewrite I9, O7, <- app_assoc. f_equal. destruct d; [|reflexivity]. rewrite (Hv dv (Hld eq_refl)), Hn1. apply cut_add.
      * exists fuel, [], A, tr', i'. split; [reflexivity|]. split; [clear - Q1 O2; lia|]. split; [reflexivity|]. split; [exact Hall|]. split; [exact O4|]. split; [exact O5|]. split; [exact Q4|].
        replace (blockSize c - r) with t by (clear - Q1; lia). split; [rewrite O6, (Hv smp Hlv); reflexivity|]. rewrite O7. destruct d; [|reflexivity]. now rewrite (Hv dv (Hld eq_refl)).
    + (* take the next packet *)
      cbn [readPackets]. replace (cur i <? length (queue i))%nat with false by (symmetry; apply Nat.ltb_ge; lia).
      destruct A as [|p A].
      { exfalso. cbn [datas flat_map] in Hen. rewrite app_nil_r in Hen. destruct HP. lia. }
      inversion Hns as [|? ? Hp Hns']. subst x l. assert (Hve' : valid_events A) by (intros Hin; apply Hve; now right).
      cbn [app]. destruct p as [x|ok| |m].
      * assert (Hq : tr ++ queue i ++ datas (Data x :: A) = tr ++ (queue i ++ [x]) ++ datas A) by (cbn [datas flat_map app]; rewrite <- !app_assoc; reflexivity).
        assert (HP2 : Pos c tr (queue i ++ [x]) (length (queue i)) (prev i) k r).
        { apply pos_append; try exact Hov; [rewrite <- Hcur; exact HP| |].
          - destruct HF as [_ _ F3 _]. rewrite Forall_forall in F3. apply F3. rewrite Hq. rewrite !in_app_iff. right. left. right. now left.
          - destruct HF as [_ _ _ F4]. destruct F4 as [F4|(z & F4 & F5)]; [now left|right]. exists z. split; [exact F4|]. rewrite Hq in F5. assert (Hq2 : tr ++ (queue i ++ [x]) ++ datas A = (tr ++ queue i ++ [x]) ++ datas A) by (rewrite <- !app_assoc; reflexivity). rewrite Hq2 in F5. apply Forall_app in F5. apply F5. }
        destruct (IH A T (append x i) tr k r j fuel Hns' Hve' HP2 Hw Hj Hrem Hb) as (fuel' & pre & A' & tr2 & i2 & I1 & I2 & I3 & I4 & I5 & I6 & I7 & I8 & I9);
          [cbn [append queue]; rewrite <- Hq; exact HF|cbn [append queue]; rewrite <- Hq; exact Hen|cbn [length] in HN; clear - HN; lia|clear - Hfu; lia|].
        cbn [append queue outv outd] in I4, I8, I9. rewrite <- Hq in I4, I8, I9.
        exists fuel', (Data x :: pre), A', tr2, i2. split; [exact I1|]. split; [cbn [length]; clear - I2; lia|]. split; [cbn [app]; now rewrite I3|]. auto 8.
      * assert (Hsk : skipEvents c = true) by (cbn [ends_segment] in Hp; now destruct (skipEvents c)).
        assert (Hok : ok = true) by (destruct ok; [reflexivity|exfalso; apply Hve; now left]). subst ok. rewrite Hsk. cbn [negb orb].
        destruct (IH A T i tr k r j fuel Hns' Hve' HP Hw Hj Hrem Hb HF Hen) as (fuel' & pre & A' & tr2 & i2 & I1 & I2 & I3 & I4 & I5 & I6 & I7 & I8 & I9); [cbn [length] in HN; clear - HN; lia|clear - Hfu; lia|].
        exists fuel', (Desc true :: pre), A', tr2, i2. split; [exact I1|]. split; [cbn [length]; clear - I2; lia|]. split; [cbn [app]; now rewrite I3|]. auto 8.
      * discriminate Hp.
      * assert (Hsk : skipEvents c = true) by (cbn [ends_segment] in Hp; now destruct (skipEvents c)). rewrite Hsk. cbn [negb orb].
        destruct (IH A T i tr k r j fuel Hns' Hve' HP Hw Hj Hrem Hb HF Hen) as (fuel' & pre & A' & tr2 & i2 & I1 & I2 & I3 & I4 & I5 & I6 & I7 & I8 & I9); [cbn [length] in HN; clear - HN; lia|clear - Hfu; lia|].
        exists fuel', (Other m :: pre), A', tr2, i2. split; [exact I1|]. split; [cbn [length]; clear - I2; lia|]. split; [cbn [app]; now rewrite I3|]. auto 8.
Qed.

(** nothing more to read: the call ends *)
Lemma finish : forall c d, well_configured c -> forall A T i tr k fuel,
  nostop (skipEvents c) A -> valid_events A -> (T = [] \/ exists e r, T = e :: r /\ ends_segment (skipEvents c) e = true) ->
  Pos c tr (queue i) (cur i) (prev i) k 0 -> written i mod blockSize c = 0 -> remaining i = 0 ->
  Fine c d (tr ++ queue i ++ datas A) -> (length A + 2 <= fuel)%nat ->
  let used_up := k * hp c =? tot (tr ++ queue i ++ datas A) in
  exists conn' inv' i' e, readPackets fuel c d (A ++ T) false i = (conn', inv', i', e) /\ outv i' = outv i /\ outd i' = outd i /\
    match T with
    | ev :: r => if used_up then e = ByEvent ev /\ conn' = r /\ i' = clean i /\ inv' = (match ev with Desc ok => negb ok | _ => false end)
                 else e = NoEvent /\ inv' = false /\ exists pre A', A = pre ++ A' /\ conn' = A' ++ T /\ tr ++ queue i' ++ datas A' = tr ++ queue i ++ datas A /\
                      Pos c tr (queue i') (cur i') (prev i') k 0 /\ written i' mod blockSize c = 0
    | [] => e = NoEvent /\ inv' = false /\ exists pre A', A = pre ++ A' /\ conn' = A' ++ T /\ tr ++ queue i' ++ datas A' = tr ++ queue i ++ datas A /\
                      Pos c tr (queue i') (cur i') (prev i') k 0 /\ written i' mod blockSize c = 0
    end.
Proof.
  intros c d Hc. destruct (config_facts c Hc) as (Hov & Hhp & Hsum).
  induction A as [|p A IH]; intros T i tr k fuel Hns Hve HT HP Hw Hrem HF Hfu; cbv zeta; destruct fuel as [|fuel]; try (cbn [length] in Hfu; lia); cbn [readPackets].
  - cbn [datas flat_map app]. rewrite app_nil_r. destruct (end_pos _ _ _ _ _ _ _ HP) as [Hcur|(Hcur & Hpv & Hpos)].
    + replace (cur i <? length (queue i))%nat with true by (symmetry; apply Nat.ltb_lt; exact Hcur). rewrite Hrem. cbn [Z.eqb].
      pose proof (mid_pos _ _ _ _ _ _ _ HP Hcur) as Hm. replace (k * hp c =? tot (tr ++ queue i)) with false by lia.
      eexists _, _, _, _. split; [reflexivity|]. split; [reflexivity|]. split; [reflexivity|].
      destruct T; (split; [reflexivity|]; split; [reflexivity|]; exists [], []; cbn [datas flat_map app]; rewrite app_nil_r; auto).
    + replace (cur i <? length (queue i))%nat with false by (symmetry; apply Nat.ltb_ge; lia). replace (k * hp c =? tot (tr ++ queue i)) with true by lia.
      destruct HT as [->|(e & r & -> & He)].
      * eexists _, _, _, _. split; [reflexivity|]. split; [reflexivity|]. split; [reflexivity|]. split; [reflexivity|]. split; [reflexivity|]. exists [], []. cbn [datas flat_map app]. rewrite app_nil_r. auto.
      * destruct e as [x|ok| |m]; [discriminate He| | |].
        -- cbn [ends_segment] in He. rewrite He. cbn [orb]. eexists _, _, _, _. split; [reflexivity|]. split; [reflexivity|]. split; [reflexivity|]. auto.
        -- rewrite orb_true_r. eexists _, _, _, _. split; [reflexivity|]. split; [reflexivity|]. split; [reflexivity|]. auto.
        -- cbn [ends_segment] in He. rewrite He. cbn [orb]. eexists _, _, _, _. split; [reflexivity|]. split; [reflexivity|]. split; [reflexivity|]. auto.
  - inversion Hns as [|? ? Hp Hns']. subst x l. assert (Hve' : valid_events A) by (intros Hin; apply Hve; now right).
    destruct (end_pos _ _ _ _ _ _ _ HP) as [Hcur|(Hcur & Hpv & Hpos)].
    + replace (cur i <? length (queue i))%nat with true by (symmetry; apply Nat.ltb_lt; exact Hcur). rewrite Hrem. cbn [Z.eqb].
      pose proof (mid_pos _ _ _ _ _ _ _ HP Hcur) as Hm. pose proof (tot_nonneg (datas (p :: A))). replace (k * hp c =? tot (tr ++ queue i ++ datas (p :: A))) with false by (rewrite app_assoc, tot_app; lia).
      eexists _, _, _, _. split; [reflexivity|]. split; [reflexivity|]. split; [reflexivity|].
      destruct T; (split; [reflexivity|]; split; [reflexivity|]; exists [], (p :: A); auto).
    + replace (cur i <? length (queue i))%nat with false by (symmetry; apply Nat.ltb_ge; lia). cbn [app].
      assert (Hgen : forall i1, outv i1 = outv i -> outd i1 = outd i -> clean i1 = clean i -> tr ++ queue i1 ++ datas A = tr ++ queue i ++ datas (p :: A) ->
         (exists conn' inv' i' e, readPackets fuel c d (A ++ T) false i1 = (conn', inv', i', e) /\ outv i' = outv i1 /\ outd i' = outd i1 /\
          match T with
          | ev :: r => if k * hp c =? tot (tr ++ queue i1 ++ datas A) then e = ByEvent ev /\ conn' = r /\ i' = clean i1 /\ inv' = (match ev with Desc ok => negb ok | _ => false end)
                 else e = NoEvent /\ inv' = false /\ exists pre A', A = pre ++ A' /\ conn' = A' ++ T /\ tr ++ queue i' ++ datas A' = tr ++ queue i1 ++ datas A /\
                      Pos c tr (queue i') (cur i') (prev i') k 0 /\ written i' mod blockSize c = 0
          | [] => e = NoEvent /\ inv' = false /\ exists pre A', A = pre ++ A' /\ conn' = A' ++ T /\ tr ++ queue i' ++ datas A' = tr ++ queue i1 ++ datas A /\
                      Pos c tr (queue i') (cur i') (prev i') k 0 /\ written i' mod blockSize c = 0
          end) ->
         exists conn' inv' i' e, readPackets fuel c d (A ++ T) false i1 = (conn', inv', i', e) /\ outv i' = outv i /\ outd i' = outd i /\
          match T with
          | ev :: r => if k * hp c =? tot (tr ++ queue i ++ datas (p :: A)) then e = ByEvent ev /\ conn' = r /\ i' = clean i /\ inv' = (match ev with Desc ok => negb ok | _ => false end)
                 else e = NoEvent /\ inv' = false /\ exists pre A', p :: A = pre ++ A' /\ conn' = A' ++ T /\ tr ++ queue i' ++ datas A' = tr ++ queue i ++ datas (p :: A) /\
                      Pos c tr (queue i') (cur i') (prev i') k 0 /\ written i' mod blockSize c = 0
          | [] => e = NoEvent /\ inv' = false /\ exists pre A', p :: A = pre ++ A' /\ conn' = A' ++ T /\ tr ++ queue i' ++ datas A' = tr ++ queue i ++ datas (p :: A) /\
                      Pos c tr (queue i') (cur i') (prev i') k 0 /\ written i' mod blockSize c = 0
          end).
      { intros i1 E1 E2 E3 E4 (conn' & inv' & i' & e & G1 & G2 & G3 & G4). rewrite E1, E2, E3, E4 in *. exists conn', inv', i', e. split; [exact G1|]. split; [exact G2|]. split; [exact G3|].
        assert (Hx : (exists pre A', A = pre ++ A' /\ conn' = A' ++ T /\ tr ++ queue i' ++ datas A' = tr ++ queue i ++ datas (p :: A) /\ Pos c tr (queue i') (cur i') (prev i') k 0 /\ written i' mod blockSize c = 0) ->
                     exists pre A', p :: A = pre ++ A' /\ conn' = A' ++ T /\ tr ++ queue i' ++ datas A' = tr ++ queue i ++ datas (p :: A) /\ Pos c tr (queue i') (cur i') (prev i') k 0 /\ written i' mod blockSize c = 0).
        { intros (pre & A' & -> & X). exists (p :: pre), A'. split; [reflexivity|exact X]. }
        destruct T; [destruct G4 as (A1 & A2 & A3); auto|]. destruct (k * hp c =? tot (tr ++ queue i ++ datas (p :: A))); [exact G4|destruct G4 as (A1 & A2 & A3); auto]. }
      destruct p as [x|ok| |m].
      * assert (Hq : tr ++ queue i ++ datas (Data x :: A) = tr ++ (queue i ++ [x]) ++ datas A) by (cbn [datas flat_map app]; rewrite <- !app_assoc; reflexivity).
        apply (Hgen (append x i)); try reflexivity; [symmetry; exact Hq|]. apply IH; try assumption.
        -- cbn [append queue cur prev]. apply pos_append; try exact Hov; [rewrite <- Hcur; exact HP| |].
           ++ destruct HF as [_ _ F3 _]. rewrite Forall_forall in F3. apply F3. rewrite Hq. rewrite !in_app_iff. right. left. right. now left.
           ++ destruct HF as [_ _ _ F4]. destruct F4 as [F4|(z & F4 & F5)]; [now left|right]. exists z. split; [exact F4|]. rewrite Hq in F5. assert (Hq2 : tr ++ (queue i ++ [x]) ++ datas A = (tr ++ queue i ++ [x]) ++ datas A) by (rewrite <- !app_assoc; reflexivity). rewrite Hq2 in F5. apply Forall_app in F5. apply F5.
        -- cbn [append queue]. rewrite <- Hq. exact HF.
        -- cbn [length] in Hfu. lia.
      * assert (Hsk : skipEvents c = true) by (cbn [ends_segment] in Hp; now destruct (skipEvents c)).
        assert (Hok : ok = true) by (destruct ok; [reflexivity|exfalso; apply Hve; now left]). subst ok. rewrite Hsk. cbn [negb orb].
        apply (Hgen i); try reflexivity. apply IH; try assumption. cbn [length] in Hfu. lia.
      * discriminate Hp.
      * assert (Hsk : skipEvents c = true) by (cbn [ends_segment] in Hp; now destruct (skipEvents c)). rewrite Hsk. cbn [negb orb].
        apply (Hgen i); try reflexivity. apply IH; try assumption. cbn [length] in Hfu. lia.
Qed.

(** less than a block before an event: all of it is read and the event returned *)
Lemma drain : forall c d, well_configured c -> forall N A e T i tr k r fuel,
  nostop (skipEvents c) A -> valid_events A -> ends_segment (skipEvents c) e = true ->
  Pos c tr (queue i) (cur i) (prev i) k r -> written i mod blockSize c = r ->
  remaining i = blockSize c - r ->
  Fine c d (tr ++ queue i ++ datas A) ->
  tot (tr ++ queue i ++ datas A) < k * hp c + blockSize c ->
  (Z.to_nat (blockSize c - r) + length A <= N)%nat -> (N + 1 <= fuel)%nat ->
  exists i', readPackets fuel c d (A ++ e :: T) false i = (T, match e with Desc ok => negb ok | _ => false end, clean i', ByEvent e) /\
    outv i' = outv i ++ skipn (Z.to_nat (k * hp c + r)) (flat smp (tr ++ queue i ++ datas A)) /\
    outd i' = outd i ++ (if d then skipn (Z.to_nat (k * hp c + r)) (flat dv (tr ++ queue i ++ datas A)) else []).
Proof.
  intros c d Hc. destruct (config_facts c Hc) as (Hov & Hhp & Hsum).
  induction N as [|N IH]; intros A e T i tr k r fuel Hns Hve He HP Hw Hrem HF Hlt HN Hfu.
  - destruct HP. lia.
  - destruct fuel as [|fuel]; [lia|]. destruct (end_pos _ _ _ _ _ _ _ HP) as [Hcur|(Hcur & Hpv & Hpos)].
    + pose proof HF as [F1 F2 F3 F4]. rewrite app_assoc in F1, F2.
      assert (F1' : Forall dom_ok (tr ++ queue i)) by (apply Forall_app in F1; apply F1).
      assert (F2' : d = true -> Forall (fun x => dom x <> None) (tr ++ queue i)) by (intros E; specialize (F2 E); apply Forall_app in F2; apply F2).
      assert (Hb : 1 * hp c + ov c < two64) by (destruct Hc as [Hc _]; lia).
      assert (Hrem1 : remaining i = 1 * hp c + ov c - r) by lia.
      destruct (one_read c d i tr k r 1 Hc HP Hcur Hw ltac:(lia) Hrem1 Hb F1' F2') as (i' & t & tr' & k' & r' & O1 & O2 & O3 & O4 & O5 & O6 & O7 & O8 & O9).
      assert (Hrem0 : remaining i =? 0 = false) by (destruct HP; lia).
      cbn [readPackets]. replace (cur i <? length (queue i))%nat with true by (symmetry; apply Nat.ltb_lt; exact Hcur). rewrite Hrem0, O1.
      assert (Hall : tr' ++ queue i' ++ datas A = tr ++ queue i ++ datas A) by (rewrite !app_assoc, O3; reflexivity).
      assert (Hk0 : 0 <= k * hp c + r) by (destruct HP; nia).
      assert (Hv : forall f, (length (flat f (tr ++ queue i)) = Z.to_nat (tot (tr ++ queue i)))%nat ->
         firstn (Z.to_nat t) (skipn (Z.to_nat (k * hp c + r)) (flat f (tr ++ queue i))) = firstn (Z.to_nat t) (skipn (Z.to_nat (k * hp c + r)) (flat f (tr ++ queue i ++ datas A)))).
      { intros f Hl. rewrite (app_assoc tr), (flat_app f (tr ++ queue i)). symmetry. apply cut_app. rewrite Hl. clear - O2 O8 Hk0. lia. }
      assert (Hlv : (length (flat smp (tr ++ queue i)) = Z.to_nat (tot (tr ++ queue i)))%nat) by (unfold tot; lia).
      assert (Hld : d = true -> (length (flat dv (tr ++ queue i)) = Z.to_nat (tot (tr ++ queue i)))%nat).
      { intros E. specialize (F2' E). clear - F1' F2'. induction (tr ++ queue i) as [|x l IHl]; [reflexivity|]. inversion F1' as [|? ? G1 G2]; inversion F2' as [|? ? G3 G4]; subst.
        unfold tot in *. cbn [flat flat_map]. rewrite !app_length. fold (flat dv l). fold (flat smp l). specialize (IHl G2 G4). unfold dv at 1. destruct (dom x) as [dx|] eqn:Ed; [|contradiction]. rewrite (G1 dx Ed). lia. }
      assert (Hle : tot (tr ++ queue i) <= tot (tr ++ queue i ++ datas A)) by (rewrite (app_assoc tr), (tot_app (tr ++ queue i)); pose proof (tot_nonneg (datas A)); lia).
      destruct O9 as [(Q1 & -> & -> & Q4)|(Q1 & _)]; [|exfalso; clear - Q1 Hle Hlt O8; lia].
      rewrite <- Hall in HF, Hlt.
      destruct (IH A e T i' tr' k (r + t) fuel Hns Hve He O4 O5 ltac:(clear - Q4 Hsum; lia) HF Hlt ltac:(clear - HN O2 Q1; lia) ltac:(clear - Hfu; lia)) as (i2 & I1 & I2 & I3).
      exists i2. split; [exact I1|]. rewrite Hall in I2, I3.
      assert (Hn1 : Z.to_nat (k * hp c + (r + t)) = (Z.to_nat t + Z.to_nat (k * hp c + r))%nat) by (rewrite Nat.add_comm, Z.add_assoc; apply Z2Nat.inj_add; [exact Hk0|clear - O2; lia]).
      split.
      * rewrite I2, O6, (Hv smp Hlv), Hn1, <- app_assoc, <- skipn_skipn. now rewrite firstn_skipn.
      * rewrite I3, O7, <- app_assoc. f_equal. destruct d; [|reflexivity]. rewrite (Hv dv (Hld eq_refl)), Hn1, <- skipn_skipn. now rewrite firstn_skipn.
    + cbn [readPackets]. replace (cur i <? length (queue i))%nat with false by (symmetry; apply Nat.ltb_ge; lia).
      destruct A as [|p A].
      { cbn [app datas flat_map]. rewrite app_nil_r. exists i.
        assert (Hres : (match e with
           | Data p => readPackets fuel c d T false (append p i)
           | _ => let inv' := match e with Desc ok => false || negb ok | _ => false end in
               if negb (skipEvents c) || inv' || match e with Gap => true | _ => false end then (T, inv', clean i, ByEvent e) else readPackets fuel c d T inv' i
           end) = (T, match e with Desc ok => negb ok | _ => false end, clean i, ByEvent e)).
        { destruct e as [x|ok| |m]; [discriminate He| | |].
          - cbn [ends_segment] in He. rewrite He. reflexivity.
          - cbv zeta. rewrite orb_true_r. reflexivity.
          - cbn [ends_segment] in He. rewrite He. reflexivity. }
        assert (Hres2 : forall X, X = (match e with
           | Data p => readPackets fuel c d T false (append p i)
           | _ => let inv' := match e with Desc ok => false || negb ok | _ => false end in
               if negb (skipEvents c) || inv' || match e with Gap => true | _ => false end then (T, inv', clean i, ByEvent e) else readPackets fuel c d T inv' i
           end) -> X = (T, match e with Desc ok => negb ok | _ => false end, clean i, ByEvent e)) by (intros X ->; exact Hres).
        split; [apply Hres2; destruct e; reflexivity|].
        assert (Hs : forall f, (length (flat f (tr ++ queue i)) <= Z.to_nat (tot (tr ++ queue i)))%nat -> skipn (Z.to_nat (k * hp c + r)) (flat f (tr ++ queue i)) = []) by (intros f Hl; apply skipn_all2; lia).
        rewrite Hs by (unfold tot; lia). split; [symmetry; apply app_nil_r|]. destruct d; [|symmetry; apply app_nil_r].
        rewrite Hs; [symmetry; apply app_nil_r|]. destruct HF as [F1 F2 _ _]. specialize (F2 eq_refl). cbn [datas flat_map] in F1, F2. rewrite app_nil_r in F1, F2.
        clear - F1 F2. induction (tr ++ queue i) as [|x l IHl]; [cbn; lia|]. inversion F1 as [|? ? G1 G2]; inversion F2 as [|? ? G3 G4]; subst.
        unfold tot in *. cbn [flat flat_map]. rewrite !app_length. fold (flat dv l). fold (flat smp l). specialize (IHl G2 G4). unfold dv at 1. destruct (dom x) as [dx|] eqn:Ed; [|contradiction]. rewrite (G1 dx Ed). lia. }
      inversion Hns as [|? ? Hp Hns']. subst x l. assert (Hve' : valid_events A) by (intros Hin; apply Hve; now right).
      cbn [app]. destruct p as [x|ok| |m].
      * assert (Hq : tr ++ queue i ++ datas (Data x :: A) = tr ++ (queue i ++ [x]) ++ datas A) by (cbn [datas flat_map app]; rewrite <- !app_assoc; reflexivity).
        assert (HP2 : Pos c tr (queue i ++ [x]) (length (queue i)) (prev i) k r).
        { apply pos_append; try exact Hov; [rewrite <- Hcur; exact HP| |].
          - destruct HF as [_ _ F3 _]. rewrite Forall_forall in F3. apply F3. rewrite Hq. rewrite !in_app_iff. right. left. right. now left.
          - destruct HF as [_ _ _ F4]. destruct F4 as [F4|(z & F4 & F5)]; [now left|right]. exists z. split; [exact F4|]. rewrite Hq in F5. assert (Hq2 : tr ++ (queue i ++ [x]) ++ datas A = (tr ++ queue i ++ [x]) ++ datas A) by (rewrite <- !app_assoc; reflexivity). rewrite Hq2 in F5. apply Forall_app in F5. apply F5. }
        rewrite Hq in *. apply (IH A e T (append x i) tr k r fuel); try assumption; cbn [length] in HN; clear - HN Hfu; lia.
      * assert (Hsk : skipEvents c = true) by (cbn [ends_segment] in Hp; now destruct (skipEvents c)).
        assert (Hok : ok = true) by (destruct ok; [reflexivity|exfalso; apply Hve; now left]). subst ok. rewrite Hsk. cbn [negb orb].
        rewrite <- Hsk in *. apply (IH A e T i tr k r fuel); try assumption; cbn [length] in HN; clear - HN Hfu; lia.
      * discriminate Hp.
      * assert (Hsk : skipEvents c = true) by (cbn [ends_segment] in Hp; now destruct (skipEvents c)). rewrite Hsk. cbn [negb orb].
        rewrite <- Hsk in *. apply (IH A e T i tr k r fuel); try assumption; cbn [length] in HN; clear - HN Hfu; lia.
Qed.

Lemma blocks_read : forall c d, well_configured c -> forall n A T i tr k fuel,
  nostop (skipEvents c) A -> valid_events A ->
  Pos c tr (queue i) (cur i) (prev i) (Z.of_nat k) 0 -> written i mod blockSize c = 0 ->
  remaining i = (if Z.of_nat n =? 0 then 0 else Z.of_nat n * hp c + ov c) -> (n = 0%nat \/ Z.of_nat n * hp c + ov c < two64) ->
  Fine c d (tr ++ queue i ++ datas A) ->
  (n = 0%nat \/ (Z.of_nat k + Z.of_nat n - 1) * hp c + blockSize c <= tot (tr ++ queue i ++ datas A)) ->
  (n * Z.to_nat (blockSize c) + length A + 2 <= fuel)%nat ->
  exists fuel' pre A' tr' i',
    readPackets fuel c d (A ++ T) false i = readPackets fuel' c d (A' ++ T) false i' /\
    (length A' + 2 <= fuel')%nat /\ A = pre ++ A' /\
    tr' ++ queue i' ++ datas A' = tr ++ queue i ++ datas A /\
    Pos c tr' (queue i') (cur i') (prev i') (Z.of_nat (k + n)) 0 /\ written i' mod blockSize c = 0 /\ remaining i' = 0 /\
    outv i' = outv i ++ flat_map (block c (flat smp (tr ++ queue i ++ datas A))) (seq k n) /\
    outd i' = outd i ++ (if d then flat_map (block c (flat dv (tr ++ queue i ++ datas A))) (seq k n) else []).
Proof.
  intros c d Hc. destruct (config_facts c Hc) as (Hov & Hhp & Hsum).
  induction n as [|n IH]; intros A T i tr k fuel Hns Hve HP Hw Hrem Hb HF Hen Hfu.
  - exists fuel, [], A, tr, i. cbn [seq flat_map]. rewrite Nat.add_0_r. split; [reflexivity|]. split; [clear - Hfu; lia|]. split; [reflexivity|]. split; [reflexivity|].
    split; [exact HP|]. split; [exact Hw|]. split; [exact Hrem|]. split; [now rewrite app_nil_r|]. destruct d; now rewrite app_nil_r.
  - destruct Hen as [Hen|Hen]; [discriminate Hen|]. destruct Hb as [Hb|Hb]; [discriminate Hb|].
    assert (Hsz : (Z.to_nat (blockSize c - 0) + length A <= fuel)%nat) by (rewrite Z.sub_0_r; cbn [Nat.mul] in Hfu; clear - Hfu; lia).
    assert (Hrem' : remaining i = Z.of_nat (S n) * hp c + ov c - 0) by (rewrite Hrem; replace (Z.of_nat (S n) =? 0) with false by (clear; lia); clear; lia).
    assert (Hone : Z.of_nat k * hp c + blockSize c <= tot (tr ++ queue i ++ datas A)) by (clear - Hen Hhp; nia).
    assert (Hj : 1 <= Z.of_nat (S n)) by (clear; lia).
    destruct (block_read c d Hc _ A T i tr (Z.of_nat k) 0 (Z.of_nat (S n)) fuel Hns Hve HP Hw Hj Hrem' Hb HF Hone (Nat.le_refl _) Hsz) as (fuel' & pre & A' & tr' & i' & I1 & I2 & I3 & I4 & I5 & I6 & I7 & I8 & I9).
    assert (Hns' : nostop (skipEvents c) A') by (unfold nostop in *; rewrite I3 in Hns; apply Forall_app in Hns; apply Hns).
    assert (Hve' : valid_events A') by (intros Hin; apply Hve; rewrite I3; apply in_or_app; now right).
    assert (I5' : Pos c tr' (queue i') (cur i') (prev i') (Z.of_nat (S k)) 0) by (replace (Z.of_nat (S k)) with (Z.of_nat k + 1) by (clear; lia); exact I5).
    assert (I7' : remaining i' = (if Z.of_nat n =? 0 then 0 else Z.of_nat n * hp c + ov c)).
    { rewrite I7. replace (Z.of_nat (S n) =? 1) with (Z.of_nat n =? 0) by (clear; lia). destruct (Z.of_nat n =? 0); [reflexivity|]. clear. lia. }
    assert (Hb' : n = 0%nat \/ Z.of_nat n * hp c + ov c < two64) by (right; clear - Hb Hhp; nia).
    assert (Hen' : n = 0%nat \/ (Z.of_nat (S k) + Z.of_nat n - 1) * hp c + blockSize c <= tot (tr' ++ queue i' ++ datas A')).
    { right. rewrite I4. replace (Z.of_nat (S k) + Z.of_nat n - 1) with (Z.of_nat k + Z.of_nat (S n) - 1) by (clear; lia). exact Hen. }
    assert (Hfu' : (n * Z.to_nat (blockSize c) + length A' + 2 <= fuel')%nat) by (rewrite Z.sub_0_r in I2; cbn [Nat.mul] in Hfu; clear - Hfu I2; lia).
    assert (HF' : Fine c d (tr' ++ queue i' ++ datas A')) by (rewrite I4; exact HF).
    destruct (IH A' T i' tr' (S k) fuel' Hns' Hve' I5' I6 I7' Hb' HF' Hen' Hfu') as (f2 & pre2 & A2 & tr2 & i2 & J1 & J2 & J3 & J4 & J5 & J6 & J7 & J8 & J9).
    exists f2, (pre ++ pre2), A2, tr2, i2. split; [now rewrite I1|]. split; [exact J2|]. split; [rewrite I3, J3, <- app_assoc; reflexivity|]. split; [now rewrite J4|].
    split; [replace (k + S n)%nat with (S k + n)%nat by (clear; lia); exact J5|]. split; [exact J6|]. split; [exact J7|].
    rewrite I4 in J8, J9. rewrite Z.sub_0_r, Z.add_0_r in I8, I9. cbn [seq flat_map]. split.
    + rewrite J8, I8, <- app_assoc. reflexivity.
    + rewrite J9, I9, <- app_assoc. destruct d; reflexivity.
Qed.

(** ** Simulation *)
Record R (c : config) (s : state) (w : ideal) : Prop := {
  r_dead : dead w = invalid s;
  r_run : dead w = false -> exists dq tr,
    stream w = dq ++ conn s /\ nostop (skipEvents c) dq /\ datas dq = tr ++ squeue s /\
    Pos c tr (squeue s) (scur s) (sprev s) (Z.of_nat (next w)) 0 /\ swritten s mod blockSize c = 0;
}.

Lemma until_segment : forall c l, samplesUntil (if skipEvents c then is_gap else is_event) l = tot (datas (fst (segment (skipEvents c) l))).
Proof.
  intros c l. induction l as [|p r IH]; [reflexivity|]. cbn [samplesUntil segment].
  assert (E : (if skipEvents c then is_gap else is_event) p = ends_segment (skipEvents c) p) by (destruct (skipEvents c), p; reflexivity).
  rewrite E. destruct (ends_segment (skipEvents c) p) eqn:Ee; [reflexivity|]. rewrite IH. destruct (segment (skipEvents c) r) as [a b]. cbn [fst].
  destruct p as [x| | |]; cbn [datas flat_map app]; rewrite ?tot_cons; try reflexivity.
Qed.
Lemma stop_exists : forall c l, existsb is_gap l = true \/ (skipEvents c = false /\ existsb is_event l = true) -> snd (segment (skipEvents c) l) <> None.
Proof.
  intros c l. induction l as [|p r IH]; intros H; [destruct H as [H|[_ H]]; discriminate H|]. cbn [segment]. destruct (ends_segment (skipEvents c) p) eqn:E; [discriminate|].
  destruct (segment (skipEvents c) r) as [a b] eqn:Es. cbn [snd] in *. apply IH. cbn [existsb] in H. destruct H as [H|[Hs H]].
  - left. destruct p; try exact H. cbn in E. discriminate.
  - right. split; [exact Hs|]. rewrite Hs in E. destruct p; try exact H; discriminate E.
Qed.

(** what the available count promises *)
Lemma available_facts : forall c s tr A rest k n, well_configured c -> segment (skipEvents c) (conn s) = (A, rest) ->
  Pos c tr (squeue s) (scur s) (sprev s) k 0 -> tot (tr ++ squeue s ++ datas A) < two64 ->
  0 <= n <= getAvailableCount c s ->
  n = 0 \/ ((k + n - 1) * hp c + blockSize c <= tot (tr ++ squeue s ++ datas A) /\ n <= tot (squeue s ++ datas A)) \/ (n = 1 /\ rest <> None).
Proof.
  intros c s tr A rest k n Hc Hseg HP Hb Hn. destruct (config_facts c Hc) as (Hov & Hhp & Hsum). destruct Hc as (Hbs & _).
  unfold getAvailableCount in Hn.
  assert (Ha : k * hp c + getAvailableSamples c s <= tot (tr ++ squeue s ++ datas A) /\ 0 <= getAvailableSamples c s <= tot (squeue s ++ datas A)).
  { unfold getAvailableSamples. rewrite until_segment, Hseg. cbn [fst]. destruct HP as [P1 P2 P3 _ _ _ _]. rewrite !tot_app in *. pose proof (tot_nonneg (datas A)). pose proof (tot_nonneg (squeue s)). pose proof (tot_nonneg tr).
    destruct (nth_error (squeue s) (scur s)) as [x|] eqn:Ex.
    - pose proof (tot_firstn_S _ _ _ Ex). pose proof (tot_firstn_le (squeue s) (S (scur s))). pose proof (tot_nonneg (firstn (scur s) (squeue s))). rewrite w64_small by lia. lia.
    - pose proof (tot_firstn_le (squeue s) (scur s)). lia. }
  set (a := getAvailableSamples c s) in *. clearbody a. unfold calculateBlockCount in Hn.
  destruct (Z.eq_dec n 0) as [->|Hn0]; [now left|right].
  destruct (a <? blockSize c) eqn:Ea.
  - right. assert (Hst : existsb is_gap (conn s) = true \/ (skipEvents c = false /\ existsb is_event (conn s) = true)).
    { destruct (existsb is_gap (conn s)); [now left|right]. destruct (skipEvents c); cbn [negb andb] in Hn; [lia|]. split; [reflexivity|]. destruct (existsb is_event (conn s)); [reflexivity|lia]. }
    pose proof (stop_exists c (conn s) Hst) as Hs. rewrite Hseg in Hs. split; [|exact Hs].
    destruct (existsb is_gap (conn s)); [destruct (a >? 0); lia|]. destruct (negb (skipEvents c) && existsb is_event (conn s)); [destruct (a >? 0); lia|lia].
  - left. pose proof (Z.div_mod (a - blockSize c) (hp c) ltac:(lia)) as Hd. pose proof (Z.mod_pos_bound (a - blockSize c) (hp c) Hhp) as Hm.
    assert (Hle : (n - 1) * hp c <= a - blockSize c) by nia. split; [nia|]. nia.
Qed.

Lemma rounds_enough : forall c s A rest n, well_configured c -> segment (skipEvents c) (conn s) = (A, rest) -> 0 <= n <= tot (squeue s ++ datas A) + 1 ->
  (Z.to_nat n * Z.to_nat (blockSize c) + length A + 2 <= rounds c s)%nat.
Proof.
  intros c s A rest n (Hbs & _) Hseg Hn. unfold rounds.
  assert (HA : Z.of_nat (length A) <= Z.of_nat (length (conn s)) /\ tot (datas A) <= samplesOf (conn s)).
  { revert A rest Hseg Hn. generalize (conn s) as l. clear - Hbs. intros l A rest Hseg _. revert A rest Hseg. induction l as [|p r IH]; intros A rest Hseg.
    - injection Hseg as <- <-. cbn. lia.
    - cbn [segment] in Hseg. assert (Hnn : 0 <= samplesOf (p :: r)).
      { clear. induction (p :: r) as [|q l IHl]; [cbn; lia|]. unfold samplesOf in *. cbn [map fold_right]. destruct q as [x| | |]; [pose proof (size_nonneg x)|..]; lia. }
      destruct (ends_segment (skipEvents c) p); [injection Hseg as <- <-; cbn [length datas flat_map]; rewrite tot_nil; lia|].
      destruct (segment (skipEvents c) r) as [a b]. injection Hseg as <- <-. destruct (IH a b eq_refl) as [H1 H2]. cbn [length]. split; [lia|].
      unfold samplesOf in *. cbn [map fold_right datas flat_map]. destruct p as [x| | |]; cbn [app]; rewrite ?tot_cons; fold (datas a); lia. }
  assert (HQ : samplesOf (map Data (squeue s)) = tot (squeue s)).
  { generalize (squeue s). intros l. induction l as [|x l IHl]; [reflexivity|]. unfold samplesOf in *. cbn [map fold_right]. rewrite IHl, tot_cons. reflexivity. }
  rewrite HQ. rewrite tot_app in Hn. destruct HA as [HA1 HA2].
  assert (HZ : Z.of_nat (Z.to_nat n * Z.to_nat (blockSize c) + length A + 2) <= (Z.of_nat (length (conn s)) + samplesOf (conn s) + tot (squeue s) + 2) * (blockSize c + 2)).
  { rewrite !Nat2Z.inj_add, Nat2Z.inj_mul, !Z2Nat.id by lia. assert (0 <= tot (squeue s)) by apply tot_nonneg. assert (0 <= tot (datas A)) by apply tot_nonneg. nia. }
  lia.
Qed.

Lemma values_app : forall a b, values_of (a ++ b) = values_of a ++ values_of b.
Proof. intros. unfold values_of. apply flat_map_app. Qed.
Lemma stream_incl : forall c h, (forall p, In p (stream (iafter c h)) -> In p (packets_of h)) /\ len (values_of (stream (iafter c h))) <= len (values_of (packets_of h)).
Proof.
  intros c h. induction h as [|o h [IH1 IH2]]; [split; [intros p []|cbn; lia]|]. cbn [iafter].
  assert (Hr : forall d n, (forall p, In p (stream (fst (iread c (iafter c h) d n))) -> In p (packets_of h)) /\ len (values_of (stream (fst (iread c (iafter c h) d n)))) <= len (values_of (packets_of h))).
  { intros d n. unfold iread. destruct (dead (iafter c h)); [split; assumption|].
    destruct (segment_spec (skipEvents c) (stream (iafter c h))) as (a & H1 & H2 & H3). destruct (segment (skipEvents c) (stream (iafter c h))) as [a' [[e r]|]]; cbn [fst snd] in *; subst a'.
    - destruct H3 as [H3 _]. destruct (negb _ || _); cbn [fst stream]; [|split; assumption]. rewrite H3 in IH1, IH2. split.
      + intros p Hp. apply IH1. apply in_or_app. right. now right.
      + rewrite values_app in IH2. unfold len in *. cbn [values_of flat_map] in IH2. rewrite !app_length in IH2. fold (values_of r) in IH2. lia.
    - split; assumption. }
  destruct o as [p|n|n]; cbn [istep fst].
  - cbn [stream packets_of flat_map]. cbn [app]. fold (packets_of h). split.
    + intros q Hq. apply in_app_iff in Hq. destruct Hq as [Hq|[<-|[]]]; [right; now apply IH1|now left].
    + rewrite values_app. unfold len in *. cbn [values_of flat_map]. rewrite !app_length. fold (values_of (packets_of h)). cbn [length]. lia.
  - apply Hr.
  - apply Hr.
Qed.

Lemma clean_pos : forall c l, well_configured c -> fitting c l -> Pos c [] [] 0 0 (Z.of_nat 0) 0.
Proof.
  intros c l Hc Hfit. destruct (config_facts c Hc) as (Hov & Hhp & Hsum). assert (Hbs : 0 < blockSize c) by apply Hc.
  constructor; cbn [length nth_error firstn app]; try (cbn; lia); try solve [constructor].
  destruct Hfit as [Hfit|(z & Hz & _)]; [left; split; [exact Hfit|now left]|].
  destruct (Z.eq_dec (ov c) 0) as [E0|E0]; [left; split; [exact E0|now left]|right]. exists z. split; [clear - E0 Hov; lia|]. split; [exact Hz|]. split; [constructor|]. cbv zeta. cbn [length]. destruct (keep_enough (ov c) z Hov ltac:(apply Hz)) as (_ & KE2 & _).
  rewrite tot_nil. generalize dependent (keep (ov c) z). intros K KE2. change (Z.of_nat 0) with 0. rewrite Z.mul_0_l. split; [lia|]. split; [now left|]. split; [lia|]. left. clear - Hz Hov. lia.
Qed.

Lemma read_R : forall c d s w n, well_configured c -> R c s w ->
  Forall good_packet (stream w) -> fitting c (stream w) -> stays_valid c (stream w) -> len (values_of (stream w)) < two64 ->
  0 <= n <= getAvailableCount c s -> (d = true -> domains_there (stream w)) ->
  snd (doRead c s d n) = snd (iread c w d (Z.to_nat n)) /\ R c (fst (doRead c s d n)) (fst (iread c w d (Z.to_nat n))).
Proof.
  intros c d s w n Hc [Rd Rr] Hgood Hfit Hval Hlen Hn Hdd. destruct (config_facts c Hc) as (Hov & Hhp & Hsum).
  unfold doRead, iread. rewrite <- Rd. destruct (dead w) eqn:Ed.
  { cbn [fst snd]. split; [reflexivity|]. split; [rewrite Ed; exact Rd|]. intros E. congruence. }
  destruct (Rr eq_refl) as (dq & tr & S1 & S2 & S3 & S4 & S5).
  destruct (segment (skipEvents c) (conn s)) as [A rest] eqn:Eseg.
  destruct (segment_spec (skipEvents c) (conn s)) as (A0 & G1 & G2 & G3). rewrite Eseg in G1, G3. cbn [fst snd] in G1, G3. subst A0.
  rewrite S1, segment_app, Eseg by exact S2. cbn [fst snd].
  set (all := tr ++ squeue s ++ datas A).
  assert (Hall : datas (dq ++ A) = all) by (rewrite datas_app, S3; unfold all; now rewrite <- app_assoc).
  rewrite values_datas, domains_datas, Hall.
  assert (Hstream : forall p, In p (dq ++ A) -> In p (stream w)).
  { intros p Hp. rewrite S1. apply in_app_iff in Hp. apply in_or_app. destruct Hp as [Hp|Hp]; [now left|right].
    destruct rest as [[e r]|]; [destruct G3 as [-> _]; apply in_or_app; now left|rewrite G3; exact Hp]. }
  assert (HinD : forall x, In x all -> In (Data x) (dq ++ A)).
  { intros x Hx. rewrite <- Hall in Hx. unfold datas in Hx. apply in_flat_map in Hx. destruct Hx as (p & Hp & Hx). destruct p; cbn in Hx; try contradiction. destruct Hx as [->|[]]. exact Hp. }
  assert (HF : Fine c d all).
  { constructor.
    - apply Forall_forall. intros x Hx. apply HinD, Hstream in Hx. rewrite Forall_forall in Hgood. exact (proj2 (Hgood _ Hx)).
    - intros E. apply Forall_forall. intros x Hx. apply HinD, Hstream in Hx. specialize (Hdd E). unfold domains_there in Hdd. rewrite Forall_forall in Hdd. exact (Hdd _ Hx).
    - apply Forall_forall. intros x Hx. apply HinD, Hstream in Hx. rewrite Forall_forall in Hgood. destruct (Hgood _ Hx) as [H _]. unfold size. destruct (smp x); [contradiction|cbn [length]; lia].
    - destruct Hfit as [Hfit|(z & Hz & Hfit)]; [left; exact Hfit|right]. exists z. split; [exact Hz|]. apply Forall_forall. intros x Hx. apply HinD, Hstream in Hx. rewrite Forall_forall in Hfit. exact (Hfit _ Hx). }
  assert (Htot : tot all < two64).
  { unfold tot. rewrite <- Hall, <- values_datas. rewrite S1, values_app in Hlen. rewrite values_app. unfold len in Hlen. rewrite app_length in *.
    destruct rest as [[e r]|]; [destruct G3 as [G3 _]|]; rewrite G3 in Hlen; [rewrite values_app, app_length in Hlen|]; lia. }
  assert (Hve : valid_events A).
  { intros Hin. assert (Hsk : skipEvents c = true).
    { unfold nostop in G2. rewrite Forall_forall in G2. specialize (G2 _ Hin). cbn [ends_segment] in G2. now destruct (skipEvents c). }
    apply (Hval Hsk). apply Hstream. apply in_or_app. now right. }
  set (k := next w) in *.
  set (nn := Z.to_nat n).
  set (T := match rest with Some (e, r) => e :: r | None => [] end).
  assert (Hconn : conn s = A ++ T) by (unfold T; destruct rest as [[e r]|]; [apply G3|rewrite app_nil_r; exact G3]).
  assert (HT : T = [] \/ exists e r, T = e :: r /\ ends_segment (skipEvents c) e = true) by (unfold T; destruct rest as [[e r]|]; [right; exists e, r; split; [reflexivity|apply G3]|now left]).
  set (i0 := {| queue := squeue s; cur := scur s; prev := sprev s; written := swritten s; remaining := if n =? 0 then 0 else w64 (n * hp c + ov c); outv := []; outd := [] |}).
  pose proof (available_facts c s tr A rest (Z.of_nat k) n Hc Eseg S4 Htot Hn) as Hav.
  assert (Hnn : Z.of_nat nn = n) by (unfold nn; lia).
  assert (Hflatlen : forall f, (f = smp \/ (f = dv /\ d = true)) -> length (flat f all) = Z.to_nat (tot all)).
  { intros f [->|[-> E]]; [unfold tot; lia|]. destruct HF as [F1 F2 _ _]. specialize (F2 E). clear - F1 F2. induction all as [|x l IHl]; [reflexivity|]. inversion F1 as [|? ? H1 H2]; inversion F2 as [|? ? H3 H4]; subst.
    unfold tot in *. cbn [flat flat_map]. rewrite !app_length. fold (flat dv l). fold (flat smp l). specialize (IHl H2 H4). unfold dv at 1. destruct (dom x) as [dx|] eqn:Ex; [|contradiction]. rewrite (H1 dx Ex). lia. }
  assert (Hlenall : len (flat smp all) = tot all) by reflexivity.
  change (hop c) with (hp c).
  assert (Hcase : (n = 0 \/ ((Z.of_nat k + n - 1) * hp c + blockSize c <= tot all /\ n <= tot (squeue s ++ datas A))) \/ (n = 1 /\ rest <> None /\ tot all < Z.of_nat k * hp c + blockSize c)).
  { destruct Hav as [H|[H|[H1 H2]]]; [left; now left|left; now right|]. destruct (Z.le_gt_cases (Z.of_nat k * hp c + blockSize c) (tot all)) as [Hle|Hgt].
    - left. right. split; [rewrite H1; replace (Z.of_nat k + 1 - 1) with (Z.of_nat k) by lia; exact Hle|].
      destruct S4 as [Q1 Q2 Q3 _ _ _ _]. rewrite H1. unfold all in Hle. rewrite !tot_app in *. pose proof (tot_firstn_le (squeue s) (scur s)). pose proof (tot_nonneg (datas A)). pose proof (tot_nonneg (firstn (scur s) (squeue s))). destruct Hc as (Hbs & _).
      destruct (nth_error (squeue s) (scur s)); lia.
    - right. auto. }
  destruct Hcase as [Henough|(H1 & Hrest & Hless)].
  - (* the blocks are there *)
    assert (Hb : nn = 0%nat \/ Z.of_nat nn * hp c + ov c < two64).
    { rewrite Hnn. destruct Henough as [H|[H _]]; [left; unfold nn; lia|right]. destruct S4 as [_ _ _ K _ _ _]. nia. }
    assert (Hrem : remaining i0 = (if Z.of_nat nn =? 0 then 0 else Z.of_nat nn * hp c + ov c)).
    { cbn [i0 remaining]. rewrite Hnn. destruct (n =? 0) eqn:E; [reflexivity|]. apply w64_small. destruct Hb as [Hb|Hb]; [lia|]. rewrite Hnn in Hb. nia. }
    assert (Hen : nn = 0%nat \/ (Z.of_nat k + Z.of_nat nn - 1) * hp c + blockSize c <= tot (tr ++ queue i0 ++ datas A)).
    { rewrite Hnn. destruct Henough as [H|[H _]]; [left; unfold nn; lia|right; exact H]. }
    assert (Hfu : (nn * Z.to_nat (blockSize c) + length A + 2 <= rounds c s)%nat).
    { apply (rounds_enough c s A rest n Hc Eseg). pose proof (tot_nonneg (squeue s ++ datas A)) as Hnt. destruct Henough as [H|[_ H]]; lia. }
    destruct (blocks_read c d Hc nn A T i0 tr k (rounds c s) G2 Hve S4 S5 Hrem Hb HF Hen Hfu) as (f' & pre & A' & tr' & i' & I1 & I2 & I3 & I4 & I5 & I6 & I7 & I8 & I9).
    change (tr ++ queue i0 ++ datas A) with all in I4, I8, I9. cbn [i0 outv outd app] in I8, I9.
    assert (Hns' : nostop (skipEvents c) A') by (unfold nostop in *; rewrite I3 in G2; apply Forall_app in G2; apply G2).
    assert (Hve' : valid_events A') by (intros Hin; apply Hve; rewrite I3; apply in_or_app; now right).
    assert (HF' : Fine c d (tr' ++ queue i' ++ datas A')) by (rewrite I4; exact HF).
    destruct (finish c d Hc A' T i' tr' (Z.of_nat (k + nn)) f' Hns' Hve' HT I5 I6 I7 HF' I2) as (conn' & inv' & i2 & e & J1 & J2 & J3 & J4).
    rewrite I4 in J4. rewrite Hconn, I1, J1. cbv zeta in J4.
    assert (Hgo : forall pre2 A2, A' = pre2 ++ A2 -> conn' = A2 ++ T -> tr' ++ queue i2 ++ datas A2 = all -> Pos c tr' (queue i2) (cur i2) (prev i2) (Z.of_nat (k + nn)) 0 -> written i2 mod blockSize c = 0 ->
       R c {| conn := conn'; squeue := queue i2; scur := cur i2; sprev := prev i2; swritten := written i2; invalid := false |} {| stream := dq ++ A ++ T; next := k + nn; dead := false |}).
    { intros pre2 A2 E1 E2 E3 E4 E5. constructor; cbn [dead invalid stream conn squeue scur sprev swritten next]; [reflexivity|]. intros _.
      exists (dq ++ pre ++ pre2), tr'. split; [rewrite I3, E1, E2, <- !app_assoc; reflexivity|]. split.
      - unfold nostop in *. rewrite I3, E1 in G2. apply Forall_app. split; [exact S2|]. rewrite app_assoc in G2. apply Forall_app in G2. apply G2.
      - split; [|split; [exact E4|exact E5]]. rewrite <- Hall, I3, E1 in E3. repeat rewrite datas_app in E3. repeat rewrite datas_app. rewrite !app_assoc in E3. apply app_inv_tail in E3. rewrite E3, <- !app_assoc. reflexivity. }
    assert (Henb : match nn with O => true | S m => Z.of_nat (k + m) * hp c + blockSize c <=? len (flat smp all) end = true).
    { rewrite Hlenall. destruct nn as [|m] eqn:En; [reflexivity|]. destruct Henough as [H|[H _]]; [lia|]. apply Z.leb_le. replace (Z.of_nat (k + m)) with (Z.of_nat k + n - 1) by lia. exact H. }
    rewrite Henb, Hlenall. cbn [negb orb].
    assert (Hres : forall ev v, Returned {| vals := outv i2; domain := outd i2; count := Z.of_nat (length (outv i2)) / blockSize c; event := ev; valid := v |} =
       Returned {| vals := flat_map (block c (flat smp all)) (seq k nn); domain := if d then flat_map (block c (flat dv all)) (seq k nn) else []; count := len (flat_map (block c (flat smp all)) (seq k nn)) / blockSize c; event := ev; valid := v |}).
    { intros ev v. rewrite J2, J3, I8, I9. reflexivity. }
    destruct rest as [[ev r]|]; unfold T in J4.
    + destruct (Z.of_nat (k + nn) * hp c =? tot all) eqn:Eu.
      * destruct J4 as (-> & -> & -> & ->). cbn [fst snd].
        split; [cbn [clean outv outd] in Hres; rewrite Hres; f_equal; destruct ev as [x|[|]| |]; reflexivity|].
        constructor; cbn [dead invalid stream conn squeue scur sprev swritten next clean queue cur prev written].
        -- destruct ev as [x|[|]| |]; reflexivity.
        -- intros _. exists [], []. split; [reflexivity|]. split; [constructor|]. split; [reflexivity|]. split; [|destruct Hc as (Hbs & _); apply Z.mod_0_l; lia].
           exact (clean_pos c _ Hc Hfit).
      * destruct J4 as (-> & -> & pre2 & A2 & E1 & E2 & E3 & E4 & E5). cbn [fst snd negb]. split; [rewrite Hres; reflexivity|]. rewrite I4 in *. eapply Hgo; eassumption.
    + destruct J4 as (-> & -> & pre2 & A2 & E1 & E2 & E3 & E4 & E5). cbn [fst snd negb]. split; [rewrite Hres; reflexivity|]. eapply Hgo; eassumption.
  - (* less than a block, and an event *)
    subst nn i0. subst n. set (i0 := {| queue := squeue s; cur := scur s; prev := sprev s; written := swritten s; remaining := if 1 =? 0 then 0 else w64 (1 * hp c + ov c); outv := []; outd := [] |}). destruct rest as [[ev r]|]; [|contradiction]. cbv iota in T. unfold T in *. clear T.
    assert (Hend : ends_segment (skipEvents c) ev = true) by apply G3.
    assert (Hbs : 0 < blockSize c < two64) by apply Hc.
    assert (Hrem : remaining i0 = blockSize c - 0) by (cbn [i0 remaining Z.eqb]; rewrite w64_small by lia; lia).
    assert (Hfu : (Z.to_nat 1 * Z.to_nat (blockSize c) + length A + 2 <= rounds c s)%nat).
    { apply (rounds_enough c s A (Some (ev, r)) 1 Hc Eseg). pose proof (tot_nonneg (squeue s ++ datas A)). lia. }
    change (Z.to_nat 1) with 1%nat in *. rewrite Nat.mul_1_l in Hfu.
    destruct (drain c d Hc (Z.to_nat (blockSize c) + length A)%nat A ev r i0 tr (Z.of_nat k) 0 (rounds c s) G2 Hve Hend S4 S5 Hrem HF Hless) as (i' & D1 & D2 & D3); [rewrite Z.sub_0_r; lia|lia|].
    rewrite Hconn, D1. cbn [fst snd]. change (tr ++ queue i0 ++ datas A) with all in D2, D3. cbn [i0 outv outd app] in D2, D3. rewrite Z.add_0_r in D2, D3.
    assert (Hblk : forall f, (f = smp \/ (f = dv /\ d = true)) -> skipn (Z.to_nat (Z.of_nat k * hp c)) (flat f all) = flat_map (block c (flat f all)) (seq k 1)).
    { intros f Hf. cbn [seq flat_map]. rewrite app_nil_r. unfold block. symmetry. apply firstn_all2. rewrite skipn_length, (Hflatlen f Hf). change (hop c) with (hp c). lia. }
    rewrite Nat.add_0_r. replace (Z.of_nat k * hp c + blockSize c <=? len (flat smp all)) with false by (rewrite Hlenall; lia). cbn [negb orb].
    cbn [clean outv outd fst snd]. rewrite D2, D3, (Hblk smp) by now left.
    split.
    + replace (if d then skipn (Z.to_nat (Z.of_nat k * hp c)) (flat dv all) else []) with (if d then flat_map (block c (flat dv all)) (seq k 1) else []) by (destruct d; [rewrite (Hblk dv); [reflexivity|right; auto]|reflexivity]).
      destruct ev as [x|[|]| |]; reflexivity.
    + constructor; cbn [dead invalid stream conn squeue scur sprev swritten next clean queue cur prev written].
      * destruct ev as [x|[|]| |]; reflexivity.
      * intros _. exists [], []. split; [reflexivity|]. split; [constructor|]. split; [reflexivity|]. split; [|apply Z.mod_0_l; lia].
           exact (clean_pos c _ Hc Hfit).
Qed.

Lemma good_tail : forall c o h, good_history c (o :: h) -> good_history c h.
Proof.
  intros c o h (H1 & H2 & H3 & H4 & H5 & H6). cbn [asks_available] in H6. destruct H6 as [_ H6].
  assert (E : packets_of (o :: h) = match o with Receive p => [p] | _ => [] end ++ packets_of h) by reflexivity. rewrite E in *. clear E.
  apply Forall_app in H2. unfold good_history. repeat split; try apply H1; try apply H2; try exact H6.
  - destruct H3 as [H3|(z & Hz & H3)]; [now left|right]. exists z. split; [exact Hz|]. apply Forall_app in H3. apply H3.
  - intros Hs Hin. apply (H4 Hs). apply in_or_app. now right.
  - rewrite values_app in H5. unfold len in *. rewrite app_length in H5. lia.
Qed.

Lemma step_R : forall c o h, good_history c (o :: h) -> R c (after c h) (iafter c h) ->
  snd (step c (after c h) o) = snd (istep c (iafter c h) o) /\ R c (after c (o :: h)) (iafter c (o :: h)).
Proof.
  intros c o h Hg HR. pose proof (good_tail c o h Hg) as Hg'. destruct Hg as (_ & _ & _ & _ & _ & Ha). cbn [asks_available] in Ha. destruct Ha as [Ha _].
  destruct Hg' as (H1 & H2 & H3 & H4 & H5 & _). destruct (stream_incl c h) as [I1 I2].
  assert (K2 : Forall good_packet (stream (iafter c h))) by (rewrite Forall_forall in *; intros p Hp; apply H2, I1, Hp).
  assert (K3 : fitting c (stream (iafter c h))).
  { destruct H3 as [H3|(z & Hz & H3)]; [now left|right]. exists z. split; [exact Hz|]. rewrite Forall_forall in *. intros p Hp. apply H3, I1, Hp. }
  assert (K4 : stays_valid c (stream (iafter c h))) by (intros Hs Hin; apply (H4 Hs), I1, Hin).
  cbn [after iafter]. destruct o as [p|n|n]; cbn [step istep].
  - cbn [fst snd]. split; [reflexivity|]. destruct HR as [Rd Rr]. constructor; cbn [dead invalid stream conn squeue scur sprev swritten next]; [exact Rd|].
    intros E. destruct (Rr E) as (dq & tr & S1 & S2 & S3 & S4 & S5). exists dq, tr. split; [rewrite S1, <- app_assoc; reflexivity|]. auto.
  - apply read_R; try assumption; [lia|discriminate].
  - destruct Ha as [Ha Hd]. apply read_R; try assumption; [lia|]. intros _. unfold domains_there in *. rewrite Forall_forall in *. intros p Hp. apply Hd, I1, Hp.
Qed.

Lemma history_R : forall c h, good_history c h -> R c (after c h) (iafter c h).
Proof.
  intros c h. induction h as [|o h IH]; intros Hg.
  - cbn [after iafter]. constructor; [reflexivity|]. intros _. exists [], []. split; [reflexivity|]. split; [constructor|]. split; [reflexivity|]. destruct Hg as (Hc & _ & Hfit & _). split; [exact (clean_pos c _ Hc Hfit)|]. assert (0 < blockSize c) by apply Hc. apply Z.mod_0_l. lia.
  - apply step_R; [exact Hg|]. apply IH. exact (good_tail _ _ _ Hg).
Qed.

Lemma packets_tail : forall o h, only_data (o :: h) -> only_data h.
Proof. intros o h H p Hp. apply H. unfold packets_of. cbn [flat_map]. apply in_or_app. right. exact Hp. Qed.

Lemma segment_data : forall skip l, (forall p, In p l -> exists x, p = Data x) -> segment skip l = (l, None).
Proof.
  intros skip l. induction l as [|p l IH]; intros H; [reflexivity|]. destruct (H p (or_introl eq_refl)) as [x ->]. cbn [segment ends_segment].
  rewrite IH; [reflexivity|]. intros q Hq. apply H. now right.
Qed.

Lemma iread_data : forall c w d n, dead w = false -> (forall p, In p (stream w) -> exists x, p = Data x) ->
  iread c w d n = ({| stream := stream w; next := next w + n; dead := false |},
    Returned {| vals := flat_map (block c (values_of (stream w))) (seq (next w) n); domain := if d then flat_map (block c (domains_of (stream w))) (seq (next w) n) else [];
                count := len (flat_map (block c (values_of (stream w))) (seq (next w) n)) / blockSize c; event := None; valid := true |}).
Proof. intros c w d n Hd Hp. unfold iread. rewrite Hd, segment_data by exact Hp. reflexivity. Qed.

Lemma ideal_data : forall c h, only_data h -> stream (iafter c h) = rev (packets_of h) /\ next (iafter c h) = asked h /\ dead (iafter c h) = false.
Proof.
  intros c h. induction h as [|o h IH]; intros H; [repeat split|]. destruct (IH (packets_tail _ _ H)) as (I1 & I2 & I3).
  assert (Hs : forall p, In p (stream (iafter c h)) -> exists x, p = Data x) by (intros p Hp; rewrite I1 in Hp; apply in_rev in Hp; apply (packets_tail _ _ H); exact Hp).
  cbn [iafter]. destruct o as [p|n|n]; cbn [istep fst].
  - cbn [stream next dead]. rewrite I1. unfold packets_of, asked in *. cbn [flat_map fold_right app rev]. repeat split; [lia|exact I3].
  - rewrite iread_data by assumption. cbn [fst stream next dead]. rewrite I1, I2. unfold packets_of, asked. cbn [flat_map fold_right app]. repeat split; lia.
  - rewrite iread_data by assumption. cbn [fst stream next dead]. rewrite I1, I2. unfold packets_of, asked. cbn [flat_map fold_right app]. repeat split; lia.
Qed.

Lemma block_stable : forall c l l' k, 0 < hop c -> Z.of_nat k * hop c + blockSize c <= len l -> block c (l ++ l') k = block c l k.
Proof.
  intros c l l' k Hh Hk. unfold block, len in *. destruct (Z.le_gt_cases (blockSize c) 0) as [Hb|Hb].
  - replace (Z.to_nat (blockSize c)) with 0%nat by lia. reflexivity.
  - apply cut_app. nia.
Qed.

Lemma data_enough : forall c h n, good_history c h -> only_data h -> 0 < n <= getAvailableCount c (after c h) ->
  (Z.of_nat (asked h) + n - 1) * hop c + blockSize c <= len (received_values h).
Proof.
  intros c h n Hg Ho Hn. pose proof (history_R c h Hg) as [Rd Rr]. destruct (ideal_data c h Ho) as (I1 & I2 & I3).
  destruct (Rr I3) as (dq & tr & S1 & S2 & S3 & S4 & S5). destruct Hg as (Hc & Hgp & Hfit & Hval & Hlen & Hask).
  assert (Hd : forall p, In p (conn (after c h)) -> exists x, p = Data x).
  { intros p Hp. apply Ho. apply in_rev. rewrite <- I1, S1. apply in_or_app. now right. }
  pose proof (segment_data (skipEvents c) _ Hd) as Eseg.
  assert (Hall : tr ++ squeue (after c h) ++ datas (conn (after c h)) = datas (rev (packets_of h))) by (rewrite <- I1, S1, datas_app, S3, app_assoc; reflexivity).
  assert (Htt : tot (datas (rev (packets_of h))) = len (received_values h)) by (unfold received_values, tot, len; rewrite values_datas; reflexivity).
  assert (Htot : tot (tr ++ squeue (after c h) ++ datas (conn (after c h))) < two64).
  { rewrite Hall, Htt. destruct (stream_incl c h) as [_ I]. rewrite I1 in I. unfold received_values. lia. }
  destruct (available_facts c _ tr _ _ _ n Hc Eseg S4 Htot ltac:(lia)) as [H|[[H _]|[_ H]]]; [lia| |congruence].
  rewrite Hall, Htt, I2 in H. exact H.
Qed.

Lemma flat_map_ext_in' : forall (f g : nat -> list Z) l, (forall k, In k l -> f k = g k) -> flat_map f l = flat_map g l.
Proof. intros f g l. induction l as [|a l IH]; intros H; [reflexivity|]. cbn [flat_map]. rewrite (H a (or_introl eq_refl)), IH; [reflexivity|]. intros k Hk. apply H. now right. Qed.

Lemma returned_blocks : forall c h, good_history c h -> only_data h ->
  returned_values c h = flat_map (block c (received_values h)) (seq 0 (asked h)) /\ (asked h = 0%nat \/ (Z.of_nat (asked h) - 1) * hop c + blockSize c <= len (received_values h)).
Proof.
  intros c h. induction h as [|o h IH]; intros Hg Ho; [split; [reflexivity|now left]|].
  pose proof (good_tail c o h Hg) as Hg'. pose proof (packets_tail o h Ho) as Ho'. destruct (IH Hg' Ho') as [IH1 IH2]. clear IH.
  destruct (ideal_data c h Ho') as (I1 & I2 & I3). destruct (step_R c o h Hg (history_R c h Hg')) as [Hs _].
  destruct (config_facts c (proj1 Hg)) as (Hov & Hhp & Hsum). change (hp c) with (hop c) in Hhp.
  cbn [returned_values]. rewrite Hs, IH1.
  assert (Hst : forall p, In p (stream (iafter c h)) -> exists x, p = Data x) by (intros p Hp; rewrite I1 in Hp; apply in_rev in Hp; apply Ho'; exact Hp).
  assert (Hread : forall d n, 0 <= n <= getAvailableCount c (after c h) ->
     flat_map (block c (received_values h)) (seq 0 (asked h)) ++ match snd (iread c (iafter c h) d (Z.to_nat n)) with Returned x => vals x | _ => [] end = flat_map (block c (received_values h)) (seq 0 (Z.to_nat n + asked h))
     /\ ((Z.to_nat n + asked h)%nat = 0%nat \/ (Z.of_nat (Z.to_nat n + asked h) - 1) * hop c + blockSize c <= len (received_values h))).
  { intros d n Hn. rewrite iread_data by assumption. cbn [snd vals]. rewrite I1, I2. fold (received_values h). rewrite (Nat.add_comm (Z.to_nat n)), seq_app, flat_map_app. split; [reflexivity|].
    destruct (Z.eq_dec n 0) as [->|Hz]; [change (Z.to_nat 0) with 0%nat; rewrite Nat.add_0_r; exact IH2|right].
    pose proof (data_enough c h n Hg' Ho' ltac:(lia)) as He. replace (Z.of_nat (asked h + Z.to_nat n)) with (Z.of_nat (asked h) + n) by lia. exact He. }
  pose proof (proj2 (proj2 (proj2 (proj2 (proj2 Hg))))) as Ha. cbn [asks_available] in Ha. destruct Ha as [Ha _].
  destruct o as [p|n|n]; cbn [istep].
  - cbn [snd]. rewrite app_nil_r. change (asked (Receive p :: h)) with (asked h).
    assert (E : received_values (Receive p :: h) = received_values h ++ values_of [p]) by (unfold received_values, packets_of; cbn [flat_map app rev]; apply values_app). rewrite E. split.
    + destruct IH2 as [->|IH2]; [reflexivity|]. apply flat_map_ext_in'. intros k Hk. apply in_seq in Hk. symmetry. apply block_stable; [exact Hhp|]. nia.
    + destruct IH2 as [IH2|IH2]; [now left|right]. unfold len in *. rewrite app_length. lia.
  - change (received_values (Read n :: h)) with (received_values h). change (asked (Read n :: h)) with (Z.to_nat n + asked h)%nat. apply Hread. exact Ha.
  - change (received_values (ReadWithDomain n :: h)) with (received_values h). change (asked (ReadWithDomain n :: h)) with (Z.to_nat n + asked h)%nat. apply Hread. apply Ha.
Qed.

Lemma blocks_contiguous : forall c l n, 0 < blockSize c -> shared c = 0 -> (n = 0%nat \/ Z.of_nat n * blockSize c <= len l) ->
  flat_map (block c l) (seq 0 n) = firstn (Z.to_nat (Z.of_nat n * blockSize c)) l.
Proof.
  intros c l n Hb Hs. induction n as [|n IH]; intros Hn; [reflexivity|]. assert (Hlast : Z.of_nat (S n) * blockSize c <= len l) by (destruct Hn; [discriminate|assumption]).
  rewrite seq_S, flat_map_app, IH by (right; nia). cbn [flat_map plus]. rewrite app_nil_r. unfold block, hop. rewrite Hs, Z.sub_0_r.
  replace (Z.to_nat (Z.of_nat (S n) * blockSize c)) with (Z.to_nat (Z.of_nat n * blockSize c) + Z.to_nat (blockSize c))%nat by nia.
  pose proof (cut_add l 0 (Z.to_nat (Z.of_nat n * blockSize c)) (Z.to_nat (blockSize c))) as H. cbn [skipn plus] in H. exact H.
Qed.
