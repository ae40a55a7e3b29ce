From Verif Require Import Base BRead_Model BRead_Spec.
Local Open Scope Z_scope.

Notation ov := overlappedBlockSize.
Notation hp := overlappedBlockSizeRemainder.
Definition flat (f : dpkt -> list Z) (l : list dpkt) : list Z := flat_map f l.
Definition tot (l : list dpkt) : Z := Z.of_nat (length (flat smp l)).
Definition dv (x : dpkt) : list Z := match dom x with Some d => d | None => [] end.

Lemma flat_app : forall f a b, flat f (a ++ b) = flat f a ++ flat f b.
Proof. intros. unfold flat. apply flat_map_app. Qed.
Lemma tot_app : forall a b, tot (a ++ b) = tot a + tot b.
Proof. intros. unfold tot. rewrite flat_app, app_length, Nat2Z.inj_add. reflexivity. Qed.
Lemma tot_nonneg : forall l, 0 <= tot l. Proof. intros. unfold tot. lia. Qed.
Lemma tot_cons : forall x l, tot (x :: l) = size x + tot l.
Proof. intros. unfold tot, size. cbn [flat flat_map]. rewrite app_length, Nat2Z.inj_add. reflexivity. Qed.
Lemma tot_nil : tot [] = 0. Proof. reflexivity. Qed.
Lemma tot_eq : forall z l, Forall (fun x => size x = z) l -> tot l = Z.of_nat (length l) * z.
Proof. intros z l H. induction H as [|x l Hx Hl IH]; [reflexivity|]. rewrite tot_cons, IH, Hx. cbn [length]. lia. Qed.
Lemma size_nonneg : forall x, 0 <= size x. Proof. intros. unfold size. lia. Qed.

Lemma nth_split_at : forall (q : list dpkt) c x, nth_error q c = Some x -> q = firstn c q ++ x :: skipn (S c) q.
Proof.
  intros q c x H. rewrite <- (firstn_skipn c q) at 1. f_equal. revert q H. induction c as [|c IH]; intros [|y q] H; try discriminate.
  - injection H as ->. reflexivity.
  - cbn [nth_error] in H. cbn [skipn]. rewrite (IH q H). reflexivity.
Qed.

Lemma part_of : forall f tr q c x p t, Forall (fun y => length (f y) = length (smp y)) (tr ++ q) -> nth_error q c = Some x ->
  0 <= p -> 0 <= t -> t <= size x - p ->
  firstn (Z.to_nat t) (skipn (Z.to_nat (tot tr + tot (firstn c q) + p)) (flat f (tr ++ q))) = firstn (Z.to_nat t) (skipn (Z.to_nat p) (f x)).
Proof.
  intros f tr q c x p t Hf Hx Hp Ht Hle.
  assert (Hl : forall l, Forall (fun y => length (f y) = length (smp y)) l -> length (flat f l) = Z.to_nat (tot l)).
  { induction 1 as [|y l Hy Hl IH]; [reflexivity|]. unfold tot in *. cbn [flat flat_map]. rewrite !app_length. fold (flat f l). fold (flat smp l). lia. }
  assert (Hq : tr ++ q = (tr ++ firstn c q) ++ x :: skipn (S c) q) by (rewrite <- app_assoc; f_equal; now apply nth_split_at).
  rewrite Hq in Hf. rewrite Hq. apply Forall_app in Hf. destruct Hf as [Hf1 Hf2]. inversion Hf2 as [|? ? Hfx Hf3]. subst.
  rewrite flat_app. rewrite skipn_app. rewrite (Hl _ Hf1), tot_app.
  pose proof (tot_nonneg tr). pose proof (tot_nonneg (firstn c q)). unfold size in Hle.
  rewrite skipn_all2 by (rewrite (Hl _ Hf1), tot_app; lia). cbn [app].
  replace (Z.to_nat (tot tr + tot (firstn c q) + p) - Z.to_nat (tot tr + tot (firstn c q)))%nat with (Z.to_nat p) by lia.
  cbn [flat flat_map]. rewrite skipn_app, firstn_app. rewrite skipn_length.
  replace (Z.to_nat t - (length (f x) - Z.to_nat p))%nat with 0%nat by lia. cbn [firstn]. apply app_nil_r.
Qed.

(** ** Going back through packets of one size *)
Lemma rewind_eq : forall z q, Forall (fun x => size x = z) q -> forall c r p, (c < length q)%nat -> 0 <= r -> 0 <= p <= z -> 0 < z ->
  r <= Z.of_nat c * z + p ->
  exists c' p', rewind q c r p = Some (c', p') /\ (c' <= c)%nat /\ 0 <= p' <= z /\ (0 < r -> p' < z) /\ Z.of_nat c' * z + p' = Z.of_nat c * z + p - r.
Proof.
  intros z q Hq. induction c as [|c IH]; intros r p Hc Hr Hp Hz Hle.
  - assert (Hn : match nth_error q 0 with Some x => size x | None => 0 end = z).
    { destruct (nth_error q 0) eqn:E; [|apply nth_error_None in E; lia]. apply nth_error_In in E. rewrite Forall_forall in Hq. now apply Hq. }
    cbn [rewind]. rewrite Hn. destruct (r >? z) eqn:E1; [lia|]. destruct (p <? r) eqn:E2; [lia|].
    exists 0%nat, (p - r). split; [reflexivity|]. lia.
  - assert (Hn : forall j, (j < length q)%nat -> match nth_error q j with Some x => size x | None => 0 end = z).
    { intros j Hj. destruct (nth_error q j) eqn:E; [|apply nth_error_None in E; lia]. apply nth_error_In in E. rewrite Forall_forall in Hq. now apply Hq. }
    cbn [rewind]. rewrite (Hn (S c)) by lia. rewrite (Hn c) by lia. destruct (r >? z) eqn:E1.
    + destruct (IH (r - z) p) as (c' & p' & H1 & H2 & H3 & H4 & H5); try lia. exists c', p'. split; [exact H1|]. split; [lia|]. split; [lia|]. split; [intros; apply H4; lia|lia].
    + destruct (p <? r) eqn:E2.
      * destruct (IH (r - p) z) as (c' & p' & H1 & H2 & H3 & H4 & H5); try lia. exists c', p'. split; [exact H1|]. split; [lia|]. split; [lia|]. split; [intros; apply H4; lia|lia].
      * exists (S c), (p - r). split; [reflexivity|]. lia.
Qed.

(** ** Where the reader stands *)
(** packets kept for the overlap *)
Definition keep (o z : Z) : Z := o / z + (if o mod z =? 0 then 0 else 1).
Lemma keep_enough : forall o z, 0 <= o -> 0 < z -> o <= keep o z * z /\ 0 <= keep o z /\ (0 < o -> 1 <= keep o z).
Proof.
  intros o z Ho Hz. unfold keep. pose proof (Z.div_mod o z ltac:(lia)) as E. pose proof (Z.mod_pos_bound o z Hz) as B. pose proof (Z.div_pos o z Ho Hz) as D.
  destruct (o mod z =? 0) eqn:E0; nia.
Qed.

Record Pos (c : config) (tr q : list dpkt) (cu : nat) (pv k r : Z) : Prop := {
  p_cur : (cu <= length q)%nat;
  p_prev : match nth_error q cu with Some x => 0 <= pv < size x | None => pv = 0 end;
  p_pos : tot tr + tot (firstn cu q) + pv = k * hp c + r;
  p_k : 0 <= k;
  p_r : 0 <= r < blockSize c;
  p_sz : Forall (fun x => 0 < size x) (tr ++ q);
  p_ret : (ov c = 0 /\ (q = [] \/ (cu = 0%nat /\ length q = 1%nat))) \/
          (exists z, 0 < ov c /\ 0 < z <= hp c /\ Forall (fun x => size x = z) (tr ++ q) /\
             let K := keep (ov c) z in let L := Z.of_nat (length q) in
             L <= K + 1 /\ (tr = [] \/ K <= L) /\ (cu = length q -> L <= K) /\
             (tot (tr ++ q) - z < k * hp c + ov c \/
              (tot (tr ++ q) - z <= k * hp c + r /\ (tr = [] \/ L = K + 1 \/ (cu = length q /\ L = K)))))
}.

Definition dom_ok (x : dpkt) : Prop := forall d, dom x = Some d -> length d = length (smp x).

Lemma config_facts : forall c, well_configured c -> 0 <= ov c /\ 0 < hp c /\ ov c + hp c = blockSize c.
Proof.
  intros c (Hb & Ho & _). unfold ov, hp, overlappedBlockSize, overlappedBlockSizeRemainder. unfold overlappedBlockSize.
  pose proof (Z.div_pos (blockSize c * overlap c) 100 ltac:(nia) ltac:(lia)).
  assert (blockSize c * overlap c / 100 < blockSize c) by (apply Z.div_lt_upper_bound; nia). lia.
Qed.

Lemma mod_step : forall w b r t, 0 < b -> w mod b = r -> 0 <= t -> r + t < b -> (w + t) mod b = r + t.
Proof. intros w b r t Hb Hw Ht Hr. rewrite <- Zplus_mod_idemp_l, Hw. apply Z.mod_small. pose proof (Z.mod_pos_bound w b Hb). lia. Qed.
Lemma mod_full : forall w b r t, 0 < b -> w mod b = r -> r + t = b -> (w + t) mod b = 0.
Proof. intros w b r t Hb Hw Hr. rewrite <- Zplus_mod_idemp_l, Hw, Hr. apply Z.mod_same. lia. Qed.

Lemma tot_firstn_S : forall q c x, nth_error q c = Some x -> tot (firstn (S c) q) = tot (firstn c q) + size x.
Proof.
  intros q c x H. rewrite (nth_split_at q c x H) at 1.
  assert (Hl : length (firstn c q) = c) by (apply firstn_length_le; assert (c < length q)%nat by (apply nth_error_Some; congruence); lia).
  rewrite firstn_app, Hl. rewrite firstn_all2 by lia. replace (S c - c)%nat with 1%nat by lia. cbn [firstn]. rewrite tot_app, tot_cons, tot_nil. lia.
Qed.
Lemma tot_firstn_le : forall q c, tot (firstn c q) <= tot q.
Proof. intros q c. rewrite <- (firstn_skipn c q) at 2. rewrite tot_app. pose proof (tot_nonneg (skipn c q)). lia. Qed.

Lemma one_read : forall c d i tr k r j, well_configured c ->
  Pos c tr (queue i) (cur i) (prev i) k r -> (cur i < length (queue i))%nat ->
  written i mod blockSize c = r ->
  1 <= j -> remaining i = j * hp c + ov c - r -> j * hp c + ov c < two64 ->
  Forall dom_ok (tr ++ queue i) -> (d = true -> Forall (fun x => dom x <> None) (tr ++ queue i)) ->
  exists i' t tr' k' r', readPacketData c d i = Ok i' /\ 1 <= t /\ tr' ++ queue i' = tr ++ queue i /\
    Pos c tr' (queue i') (cur i') (prev i') k' r' /\ written i' mod blockSize c = r' /\
    outv i' = outv i ++ firstn (Z.to_nat t) (skipn (Z.to_nat (k * hp c + r)) (flat smp (tr ++ queue i))) /\
    outd i' = outd i ++ (if d then firstn (Z.to_nat t) (skipn (Z.to_nat (k * hp c + r)) (flat dv (tr ++ queue i))) else []) /\
    k * hp c + r + t <= tot (tr ++ queue i) /\
    ((r + t < blockSize c /\ k' = k /\ r' = r + t /\ remaining i' = j * hp c + ov c - r') \/
     (r + t = blockSize c /\ k' = k + 1 /\ r' = 0 /\ remaining i' = (if j =? 1 then 0 else (j - 1) * hp c + ov c))).
Proof.
  intros c d i tr k r j Hc HP Hcur Hw Hj Hrem Hb Hdom Hdd. destruct (config_facts c Hc) as (Hov & Hhp & Hsum). destruct Hc as (Hbs & Hovl & Hbo).
  destruct HP as [P1 P2 P3 P4 P5 P6 P7].
  destruct (nth_error (queue i) (cur i)) as [x|] eqn:Ex; [|apply nth_error_None in Ex; lia].
  assert (Hxin : In x (tr ++ queue i)) by (apply in_or_app; right; eapply nth_error_In; exact Ex).
  unfold readPacketData. rewrite Ex. replace (prev i >? size x) with false by lia. rewrite Hw.
  set (t := Z.min (blockSize c - r) (size x - prev i)). assert (Ht : 1 <= t) by (unfold t; lia). assert (Htb : r + t <= blockSize c) by (unfold t; lia). assert (Htx : t <= size x - prev i) by (unfold t; lia).
  assert (Htcase : r + t < blockSize c -> prev i + t = size x) by (unfold t; lia). clearbody t.
  assert (Hdl : exists dl, (if d then dom x else Some []) = Some dl /\ (if d then dl = dv x else dl = [])).
  { destruct d; [|now exists []]. specialize (Hdd eq_refl). rewrite Forall_forall in Hdd. specialize (Hdd x Hxin). destruct (dom x) as [dl|] eqn:E; [|contradiction]. exists dl. split; [reflexivity|]. unfold dv. now rewrite E. }
  destruct Hdl as (dl & -> & Hdl).
  assert (Hovv : firstn (Z.to_nat t) (skipn (Z.to_nat (k * hp c + r)) (flat smp (tr ++ queue i))) = firstn (Z.to_nat t) (skipn (Z.to_nat (prev i)) (smp x))).
  { rewrite <- P3. apply part_of; try lia; [|exact Ex]. apply Forall_forall. reflexivity. }
  assert (Hod1 : (if d then firstn (Z.to_nat t) (skipn (Z.to_nat (k * hp c + r)) (flat dv (tr ++ queue i))) else []) = firstn (Z.to_nat t) (skipn (Z.to_nat (prev i)) dl)).
  { destruct d; [|subst dl; now rewrite skipn_nil, firstn_nil]. subst dl. rewrite <- P3. apply part_of; try lia; [|exact Ex].
    specialize (Hdd eq_refl). rewrite Forall_forall in *. intros y Hy. unfold dv. specialize (Hdd y Hy). specialize (Hdom y Hy). destruct (dom y) as [dy|] eqn:Ey; [|contradiction]. now apply Hdom. }
  assert (Hq : queue i = firstn (cur i) (queue i) ++ x :: skipn (S (cur i)) (queue i)) by now apply nth_split_at.
  assert (Htot : tot (tr ++ queue i) = tot tr + tot (firstn (cur i) (queue i)) + size x + tot (skipn (S (cur i)) (queue i))) by (rewrite tot_app; rewrite Hq at 1; rewrite tot_app, tot_cons; lia).
  pose proof (tot_nonneg (skipn (S (cur i)) (queue i))) as Hsk.
  assert (Hfit : k * hp c + r + t <= tot (tr ++ queue i)) by lia.
  assert (Hremt : w64 (remaining i - t) = remaining i - t) by (apply w64_small; nia). rewrite Hremt.
  destruct (Z.eq_dec (r + t) (blockSize c)) as [Hfull|Hnot].
  - (* the block is complete *)
    assert (Hwm : (written i + t) mod blockSize c = 0) by (eapply mod_full; eauto; lia).
    destruct P7 as [[Hov0 Hq1]|(z & Hov1 & Hz & Hsz & HK)].
    + (* no overlap *)
      assert (Hc0 : cur i = 0%nat /\ length (queue i) = 1%nat) by (destruct Hq1 as [Hq1|Hq1]; [rewrite Hq1 in Hcur; cbn [length] in Hcur; lia|exact Hq1]).
      destruct Hc0 as [Hc0 Hl1]. destruct (queue i) as [|x' [|y q]] eqn:Eq; try discriminate Hl1. rewrite Hc0 in *. injection Ex as ->. cbn [firstn] in *.
      assert (Hrw : (if overlap c =? 0 then Some (0%nat, prev i + t, remaining i - t)
        else if (written i + t) mod blockSize c =? 0
             then match rewind [x] 0 (ov c) (prev i + t) with None => None | Some (c', p') => Some (c', p', if remaining i - t =? 0 then remaining i - t else w64 (remaining i - t + ov c)) end
             else Some (0%nat, prev i + t, remaining i - t)) = Some (0%nat, prev i + t, remaining i - t)).
      { destruct (overlap c =? 0); [reflexivity|]. rewrite Hwm. cbn [Z.eqb]. rewrite Hov0. cbn [rewind nth_error]. replace (0 >? size x) with false by lia. replace (prev i + t <? 0) with false by lia.
        rewrite Z.sub_0_r, Z.add_0_r, Hremt. now destruct (remaining i - t =? 0). }
      rewrite Hrw.
      assert (Hremv : remaining i - t = (if j =? 1 then 0 else (j - 1) * hp c + ov c)) by (destruct (j =? 1) eqn:Ej; nia).
      destruct (prev i + t =? size x) eqn:Ef.
      * unfold trim. replace (size x =? 0) with false by lia. rewrite Hov0, Z.div_0_l, Z.mod_0_l by lia. cbn [Z.eqb Z.add Z.to_nat length Nat.sub Nat.ltb Nat.leb skipn].
        eexists _, t, (tr ++ [x]), (k + 1), 0. split; [reflexivity|]. cbn [queue cur prev written remaining outv outd].
        split; [exact Ht|]. split; [rewrite app_nil_r; reflexivity|]. split.
        { constructor; cbn [length nth_error firstn]; try lia; try reflexivity.
          - rewrite tot_app, tot_cons, !tot_nil. rewrite tot_nil in P3. nia.
          - rewrite app_nil_r. exact P6.
          - left. split; [exact Hov0|now left]. }
        split; [exact Hwm|]. split; [rewrite Hovv; reflexivity|]. split; [rewrite Hod1; reflexivity|]. split; [exact Hfit|]. right. split; [exact Hfull|]. split; [reflexivity|]. split; [reflexivity|rewrite Hremv, ?Hov0; reflexivity].
      * eexists _, t, tr, (k + 1), 0. split; [reflexivity|]. cbn [queue cur prev written remaining outv outd].
        split; [exact Ht|]. split; [reflexivity|]. split.
        { constructor; cbn [length nth_error firstn]; try lia; try assumption.
        }
        split; [exact Hwm|]. split; [rewrite Hovv; reflexivity|]. split; [rewrite Hod1; reflexivity|]. split; [exact Hfit|]. right. split; [exact Hfull|]. split; [reflexivity|]. split; [reflexivity|exact Hremv].
    + (* overlap: go back *)
      cbv zeta in HK. destruct HK as (K1 & K2 & K3 & K4). destruct (keep_enough (ov c) z ltac:(lia) ltac:(lia)) as (KE1 & KE2 & KE3). remember (keep (ov c) z) as K eqn:HKd.
      assert (Hszq : Forall (fun y => size y = z) (queue i)) by (apply Forall_app in Hsz; apply Hsz).
      assert (Hsx : size x = z) by (rewrite Forall_forall in Hsz; now apply Hsz).
      assert (Hlf : length (firstn (cur i) (queue i)) = cur i) by (apply firstn_length_le; lia).
      assert (Htf : tot (firstn (cur i) (queue i)) = Z.of_nat (cur i) * z).
      { rewrite (tot_eq z); [now rewrite Hlf|]. rewrite Forall_forall in *. intros y Hy. apply Hszq. rewrite <- (firstn_skipn (cur i) (queue i)). apply in_or_app. now left. }
      assert (Htr : tot tr = Z.of_nat (length tr) * z) by (apply tot_eq; apply Forall_app in Hsz; apply Hsz).
      assert (Hall : tot (tr ++ queue i) = Z.of_nat (length tr) * z + Z.of_nat (length (queue i)) * z) by (rewrite tot_app, Htr, (tot_eq z _ Hszq); lia).
      assert (K5 : tot (tr ++ queue i) - z <= k * hp c + r /\ (tr = [] \/ Z.of_nat (length (queue i)) = K + 1)).
      { destruct K4 as [K4|[K4 K4']]; [exfalso; nia|]. split; [exact K4|]. destruct K4' as [?|[?|[? ?]]]; [now left|now right|lia]. }
      destruct K5 as [K5 K6].
      assert (Hlast : Z.of_nat (cur i) + 1 = Z.of_nat (length (queue i))) by nia.
      assert (Hgo : ov c <= Z.of_nat (cur i) * z + (prev i + t)).
      { destruct K6 as [->|K6]; [rewrite tot_nil in P3; nia|nia]. }
      destruct (rewind_eq z (queue i) Hszq (cur i) (ov c) (prev i + t)) as (c' & p' & R1 & R2 & R3 & R4 & R5); try lia.
      assert (Hovn : overlap c =? 0 = false).
      { apply Z.eqb_neq. intros E. unfold ov in Hov1. unfold overlappedBlockSize in Hov1. rewrite E, Z.mul_0_r in Hov1. vm_compute in Hov1. discriminate Hov1. }
      rewrite Hovn, Hwm. cbn [Z.eqb]. rewrite R1. rewrite Hsx. specialize (R4 Hov1). replace (p' =? z) with false by lia.
      eexists _, t, tr, (k + 1), 0. split; [reflexivity|]. cbn [queue cur prev written remaining outv outd].
      split; [exact Ht|]. split; [reflexivity|]. split.
      { constructor; try lia; try assumption.
        - destruct (nth_error (queue i) c') eqn:E'; [|apply nth_error_None in E'; lia]. apply nth_error_In in E'. rewrite Forall_forall in Hszq. rewrite (Hszq _ E'). lia.
        - assert (Htf' : tot (firstn c' (queue i)) = Z.of_nat c' * z).
          { rewrite (tot_eq z); [rewrite firstn_length_le by lia; reflexivity|]. rewrite Forall_forall in *. intros y Hy. apply Hszq. rewrite <- (firstn_skipn c' (queue i)). apply in_or_app. now left. }
          rewrite Htf'. nia.
        - right. exists z. split; [exact Hov1|]. split; [exact Hz|]. split; [exact Hsz|]. cbv zeta. rewrite <- HKd.
          split; [exact K1|]. split; [exact K2|]. split; [lia|]. left. nia. }
      split; [exact Hwm|]. split; [rewrite Hovv; reflexivity|]. split; [rewrite Hod1; reflexivity|]. split; [exact Hfit|]. right. split; [exact Hfull|]. split; [reflexivity|]. split; [reflexivity|].
      destruct (j =? 1) eqn:Ej.
      * replace (remaining i - t =? 0) with true by nia. nia.
      * replace (remaining i - t =? 0) with false by nia. rewrite w64_small by nia. nia.
  - (* the packet ends first *)
    specialize (Htcase ltac:(lia)).
    assert (Hwm : (written i + t) mod blockSize c = r + t) by (eapply mod_step; eauto; lia).
    assert (Hrw : (if overlap c =? 0 then Some (cur i, prev i + t, remaining i - t)
        else if (written i + t) mod blockSize c =? 0
             then match rewind (queue i) (cur i) (ov c) (prev i + t) with None => None | Some (c', p') => Some (c', p', if remaining i - t =? 0 then remaining i - t else w64 (remaining i - t + ov c)) end
             else Some (cur i, prev i + t, remaining i - t)) = Some (cur i, prev i + t, remaining i - t)).
    { destruct (overlap c =? 0); [reflexivity|]. rewrite Hwm. now replace (r + t =? 0) with false by lia. }
    rewrite Hrw. replace (prev i + t =? size x) with true by lia.
    unfold trim. replace (size x =? 0) with false by lia. fold (keep (ov c) (size x)).
    assert (Hgen : forall drop, (drop <= length (queue i))%nat -> (drop <= S (cur i))%nat ->
       ((ov c = 0 /\ skipn drop (queue i) = []) \/
         (exists z, 0 < ov c /\ 0 < z <= hp c /\ Forall (fun x => size x = z) (tr ++ queue i) /\
             let K := keep (ov c) z in let L := Z.of_nat (length (queue i) - drop) in
             L <= K + 1 /\ ((tr = [] /\ drop = 0%nat) \/ K <= L) /\ ((S (cur i) = length (queue i))%nat -> L <= K) /\
             (tot (tr ++ queue i) - z < k * hp c + ov c \/
              (tot (tr ++ queue i) - z <= k * hp c + (r + t) /\ ((tr = [] /\ drop = 0%nat) \/ L = K + 1 \/ (S (cur i) = length (queue i) /\ L = K)))))) ->
       Pos c (tr ++ firstn drop (queue i)) (skipn drop (queue i)) (S (cur i) - drop) 0 k (r + t)).
    { intros drop Hd1 Hd2 Hret. constructor; try lia.
      - rewrite skipn_length. lia.
      - destruct (nth_error (skipn drop (queue i)) (S (cur i) - drop)) as [y|] eqn:Ey; [|reflexivity]. split; [lia|].
        apply nth_error_In in Ey. rewrite Forall_forall in P6. apply P6. apply in_or_app. right. rewrite <- (firstn_skipn drop (queue i)). apply in_or_app. now right.
      - rewrite tot_app. pose proof (tot_firstn_S _ _ _ Ex) as HS.
        assert (Hsplit : firstn (S (cur i)) (queue i) = firstn drop (queue i) ++ firstn (S (cur i) - drop) (skipn drop (queue i))).
        { rewrite <- (firstn_skipn drop (queue i)) at 1. rewrite firstn_app, firstn_length_le by lia. rewrite firstn_all2 by (rewrite firstn_length_le by lia; lia). reflexivity. }
        rewrite Hsplit, tot_app in HS. lia.
      - rewrite <- app_assoc, firstn_skipn. exact P6.
      - rewrite <- app_assoc, firstn_skipn. destruct Hret as [[H1 H2]|(z & H1 & H2 & H3 & H4)]; [left; split; [exact H1|now left]|].
        right. exists z. split; [exact H1|]. split; [exact H2|]. split; [exact H3|]. cbv zeta in *. rewrite skipn_length. destruct H4 as (A1 & A2 & A3 & A4).
        split; [exact A1|]. split; [destruct A2 as [[-> ->]|A2]; [now left|now right]|]. split; [intros E; apply A3; lia|].
        destruct A4 as [A4|[A4 A5]]; [now left|right]. split; [exact A4|]. destruct A5 as [[-> ->]|[A5|[A5 A6]]]; [now left|right; now left|right; right; split; [lia|exact A6]]. }
    set (drop := (length (queue i) - Z.to_nat (keep (ov c) (size x)))%nat).
    assert (Hdrop : (drop <= length (queue i))%nat /\ (drop <= S (cur i))%nat /\
       ((ov c = 0 /\ skipn drop (queue i) = []) \/
         (exists z, 0 < ov c /\ 0 < z <= hp c /\ Forall (fun x => size x = z) (tr ++ queue i) /\
             let K := keep (ov c) z in let L := Z.of_nat (length (queue i) - drop) in
             L <= K + 1 /\ ((tr = [] /\ drop = 0%nat) \/ K <= L) /\ ((S (cur i) = length (queue i))%nat -> L <= K) /\
             (tot (tr ++ queue i) - z < k * hp c + ov c \/
              (tot (tr ++ queue i) - z <= k * hp c + (r + t) /\ ((tr = [] /\ drop = 0%nat) \/ L = K + 1 \/ (S (cur i) = length (queue i) /\ L = K))))))).
    { split; [unfold drop; lia|]. destruct P7 as [[Hov0 Hq1]|(z & Hov1 & Hz & Hsz & HK)].
      - assert (Hc0 : cur i = 0%nat /\ length (queue i) = 1%nat) by (destruct Hq1 as [Hq1|Hq1]; [rewrite Hq1 in Hcur; cbn [length] in Hcur; lia|exact Hq1]).
        assert (Hd1 : drop = 1%nat) by (unfold drop, keep; rewrite Hov0, Z.div_0_l, Z.mod_0_l by lia; cbn [Z.eqb Z.add Z.to_nat]; lia).
        split; [lia|]. left. split; [exact Hov0|]. apply skipn_all2. lia.
      - cbv zeta in HK. destruct HK as (K1 & K2 & K3 & K4). destruct (keep_enough (ov c) z ltac:(lia) ltac:(lia)) as (KE1 & KE2 & KE3).
        assert (Hsx : size x = z) by (rewrite Forall_forall in Hsz; now apply Hsz). unfold drop in *. rewrite Hsx. remember (keep (ov c) z) as K eqn:HKd.
        assert (Hszq : Forall (fun y => size y = z) (queue i)) by (apply Forall_app in Hsz; apply Hsz).
        assert (Htr : tot tr = Z.of_nat (length tr) * z) by (apply tot_eq; apply Forall_app in Hsz; apply Hsz).
        assert (Hall : tot (tr ++ queue i) = Z.of_nat (length tr) * z + Z.of_nat (length (queue i)) * z) by (rewrite tot_app, Htr, (tot_eq z _ Hszq); lia).
        assert (Hlf : length (firstn (cur i) (queue i)) = cur i) by (apply firstn_length_le; lia).
        assert (Htf : tot (firstn (cur i) (queue i)) = Z.of_nat (cur i) * z).
        { rewrite (tot_eq z); [now rewrite Hlf|]. rewrite Forall_forall in *. intros y Hy. apply Hszq. rewrite <- (firstn_skipn (cur i) (queue i)). apply in_or_app. now left. }
        split; [lia|]. right. exists z. split; [exact Hov1|]. split; [exact Hz|]. split; [exact Hsz|]. cbv zeta. rewrite <- HKd.
        split; [lia|]. split; [destruct K2 as [K2|K2]; [destruct (Z.le_gt_cases (Z.of_nat (length (queue i))) K); [left; split; [exact K2|lia]|right; lia]|right; lia]|].
        split; [lia|]. destruct K4 as [K4|[K4 K5]]; [now left|]. right. split; [lia|].
        assert (Hlast : Z.of_nat (cur i) + 1 = Z.of_nat (length (queue i))) by nia.
        destruct (Z.le_gt_cases (Z.of_nat (length (queue i))) K).
        + destruct K5 as [K5|[K5|[K5 _]]]; [left; split; [exact K5|lia]|lia|lia].
        + right. right. lia. }
    destruct Hdrop as (Hd1 & Hd2 & Hd3). specialize (Hgen drop Hd1 Hd2 Hd3).
    replace (S (cur i) <? drop)%nat with false by (symmetry; apply Nat.ltb_ge; exact Hd2).
    eexists _, t, (tr ++ firstn drop (queue i)), k, (r + t). split; [reflexivity|]. cbn [queue cur prev written remaining outv outd].
    split; [exact Ht|]. split; [rewrite <- app_assoc, firstn_skipn; reflexivity|]. split; [exact Hgen|].
    split; [exact Hwm|]. split; [rewrite Hovv; reflexivity|]. split; [rewrite Hod1; reflexivity|]. split; [exact Hfit|]. left. split; [lia|]. split; [reflexivity|]. split; [reflexivity|]. lia.
Qed.

Lemma pos_append : forall c tr q pv k r p, Pos c tr q (length q) pv k r -> 0 < size p ->
  (ov c = 0 \/ exists z, 0 < z <= hp c /\ Forall (fun x => size x = z) (tr ++ q ++ [p])) ->
  0 <= ov c -> Pos c tr (q ++ [p]) (length q) pv k r.
Proof.
  intros c tr q pv k r p [P1 P2 P3 P4 P5 P6 P7] Hp Hfit Hov0.
  assert (Hn : nth_error q (length q) = None) by (apply nth_error_None; lia). rewrite Hn in P2. subst pv.
  rewrite firstn_all in P3.
  constructor; try assumption.
  - rewrite app_length. cbn [length]. lia.
  - rewrite nth_error_app2, Nat.sub_diag by lia. cbn [nth_error]. lia.
  - rewrite firstn_app, Nat.sub_diag, firstn_all. cbn [firstn]. rewrite app_nil_r. exact P3.
  - rewrite app_assoc. apply Forall_app. split; [exact P6|constructor; [exact Hp|constructor]].
  - destruct P7 as [[H0 H1]|(z & H1 & H2 & H3 & H4)].
    + left. split; [exact H0|]. right. destruct H1 as [->|[H1 H1']]; [split; reflexivity|lia].
    + right. destruct Hfit as [?|(z' & Hz' & Hall)]; [lia|].
      exists z'. split; [exact H1|]. split; [exact Hz'|]. rewrite app_assoc in Hall |- *. split; [exact Hall|].
      assert (Hzz : (tr ++ q = [] \/ z = z')%list).
      { apply Forall_app in Hall. destruct Hall as [Hall _]. destruct (tr ++ q) as [|y l]; [now left|right]. inversion H3; inversion Hall; subst. congruence. }
      assert (Htp : size p = z') by (apply Forall_app in Hall; destruct Hall as [_ Hall]; now inversion Hall).
      cbv zeta in *. rewrite !app_length. cbn [length]. rewrite <- app_assoc. rewrite !tot_app, tot_cons, tot_nil.
      destruct (keep_enough (ov c) z' Hov0 ltac:(lia)) as (KE1 & KE2 & KE3). specialize (KE3 H1).
      destruct Hzz as [Hzz|<-].
      * apply app_eq_nil in Hzz. destruct Hzz as [-> ->]. cbn [length]. rewrite tot_nil in *. split; [lia|]. split; [now left|]. split; [lia|]. right. split; [lia|now left].
      * destruct H4 as (A1 & A2 & A3 & A4). specialize (A3 eq_refl). split; [lia|]. split; [destruct A2; [now left|right; lia]|]. split; [lia|].
        right. split; [lia|]. destruct A2 as [A2|A2]; [now left|right; left; lia].
Qed.
