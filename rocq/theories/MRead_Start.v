(** How a multi reader begins. *)
From Coq Require Import List Bool ZArith Lia.
From Verif Require Import MRead_Model MRead_Spec MRead_Proofs.
Import ListNotations.
Open Scope Z_scope.

(** Packets that arrive before the first call. *)
Definition is_push (o : op) : Prop := exists i p, o = Push i p.
Lemma pushes_state : forall c h r r' xs, Forall is_push h -> run c h r = (r', xs) ->
  cstart r' = cstart r /\ length (sigs r') = length (sigs r) /\
  forall i s, nth_error (sigs r) i = Some s -> nth_error (sigs r') i = Some (with_read s (q s ++ of_signal i (arrived h)) (cur s) (idx s)).
Proof.
  intros c. induction h as [|o h IH]; intros r r' xs F E.
  - cbn in E. injection E as <- <-. split; [reflexivity|]. split; [reflexivity|]. intros i s H. rewrite H. cbn. rewrite app_nil_r. destruct s. reflexivity.
  - inversion F as [|? ? (i & p & ->) F']; subst. cbn [run step] in E. destruct (run c h (push r (i, p))) as [r2 ys] eqn:E2. injection E as <- <-.
    destruct (IH _ _ _ F' E2) as (I1 & I2 & I3). split; [exact I1|].
    assert (L : forall f ss j, length (at_sig j f ss) = length ss).
    { intros f ss. induction ss as [|s ss IHs]; intros [|j]; cbn; auto. }
    split. { rewrite I2. cbn. apply L. }
    intros j s H.
    assert (N : forall f ss k j s, nth_error ss j = Some s -> nth_error (at_sig k f ss) j = Some (if Nat.eqb k j then f s else s)).
    { intros f ss. induction ss as [|s0 ss IHs]; intros [|k] [|j0] s1 H1; cbn in *; try discriminate; try (injection H1 as <-; reflexivity); try exact H1.
      exact (IHs _ _ _ H1). }
    pose proof (N (fun s => with_read s (q s ++ [p]) (cur s) (idx s)) _ i j s H) as K.
    specialize (I3 j _ K). rewrite I3. cbn [arrived flat_map arrivals app]. change (flat_map arrivals h) with (arrived h). rewrite of_signal_cons.
    destruct (Nat.eqb i j); cbn [q cur idx with_read]; [rewrite <- app_assoc; reflexivity|reflexivity].
Qed.
Lemma pushes_RI : forall D G ss c h, Forall is_push h -> forall r gs mon r' xs, RI D G ss r gs mon ->
  future ss (map ge gs) (arrived h) -> run c h r = (r', xs) -> exists gs', RI D G ss r' gs' mon.
Proof.
  intros D G ss c. induction h as [|o h IH]; intros F r gs mon r' xs H Fu E.
  - cbn in E. injection E as <- <-. eauto.
  - inversion F as [|? ? (i & p & ->) F']; subst. cbn [run step] in E. destruct (run c h (push r (i, p))) as [r2 ys] eqn:E2. injection E as <- <-.
    destruct (push_RI D G ss r gs mon i p (arrived h) H Fu) as (g1 & H1 & F1 & _). exact (IH F' _ _ _ _ _ H1 F1 E2).
Qed.

Definition is_data (p : pkt) : Prop := exists x c, p = Data x c /\ 0 < c.
Definition total (ps : list pkt) : Z := fold_right (fun p n => match p with Data _ c => c + n | _ => n end) 0 ps.
Lemma until_total : forall ps, Forall is_data ps -> 0 <= until_event false ps.
Proof. induction 1 as [|p ps (x & c & -> & H) F IH]; cbn [until_event]; lia. Qed.
Lemma until_is_total : forall ps, Forall is_data ps -> until_event false ps = total ps.
Proof. induction 1 as [|p ps (x & c & -> & H) F IH]; cbn [until_event total fold_right]; [reflexivity|]. fold (total ps). lia. Qed.
Lemma sync_loop_found : forall d t, 0 < d -> forall ps a c, Forall is_data ps -> without_holes d (Some (a + d * c)) ps ->
  0 < c -> a - d < t -> t + d <= a + d * (c + total ps) ->
  exists ps' a' c' i, sync_loop d t a c ps = (ps', Some (a', c'), i, false) /\ 0 <= i < c' /\ Forall is_data ps'
   /\ a' + d * i < t + d /\ a' + d * (c' + total ps') = a + d * (c + total ps).
Proof.
  intros d t Hd. induction ps as [|p ps IH]; intros a c F W Hc Ha Hb; cbn [sync_loop];
    (destruct (offset_ok d t a c Hd ltac:(lia) Ha) as [(K & K2)|(K & K2)];
     [rewrite K; replace (-1 =? -1) with true by reflexivity|
      replace (offset_to d t a c =? -1) with false by (symmetry; apply Z.eqb_neq; lia); do 4 eexists; split; [reflexivity|]; split; [exact K|]; split; [exact F|]; split; [lia|reflexivity]]).
  - exfalso. cbn in Hb. nia.
  - inversion F as [|? ? (x & c1 & -> & H1) F']; subst. cbn [without_holes] in W. destruct W as (_ & [W|W] & W'); [discriminate|]. injection W as <-.
    cbn [total fold_right] in Hb |- *. fold (total ps) in Hb |- *.
    destruct (IH (a + d * c) c1 F' W' H1 ltac:(nia) ltac:(nia)) as (ps' & a' & c' & i & Q1 & Q2 & Q3 & Q4 & Q5).
    exists ps', a', c', i. split; [exact Q1|]. split; [exact Q2|]. split; [exact Q3|]. split; [exact Q4|]. rewrite Q5. ring.
Qed.
Lemma collect_map : forall ss i, fst (fst (collect i ss)) = map (fun s => fst (until_data s)) ss.
Proof.
  induction ss as [|s ss IH]; intros i; cbn [collect map]; [reflexivity|]. specialize (IH (S i)).
  destruct (until_data s) as [s1 e]. destruct (collect (S i) ss) as [[ss1 es] b]. cbn in *. rewrite IH. reflexivity.
Qed.
Lemma min_avail_pos : forall ss m, 0 < m -> (forall s, In s ss -> used s = true -> cur s <> None /\ 0 < available false s) -> 0 < min_avail m ss.
Proof.
  induction ss as [|s ss IH]; intros m Hm H; cbn [min_avail]; [exact Hm|].
  assert (H' : forall s, In s ss -> used s = true -> cur s <> None /\ 0 < available false s) by (intros s' I; apply H; right; exact I).
  destruct (used s) eqn:U; [|exact (IH _ Hm H')]. destruct (H s ltac:(left; reflexivity) U) as (C & A).
  destruct (cur s) as [x|]; [|congruence].
  destruct (available false s <? m); [|exact (IH _ Hm H')].
  replace (available false s =? 0) with false by (symmetry; apply Z.eqb_neq; lia). exact (IH _ A H').
Qed.
Lemma min_avail_least : forall n ss m, 0 < n <= m -> (forall s, In s ss -> used s = true -> cur s <> None /\ n <= available false s) -> n <= min_avail m ss.
Proof.
  intros n. induction ss as [|s ss IH]; intros m Hm H; cbn [min_avail]; [lia|].
  assert (H' : forall s, In s ss -> used s = true -> cur s <> None /\ n <= available false s) by (intros s' I; apply H; right; exact I).
  destruct (used s) eqn:U; [|exact (IH _ Hm H')]. destruct (H s ltac:(left; reflexivity) U) as (C & A).
  destruct (cur s) as [x|]; [|congruence].
  destruct (available false s <? m); [|exact (IH _ Hm H')].
  replace (available false s =? 0) with false by (symmetry; apply Z.eqb_neq; lia). apply IH; [lia|exact H'].
Qed.
Lemma domain_start_one : forall ss c y, domain_start c ss = Some y ->
  c = Some y \/ exists s, In s ss /\ used s = true /\ y = match cur s with Some (a, _) => a + delta s * idx s | None => 0 end.
Proof.
  induction ss as [|s ss IH]; intros c y E; cbn [domain_start] in E; [left; exact E|].
  destruct (used s) eqn:U.
  - destruct (IH _ _ E) as [K|(s' & I & U' & K)]; [|right; exists s'; split; [right; exact I|auto]].
    destruct c as [x|].
    + destruct (x <? _); injection K as K; [right; exists s; split; [left; reflexivity|auto]|left; congruence].
    + injection K as K. right. exists s. split; [left; reflexivity|auto].
  - destruct (IH _ _ E) as [K|(s' & I & U' & K)]; [left; exact K|right; exists s'; split; [right; exact I|auto]].
Qed.
Lemma round_up_first : forall g m T, 0 < g -> 0 <= m -> first_multiple g m T -> round_up g m = T.
Proof.
  intros g m T Hg Hm ((k & ->) & H1 & H2). unfold round_up. rewrite Z.quot_div_nonneg by lia. f_equal.
  symmetry. apply (Z.div_unique_pos _ _ _ (m + g - 1 - g * k)); lia.
Qed.
Lemma run_done : forall c h r r' xs, Forall is_push h -> run c h r = (r', xs) -> forall x, In x xs -> x = Done.
Proof.
  intros c. induction h as [|o h IH]; intros r r' xs F E x I.
  - cbn in E. injection E as <- <-. contradiction.
  - inversion F as [|? ? (i & p & ->) F']; subst. cbn [run step] in E. destruct (run c h (push r (i, p))) as [r2 ys] eqn:E2. injection E as <- <-.
    destruct I as [<-|I]; [reflexivity|exact (IH _ _ _ F' E2 _ I)].
Qed.

Section Start.
Variable D : Z. Hypothesis HD : 0 < D.
Variable G : Z. Hypothesis HG : 0 < G.
Variable T : Z.
(** A signal that has just read its descriptor. *)
Definition begun (a b : Z) (s : sig) : Prop :=
  used s = true /\ 0 < divi s /\ 0 < delta s /\ st s = Unsync /\ idx s = 0 /\ exists c, cur s = Some (a, c) /\ 0 < c /\ Forall is_data (q s)
  /\ without_holes (delta s) (Some (a + delta s * c)) (q s) /\ b = a + delta s * (c + total (q s)).
Lemma begun_avail : forall a b s, begun a b s -> cur s <> None /\ 0 < available false s.
Proof.
  intros a b s (_ & H1 & _ & _ & H3 & c & H4 & H5 & H6 & _). unfold available. rewrite H4, H3. split; [discriminate|].
  pose proof (until_total _ H6). nia.
Qed.
Lemma begun_sync : forall a b s, begun a b s -> a <= T -> T + delta s <= b ->
  st (sync_one T s) = Synced /\ used (sync_one T s) = true /\ cur (sync_one T s) <> None /\ 0 < available false (sync_one T s)
  /\ divi (sync_one T s) = divi s /\ forall j, T + delta s + delta s * j <= b -> j * divi s <= available false (sync_one T s).
Proof.
  intros a b s (H0 & H1 & H2 & H2' & H3 & c & H4 & H5 & H6 & H7 & H8) Ha Hb. unfold sync_one. rewrite H2'. unfold first_event. rewrite H4, H4.
  destruct (sync_loop_found (delta s) T H2 (q s) a c H6 H7 H5 ltac:(lia) ltac:(lia)) as (ps & a1 & c1 & i & E & Hi & F & Lt & Eb).
  rewrite E. replace (i =? -1) with false by (symmetry; apply Z.eqb_neq; lia). cbn. split; [reflexivity|]. split; [exact H0|]. split; [discriminate|].
  pose proof (until_total _ F). unfold available. cbn. split; [nia|]. split; [reflexivity|].
  intros j Hj. rewrite (until_is_total _ F) in *. apply Z.mul_le_mono_nonneg_r; [lia|]. rewrite H8, <- Eb in Hj. nia.
Qed.
Lemma sync_begun : forall c r, grid c = Some G -> cstart r = None -> sigs r <> [] -> forall m, 0 <= m -> first_multiple G m T ->
  (forall s, In s (sigs r) -> exists a b, begun a b s /\ a <= m /\ T + delta s <= b) ->
  (exists s b, In s (sigs r) /\ begun m b s) ->
  exists k, synchronize c r = (with_start (with_sigs r (map (on_used (sync_one T)) (sigs r))) (Some T), k, Synced, VOk)
   /\ all_in Synced (map (on_used (sync_one T)) (sigs r)) /\ 0 < min_samples (map (on_used (sync_one T)) (sigs r)).
Proof.
  intros c r Hc Hs Hne m Hm HT Hall Hmax.
  assert (Tm : m <= T) by (apply HT).
  assert (Uns : sync_status (sigs r) = Unsync).
  { unfold sync_status. pose proof (status_cases (sigs r) Unsync) as K. destruct (status Unsync (sigs r)); [reflexivity| |].
    - destruct K as (_ & [K|(s & I & U & K)]); [discriminate|]. destruct (Hall s I) as (a & b & (_ & _ & _ & X & _) & _). congruence.
    - destruct (sigs r) as [|s rest]; [congruence|]. destruct (Hall s ltac:(left; reflexivity)) as (a & b & (U & _ & _ & X & _) & _).
      assert (st s = Synced) by (apply (proj1 K); [left; reflexivity|exact U]). congruence. }
  assert (Pos : 0 < min_samples (sigs r)).
  { apply min_avail_pos; [reflexivity|]. intros s I _. destruct (Hall s I) as (a & b & B & _). exact (begun_avail _ _ _ B). }
  assert (Al : forall s, In s (map (on_used (sync_one T)) (sigs r)) -> st s = Synced /\ cur s <> None /\ 0 < available false s).
  { intros s I. apply in_map_iff in I. destruct I as (s0 & <- & I). destruct (Hall s0 I) as (a & b & B & A1 & A2). unfold on_used. rewrite (proj1 B).
    destruct (begun_sync a b s0 B ltac:(lia) A2) as (X1 & X2 & X3 & X4 & _). auto. }
  assert (Pos2 : 0 < min_samples (map (on_used (sync_one T)) (sigs r))).
  { apply min_avail_pos; [reflexivity|]. intros s I _. destruct (Al s I) as (_ & X). exact X. }
  assert (Syn : sync_status (map (on_used (sync_one T)) (sigs r)) = Synced).
  { unfold sync_status. pose proof (status_cases (map (on_used (sync_one T)) (sigs r)) Unsync) as K. destruct (status Unsync (map (on_used (sync_one T)) (sigs r))); [| |reflexivity].
    - destruct K as [(s & I & U & K)|(K & _)]; [destruct (Al s I); congruence|]. exfalso.
      destruct (sigs r) as [|s rest]; [congruence|]. specialize (K (on_used (sync_one T) s) ltac:(left; reflexivity)).
      destruct (Hall s ltac:(left; reflexivity)) as (a & b & B & A1 & A2). unfold on_used in K. rewrite (proj1 B) in K.
      destruct (begun_sync a b s B ltac:(lia) A2) as (_ & X2 & _). congruence.
    - destruct K as (_ & [K|(s & I & U & K)]); [discriminate|]. destruct (Al s I); congruence. }
  exists (min_samples (map (on_used (sync_one T)) (sigs r))). split; [|split; [|exact Pos2]].
  2:{ intros s I _. apply Al. exact I. }
  unfold synchronize. rewrite Uns. replace (min_samples (sigs r) =? 0) with false by (symmetry; apply Z.eqb_neq; lia).
  assert (I1 : map (on_used (fun s => fst (first_event s))) (sigs r) = sigs r).
  { rewrite <- (map_id (sigs r)) at 2. apply map_ext_in. intros s I. destruct (Hall s I) as (a & b & (_ & _ & _ & _ & _ & k & Q & _) & _).
    unfold on_used. destruct (used s); [|reflexivity]. unfold first_event. rewrite Q. reflexivity. }
  rewrite I1.
  assert (I2 : map (on_used (fun s => with_st s Unsync)) (sigs r) = sigs r).
  { rewrite <- (map_id (sigs r)) at 2. apply map_ext_in. intros s I. destruct (Hall s I) as (a & b & (_ & _ & _ & Q & _) & _).
    unfold on_used. destruct (used s); [|reflexivity]. rewrite <- Q. destruct s. reflexivity. }
  assert (I3 : with_sigs r (sigs r) = r) by (destruct r; reflexivity).
  rewrite I3. cbv beta zeta. rewrite I2, I3, Hs, Hc.
  assert (DS : domain_start None (sigs r) = Some m).
  { destruct Hmax as (s & b & I & B).
    destruct (proj2 (domain_start_ok (sigs r) None) s I (proj1 B)) as (y & E & Hy). rewrite E. f_equal.
    destruct B as (_ & _ & _ & _ & B3 & k & B4 & _). rewrite B4, B3 in Hy.
    destruct (domain_start_one _ _ _ E) as [K|(s' & I' & U' & K)]; [discriminate|].
    destruct (Hall s' I') as (a & b' & (_ & _ & _ & _ & C3 & k' & C4 & _) & A1 & _). rewrite C4, C3 in K. lia. }
  rewrite DS. rewrite (round_up_first G m T HG Hm HT). unfold sync_all. cbn [sigs with_sigs with_start]. rewrite Syn. reflexivity.
Qed.
End Start.

Theorem starts : forall D G ss c h rs r xs m T n,
  0 < G -> matched D ss -> (forall u k d, In (u, k, d) ss -> u = true) -> grid c = Some G -> min_read c <= 1 ->
  (forall o, In o h -> exists i p, o = Push i p) -> accepted h ->
  length rs = length ss ->
  (forall i k d a b, nth_error ss i = Some (true, k, d) -> nth_error rs i = Some (a, b) ->
     recording d a b (of_signal i (arrived h)) /\ T + d <= b) ->
  latest (map fst rs) m -> 0 <= m -> first_multiple G m T ->
  run c h (fresh ss) = (r, xs) -> 0 <= n ->
  exists r1 w evs, step c (Read false false n None) r = (r1, Got 0 w Mine evs true) /\ evs <> []
   /\ (forall y, In y w -> y = [])
   /\ forall n2, 0 < n2 -> (forall k d, In (true, k, d) ss -> (k | n2)) ->
      exists r2 got w2, step c (Read false false n2 None) r1 = (r2, Got got w2 Mine [] true) /\ 0 < got <= n2
      /\ (n2 < 2 ^ 64 -> (forall i k d a b, nth_error ss i = Some (true, k, d) -> nth_error rs i = Some (a, b) -> T + d + D * n2 <= b) ->
          got = n2)
      /\ ((forall k d, In (true, k, d) ss -> (k | got)) -> exists ts nx, piece got T ss ts w2 nx).
Proof.
  intros D G ss c h rs r xs m T n HG HM Hall Hc Hmr Hp Ac HL Hrec (Hin & Hmax) Hm HT E Hn.
  pose proof HM as (HD & HU & HK).
  assert (FP : Forall is_push h) by (apply Forall_forall; exact Hp).
  assert (Rec : forall i u k d, nth_error ss i = Some (u, k, d) -> exists a b, nth_error rs i = Some (a, b) /\ recording d a b (of_signal i (arrived h)) /\ a <= m /\ T + d <= b).
  { intros i u k d Q. assert (u = true) as -> by (apply (Hall u k d); eapply nth_error_In; exact Q).
    destruct (nth_error rs i) as [[a b]|] eqn:ER.
    - exists a, b. destruct (Hrec _ _ _ _ _ Q ER) as (R1 & R2). split; [reflexivity|]. split; [exact R1|]. split; [|exact R2].
      apply Hmax. change a with (fst (a, b)). apply in_map. eapply nth_error_In. exact ER.
    - apply nth_error_None in ER. assert (i < length ss)%nat by (apply nth_error_Some; congruence). lia. }
  assert (Sd : steady ss h).
  { intros i k d Q. destruct (Rec _ _ _ _ Q) as (a & b & _ & (nl & ds & -> & _ & _ & _ & W & _) & _). exact W. }
  destruct (pushes_RI D G ss c h FP (fresh ss) _ None r xs (fresh_RI D G ss HM) (fresh_future ss h Sd Ac) E) as (gs & H).
  destruct (pushes_state c h (fresh ss) r xs FP E) as (Cs & Ls & Ns).
  assert (Hi : inval r = false) by apply H. assert (Hx : nextev r = false) by apply H.
  (* the signals after their descriptors were read *)
  assert (Beg : forall i u k d, nth_error ss i = Some (u, k, d) -> exists a b s, nth_error rs i = Some (a, b) /\ nth_error (sigs r) i = Some s /\
     begun a b (fst (until_data s)) /\ snd (until_data s) = Some NDesc /\ delta s = d /\ delta (fst (until_data s)) = d /\ a <= m /\ T + d <= b).
  { intros i u k d Q. assert (u = true) as -> by (apply (Hall u k d); eapply nth_error_In; exact Q).
    destruct (Rec _ _ _ _ Q) as (a & b & ER & (nl & ds & Eq & _ & Dd & (c0 & ds' & ->) & W & Eb) & A1 & A2).
    pose proof (Ns i (mkSig true k d [] None 0 Unsync false)) as Ni.
    specialize (Ni (map_nth_error (fun x : shape => mkSig (fst (fst x)) (snd (fst x)) (snd x) [] None 0 Unsync false) i ss Q)). cbn [q cur idx app] in Ni.
    destruct (HK _ _ _ (nth_error_In _ _ Q)) as (K1 & K2).
    eexists a, b, _. split; [exact ER|]. split; [exact Ni|]. rewrite Eq. split; [|repeat split; auto].
    unfold until_data, first_event. cbn. split; [reflexivity|]. cbn. split; [exact K1|]. split; [nia|]. split; [reflexivity|]. split; [reflexivity|].
    exists c0. split; [reflexivity|]. cbn [without_holes] in W. destruct W as (_ & _ & W).
    destruct (Dd (Data a c0) ltac:(left; reflexivity)) as (x & c1 & Ex & Hc1). injection Ex as <- <-. split; [exact Hc1|].
    split; [apply Forall_forall; intros p I; apply Dd; right; exact I|]. split; [exact W|]. rewrite Eb. reflexivity. }
  assert (Sh : map shape_of (sigs r) = ss) by apply H.
  destruct (collect 0 (sigs r)) as [[ss1 es] bb] eqn:EC.
  assert (E1 : ss1 = map (fun s => fst (until_data s)) (sigs r)) by (pose proof (collect_map (sigs r) 0) as K; rewrite EC in K; exact K).
  set (l := divs_lcm (sigs r)).
  set (r0 := prepare (with_call r) (n / l * l) (Some (calls r + 1))).
  assert (H0 : RI D G ss r0 gs None) by exact H.
  destruct (collect_RI D G ss r0 gs None H0 ss1 es bb EC) as (-> & g1 & mon1 & G1 & H1 & _).
  assert (Nth : forall s, In s ss1 -> exists a b i k d, nth_error ss i = Some (true, k, d) /\ nth_error rs i = Some (a, b) /\ begun a b s /\ a <= m /\ T + delta s <= b /\ delta s = d).
  { intros s I. rewrite E1 in I. apply in_map_iff in I. destruct I as (s0 & <- & I). apply In_nth_error in I. destruct I as (i & I).
    assert (Q : nth_error ss i = Some (shape_of s0)) by (rewrite <- Sh, nth_error_map, I; reflexivity).
    destruct (shape_of s0) as [[u k] d] eqn:ESh. destruct (Beg i u k d Q) as (a & b & s1 & R1 & R2 & R3 & R4 & R5 & R5' & R6 & R7).
    assert (s1 = s0) as -> by congruence. exists a, b, i, k, d. assert (u = true) as -> by (apply (Hall u k d); eapply nth_error_In; exact Q).
    split; [exact Q|]. split; [exact R1|]. split; [exact R3|]. split; [exact R6|]. rewrite R5'. split; [exact R7|reflexivity]. }
  assert (Hes : es <> []).
  { destruct HU as (k & d & rest & Ess). destruct (Beg O true k d ltac:(rewrite Ess; reflexivity)) as (a & b & s & R1 & R2 & R3 & R4 & _).
    destruct (sigs r) as [|s' rest']; [discriminate|]. cbn in R2. injection R2 as ->. cbn [collect] in EC.
    destruct (until_data s) as [s1 e]. cbn in R4. subst e. destruct (collect 1 rest') as [[? ?] ?]. injection EC as _ <- _. discriminate. }
  assert (Ne : ss1 <> []).
  { rewrite E1. destruct HU as (k & d & rest & Ess). rewrite Ess in Sh. destruct (sigs r); [discriminate|cbn; discriminate]. }
  destruct (sync_begun G HG T c (with_sigs r0 ss1) Hc Cs Ne m Hm HT) as (k & ES & Al & Pos).
  { intros s I. destruct (Nth s I) as (a & b & _ & _ & _ & _ & _ & B & A1 & A2 & _). eauto. }
  { apply in_map_iff in Hin. destruct Hin as ([a b] & Ea & I). cbn in Ea. subst a. apply In_nth_error in I. destruct I as (i & I).
    destruct (nth_error ss i) as [[[u k] d]|] eqn:Q.
    - destruct (Beg i u k d Q) as (a & b' & s & R1 & R2 & R3 & _). assert (X : (a, b') = (m, b)) by congruence. injection X as -> ->.
      exists (fst (until_data s)), b. split; [|exact R3]. cbn [sigs with_sigs]. rewrite E1. apply (in_map (fun s => fst (until_data s))). eapply nth_error_In. exact R2.
    - apply nth_error_None in Q. assert (i < length rs)%nat by (apply nth_error_Some; congruence). lia. }
  cbn [sigs with_sigs] in ES, Al, Pos.
  set (S2 := map (on_used (sync_one T)) ss1) in *.
  set (r1 := with_start (with_sigs (with_sigs r0 ss1) S2) (Some T)) in *.
  assert (RS : forall z, read_sync c z r0 = (r1, k, Synced, Some (Got 0 (none S2) Mine es true))).
  { intros z. unfold read_sync. change (sigs r0) with (sigs r). rewrite EC. change (inval r0) with (inval r). rewrite Hi. cbn [orb].
    replace (with_inval (with_sigs r0 ss1) false) with (with_sigs r0 ss1) by (unfold with_inval, with_sigs; cbn; rewrite Hi; reflexivity).
    rewrite ES. destruct es as [|e es]; [congruence|]. 
    unfold target. cbn [buf calls r1 with_start with_sigs r0 prepare with_call sigs inval]. rewrite Z.eqb_refl. rewrite Hi. reflexivity. }
  assert (H2 : exists g2, RI D G ss r1 g2 mon1).
  { destruct (synchronize_RI D HD G HG ss HU c (with_sigs r0 ss1) g1 mon1 Hc H1 _ _ _ _ ES) as (_ & _ & _ & _ & _ & g2 & _ & K). eauto. }
  destruct H2 as (g2 & H2).
  assert (mon1 = None) as ->.
  { destruct mon1 as [[T1 ts1]|]; [|reflexivity]. exfalso. destruct H1 as (_ & _ & _ & C & nn & _ & _ & _ & _ & _ & (_ & _ & A)).
    destruct ss1 as [|s rest]; [congruence|]. destruct (Nth s ltac:(left; reflexivity)) as (a & b & _ & _ & _ & _ & _ & (U & _ & _ & X & _) & _).
    specialize (A s ltac:(left; reflexivity) U). congruence. }
  exists r1, (none S2), es. split.
  { cbn [step]. unfold do_read. replace (negb (n =? 0) && (false || (n <? min_read c))) with false.
    2:{ symmetry. cbn [orb]. destruct (n =? 0) eqn:E0; [reflexivity|]. apply Z.eqb_neq in E0. cbn [negb andb]. apply Z.ltb_ge. lia. }
    cbn [nextev with_call]. rewrite Hx. cbn [inval with_call]. rewrite Hi. cbn [andb sigs with_call]. fold l. cbn [calls with_call]. fold r0.
    unfold read_packets. unfold read_rest. rewrite RS. cbn [set_count fold_left]. cbn [want r1 with_start with_sigs r0 prepare].
    rewrite Z.sub_diag. reflexivity. }
  split; [exact Hes|]. split; [intros y I; exact (none_empty _ _ I)|].
  intros n2 Hn2 Hdiv.
  assert (Us : forall s, In s (sigs r1) -> used s = true).
  { intros s I. destruct H2 as (Sh2 & _). assert (K : In (shape_of s) ss) by (rewrite <- Sh2; apply in_map; exact I). exact (Hall _ _ _ K). }
  assert (Dv : (divs_lcm (sigs r1) | n2)).
  { assert (K : forall s, In s (sigs r1) -> (divi s | n2)).
    { intros s I. destruct H2 as (Sh2 & _). apply (Hdiv (divi s) (delta s)). rewrite <- Sh2. rewrite <- (Us s I). exact (in_map shape_of _ _ I). }
    clear - K Us. revert K Us. generalize (sigs r1). intros sl. induction sl as [|s sl IH]; intros K Us; cbn [divs_lcm]; [exists n2; lia|].
    rewrite (Us s ltac:(left; reflexivity)). apply Z.lcm_least; [apply K; left; reflexivity|]. apply IH; intros x I; [apply K|apply Us]; right; exact I. }
  assert (Lp : 0 < divs_lcm (sigs r1)) by (destruct H2 as (_ & _ & _ & C & nn & _ & _ & F & _); exact (lcm_pos _ _ _ _ _ F)).
  destruct Dv as (qq & Eq2).
  assert (Eqq : n2 / divs_lcm (sigs r1) = qq) by (rewrite Eq2; apply Z.div_mul; lia).
  destruct (read_now_call D HD G ss HU c r1 g2 None n2 Hc H2 Us Al Pos ltac:(lia) ltac:(rewrite Eqq; nia)) as (r2 & w2 & R & WP & C2).
  rewrite Eqq, <- Eq2 in R, WP. exists r2, (Z.min n2 (min_samples (sigs r1))), w2. split.
  { cbn [step]. rewrite R. reflexivity. }
  split; [change (sigs r1) with S2 in *; lia|].
  split.
  { intros Hn64 Hlong. apply Z.min_l. change (sigs r1) with S2. unfold min_samples. apply min_avail_least; [unfold size_max; lia|].
    intros s I _. apply in_map_iff in I. destruct I as (s0 & <- & I). destruct (Nth s0 I) as (a & b & i & k0 & d & Q1 & Q2 & B & A1 & A2 & Ed).
    unfold on_used. rewrite (proj1 B).
    destruct (begun_sync T a b s0 B ltac:(destruct HT as (? & ?); lia) A2) as (_ & _ & X3 & _ & X5 & X6). split; [exact X3|].
    assert (Hd : delta s0 = D * divi s0 /\ In (true, divi s0, delta s0) ss).
    { destruct H1 as (Sh1 & _). cbn [sigs with_sigs] in Sh1. assert (K : In (shape_of s0) ss) by (rewrite <- Sh1; apply in_map; exact I).
      unfold shape_of in K. rewrite (proj1 B) in K. split; [exact (proj2 (HK _ _ _ K))|exact K]. }
    destruct Hd as (Hd & Kin). destruct (Hdiv _ _ Kin) as (j & Ej).
    specialize (Hlong _ _ _ _ _ Q1 Q2). rewrite <- Ed in Hlong. rewrite Ej. apply X6. rewrite Hd at 2. nia. }
  intros Wh. destruct (WP Wh) as (T' & ts & nx & gs' & [K|(_ & _ & K)] & P & _); [discriminate|].
  rewrite C2 in K. cbn in K. injection K as <-. exists ts, nx. exact P.
Qed.
