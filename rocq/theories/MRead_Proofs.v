From Coq Require Import List Bool ZArith Lia Znumtheory.
From Verif Require Import MRead_Model MRead_Spec.
Import ListNotations.
Open Scope Z_scope.

(* ---------- small things ---------- *)
Lemma map_seq_every : forall n d t j, map (fun k => t + d * Z.of_nat k) (seq j n) = every d (t + d * Z.of_nat j) n.
Proof.
  induction n as [|n IH]; intros d t j; cbn [seq map every]; [reflexivity|].
  f_equal. rewrite IH. f_equal. lia.
Qed.
Lemma ticks_every : forall d t n, ticks d t n = every d t (Z.to_nat n).
Proof. intros d t n. unfold ticks. rewrite map_seq_every. f_equal. lia. Qed.
Lemma every_app : forall m n d t, every d t (m + n) = every d t m ++ every d (t + d * Z.of_nat m) n.
Proof.
  induction m as [|m IH]; intros n d t.
  - cbn [every Nat.add app]. f_equal. lia.
  - cbn [every Nat.add app]. rewrite IH. do 2 f_equal. f_equal. lia.
Qed.
Lemma round_up_ge : forall g v, 0 < g -> v <= round_up g v.
Proof.
  intros g v Hg. unfold round_up.
  pose proof (Z.quot_rem' (v + g - 1) g) as Q.
  destruct (Z_le_gt_dec 0 (v + g - 1)) as [H|H].
  - pose proof (Z.rem_bound_pos (v + g - 1) g H Hg). lia.
  - pose proof (Z.rem_nonpos (v + g - 1) g ltac:(lia) ltac:(lia)). lia.
Qed.
Lemma round_up_grid : forall g v, (g | round_up g v).
Proof. intros g v. exists (Z.quot (v + g - 1) g). reflexivity. Qed.

Fixpoint linked (d : Z) (p : option Z) (ps : list pkt) (e : option Z) : Prop :=
  match ps with
  | [] => p = e
  | Data a c :: ps => 0 <= c /\ (p = None \/ p = Some a) /\ linked d (Some (a + d * c)) ps e
  | _ :: ps => linked d None ps e
  end.
Definition okp (p : pkt) : Prop := match p with Desc _ ok => ok = true | _ => True end.
Definition tail (d : Z) (e : option Z) (p : pkt) : option Z :=
  match p with Data a c => Some (a + d * c) | _ => None end.
Lemma linked_snoc : forall d ps p e x, linked d p ps e -> without_holes d e [x] -> linked d p (ps ++ [x]) (tail d e x).
Proof.
  intros d. induction ps as [|y ps IH]; intros p e x H W.
  - cbn in H. subst p. destruct x as [a c|nl ok|]; cbn in *; intuition.
  - destruct y as [a c|nl ok|]; cbn [linked app] in *.
    + destruct H as (H1 & H2 & H3). split; [exact H1|split; [exact H2|]]. exact (IH _ _ _ H3 W).
    + exact (IH _ _ _ H W).
    + exact (IH _ _ _ H W).
Qed.
Lemma linked_until : forall d ps p e, linked d p ps e -> 0 <= until_event false ps.
Proof.
  intros d. induction ps as [|y ps IH]; intros p e H; cbn [until_event]; [lia|].
  destruct y as [a c|nl ok|]; [|lia|lia].
  cbn in H. destruct H as (H1 & _ & H3). pose proof (IH _ _ H3). lia.
Qed.

(* ---------- one signal ---------- *)
Definition ghost := (option Z * option Z * Z)%type.
Definition ge (g : ghost) := fst (fst g).
Definition gp (g : ghost) := snd (fst g).
Definition gt (g : ghost) := snd g.
Definition held (s : sig) (p : option Z) : Prop :=
  match cur s with Some (a, c) => 0 <= idx s <= c /\ p = Some (a + delta s * c) | None => True end.
Definition pos (s : sig) (p : option Z) : option Z :=
  match cur s with Some (a, _) => Some (a + delta s * idx s) | None => p end.

Section Inv.
Variable D : Z.
Hypothesis HD : 0 < D.

Definition SS (C n : Z) (g : ghost) (s : sig) : Prop :=
  match st s with
  | Synced => pos s (gp g) = Some (gt g) /\ C + D * n <= gt g < C + D * n + delta s
  | Syncing => pos s (gp g) = Some (gt g) /\ gt g - delta s < C
  | Unsync => True
  end.
Definition SB (g : ghost) (s : sig) : Prop :=
  bad s = false /\ Forall okp (q s) /\ 0 < divi s /\ delta s = D * divi s
  /\ (used s = true -> linked (delta s) (gp g) (q s) (ge g) /\ held s (gp g)).
Definition SI (C n : Z) (g : ghost) (s : sig) : Prop := SB g s /\ (used s = true -> SS C n g s).
Definition shape_of (s : sig) : shape := (used s, divi s, delta s).

Lemma delta_pos : forall C n g s, SI C n g s -> 0 < delta s.
Proof. intros C n g s ((_ & _ & H1 & H2 & _) & _). rewrite H2. nia. Qed.

Lemma avail_nonneg : forall C n g s, SI C n g s -> used s = true -> 0 <= available false s.
Proof.
  intros C n g s ((_ & _ & H1 & H2 & H3) & _) U. destruct (H3 U) as (L & Hh).
  unfold available. pose proof (linked_until _ _ _ _ L). unfold held in Hh.
  destruct (cur s) as [[a c]|]; nia.
Qed.

Lemma shape_first_event : forall s, shape_of (fst (first_event s)) = shape_of s /\ st (fst (first_event s)) = st s /\ bad (fst (first_event s)) = bad s.
Proof.
  intros s. unfold first_event. destruct (cur s) as [[a c]|]; cbn; [auto|].
  destruct (q s) as [|[a c|nl ok|] ps]; cbn; auto.
Qed.

Lemma first_event_SI : forall C n g s, SI C n g s ->
  exists g', ge g' = ge g /\ gt g' = gt g /\ SI C n g' (fst (first_event s)).
Proof.
  intros C n g s Hs. pose proof Hs as ((B & O & Hd & He & H) & HS).
  unfold first_event. destruct (cur s) as [[a c]|] eqn:EC.
  { exists g. split; [reflexivity|split; [reflexivity|]]. exact Hs. }
  destruct (q s) as [|[a c|nl ok|] ps] eqn:EQ; cbn [fst];
    try (exists g; split; [reflexivity|split; [reflexivity|exact Hs]]).
  exists (ge g, Some (a + delta s * c), gt g). cbn [ge gp gt fst snd].
  split; [reflexivity|split; [reflexivity|]]. split.
  - unfold SB, with_read; cbn. inversion O as [|? ? O1 O2]; subst.
    split; [exact B|]. split; [exact O2|]. split; [exact Hd|]. split; [exact He|].
    intros U. destruct (H U) as (L & _). cbn in L. destruct L as (L1 & L2 & L3).
    split; [exact L3|]. unfold held; cbn. split; [lia|reflexivity].
  - intros U. specialize (HS U). destruct (H U) as (L & _). cbn in L. destruct L as (L1 & L2 & L3).
    unfold SS, with_read, pos, gp, gt in *; cbn in *. rewrite EC in HS.
    destruct (st s); auto; destruct HS as (H1 & H2); rewrite H1 in L2; destruct L2 as [L2|L2]; try discriminate;
      injection L2 as L2; (split; [f_equal; lia|lia]).
Qed.

Lemma merge_ok : forall ps seen asg d p e, Forall okp ps -> linked d p ps e ->
  (forall ok, seen = Some ok -> ok = true) ->
  forall ps' c out, merge seen asg ps = (ps', c, out) ->
  Forall okp ps' /\ (forall nt ok, out = Some (nt, ok) -> ok = true) /\
  (exists p', linked d p' ps' e /\ match c with Some (a, k) => 0 <= k /\ p' = Some (a + d * k) | None => True end).
Proof.
  induction ps as [|y ps IH]; intros seen asg d p e O L S ps' c out M; cbn [merge] in M.
  - injection M as <- <- <-. split; [constructor|]. split.
    + intros nt ok E. destruct seen as [o|]; [injection E as <- <-; auto|discriminate].
    + exists p. auto.
  - inversion O as [|? ? O1 O2]; subst. destruct y as [a k|nl ok|]; cbn in L.
    + injection M as <- <- <-. destruct L as (L1 & L2 & L3). split; [exact O2|]. split.
      * intros nt ok E. destruct seen as [o|]; [injection E as <- <-; auto|discriminate].
      * exists (Some (a + d * k)). auto.
    + refine (IH _ _ _ _ _ O2 L _ _ _ _ M). intros ok' E. injection E as <-. exact O1.
    + destruct asg.
      * injection M as <- <- <-. split; [exact O|]. split.
        -- intros nt ok E. destruct seen as [o|]; [injection E as <- <-; auto|discriminate].
        -- exists p. cbn. auto.
      * injection M as <- <- <-. split; [exact O2|]. split.
        -- intros nt ok E. injection E as <- <-. reflexivity.
        -- exists None. auto.
Qed.
Lemma merge_okp : forall ps seen asg, Forall okp ps -> (forall ok, seen = Some ok -> ok = true) ->
  forall ps' c out, merge seen asg ps = (ps', c, out) -> Forall okp ps' /\ (forall nt ok, out = Some (nt, ok) -> ok = true).
Proof.
  induction ps as [|y ps IH]; intros seen asg O S ps' c out M; cbn [merge] in M.
  - injection M as <- <- <-. split; [constructor|].
    intros nt ok E. destruct seen as [o|]; [injection E as <- <-; auto|discriminate].
  - inversion O as [|? ? O1 O2]; subst. destruct y as [a k|nl ok|].
    + injection M as <- <- <-. split; [exact O2|].
      intros nt ok E. destruct seen as [o|]; [injection E as <- <-; auto|discriminate].
    + refine (IH _ _ O2 _ _ _ _ M). intros ok' E. injection E as <-. exact O1.
    + destruct asg; injection M as <- <- <-.
      * split; [exact O|]. intros nt ok E. destruct seen as [o|]; [injection E as <- <-; auto|discriminate].
      * split; [exact O2|]. intros nt ok E. injection E as <- <-. reflexivity.
Qed.

Lemma merge_some : forall ps ok asg ps' c out, merge (Some ok) asg ps = (ps', c, out) -> out = None -> False.
Proof.
  induction ps as [|y ps IH]; intros ok asg ps' c out M E; cbn [merge] in M.
  - injection M as _ _ <-. discriminate.
  - destruct y as [a k|nl ok'|].
    + injection M as _ _ <-. discriminate.
    + exact (IH _ _ _ _ _ M E).
    + destruct asg; injection M as _ _ <-; discriminate.
Qed.
Lemma first_event_true : forall s s1, first_event s = (s1, true) ->
  s1 = s /\ cur s = None /\ exists y ps, q s = y :: ps /\ is_event y = true.
Proof.
  intros s s1 E. unfold first_event in E. destruct (cur s) as [[a c]|] eqn:EC; [discriminate|].
  destruct (q s) as [|[a c|nl ok|] ps] eqn:EQ; try discriminate; injection E as <-;
    (split; [reflexivity|split; [reflexivity|]]); eauto.
Qed.
Lemma first_event_false : forall s s1, first_event s = (s1, false) ->
  (exists a c, cur s1 = Some (a, c)) \/ (cur s1 = None /\ q s1 = []).
Proof.
  intros s s1 E. unfold first_event in E. destruct (cur s) as [[a c]|] eqn:EC.
  - injection E as <-. left. eauto.
  - destruct (q s) as [|[a c|nl ok|] ps] eqn:EQ; try discriminate; injection E as <-; [right; auto|left; cbn; eauto].
Qed.

Lemma until_data_SI : forall C n g s s' e, SI C n g s -> until_data s = (s', e) ->
  shape_of s' = shape_of s /\
  exists g', ge g' = ge g /\ SI C n g' s' /\
    match e with None => gt g' = gt g /\ st s' = st s | Some _ => st s' = Unsync end
    /\ (used s = false -> gt g' = gt g).
Proof.
  intros C n g s s' e H U. unfold until_data in U.
  destruct (first_event_SI _ _ _ _ H) as (g1 & G1 & G2 & H1).
  pose proof (shape_first_event s) as (Sh & St & _).
  assert (Us : used (fst (first_event s)) = used s) by (unfold shape_of in Sh; injection Sh as Q _ _; exact Q).
  destruct (first_event s) as [s1 ev] eqn:E1. cbn [fst] in *.
  destruct ev; cbn [negb] in U.
  2:{ injection U as <- <-. split; [exact Sh|]. exists g1. auto 6. }
  destruct (merge None false (q s1)) as [[ps c] out] eqn:M.
  destruct H1 as ((B & O & Hd & He & HL) & HS).
  destruct (merge_okp (q s1) None false O ltac:(intros ok E; discriminate) _ _ _ M) as (O' & OK').
  destruct out as [[[|] ok]|].
  - injection U as <- <-. rewrite (OK' _ _ eq_refl). split; [exact Sh|].
    destruct (used s1) eqn:US.
    + destruct (HL eq_refl) as (L & _).
      destruct (merge_ok (q s1) None false _ _ _ O L ltac:(intros ok' E; discriminate) _ _ _ M) as (_ & _ & p' & L' & C').
      exists (ge g1, p', 0). split; [exact G1|]. split; [|split; [reflexivity|congruence]].
      split.
      * unfold SB, with_read, with_st, with_bad, held; cbn. split; [auto|split; [exact O'|split; [exact Hd|split; [exact He|]]]]. intros _. split; [exact L'|]. destruct c as [[a k]|]; auto. cbn. destruct C' as (C1 & C2). split; [lia|exact C2].
      * intros _. unfold SS. cbn. exact Logic.I.
    + exists g1. split; [exact G1|]. split; [|split; [reflexivity|congruence]].
      split; [|intros U; cbn in U; congruence].
      unfold SB, with_read, with_st, with_bad; cbn. split; [auto|split; [exact O'|split; [exact Hd|split; [exact He|]]]]. congruence.
  - injection U as <- <-. split; [exact Sh|].
    destruct (used s1) eqn:US.
    + destruct (HL eq_refl) as (L & _).
      destruct (merge_ok (q s1) None false _ _ _ O L ltac:(intros ok' E; discriminate) _ _ _ M) as (_ & _ & p' & L' & C').
      exists (ge g1, p', 0). split; [exact G1|]. split; [|split; [reflexivity|congruence]].
      split.
      * unfold SB, with_read, with_st, held; cbn. split; [auto|split; [exact O'|split; [exact Hd|split; [exact He|]]]]. intros _. split; [exact L'|]. destruct c as [[a k]|]; auto. cbn. destruct C' as (C1 & C2). split; [lia|exact C2].
      * intros _. unfold SS. cbn. exact Logic.I.
    + exists g1. split; [exact G1|]. split; [|split; [reflexivity|congruence]].
      split; [|intros U; cbn in U; congruence].
      unfold SB, with_read, with_st; cbn. split; [auto|split; [exact O'|split; [exact Hd|split; [exact He|]]]]. congruence.
  - (* an event was first: the merge always gives something *)
    exfalso. destruct (first_event_true _ _ E1) as (-> & _ & y & ps' & Eq & Ey).
    rewrite Eq in M. destruct y as [a k|nl ok|]; cbn in M; [discriminate Ey| |discriminate M].
    exact (merge_some _ _ _ _ _ _ M eq_refl).
Qed.

Lemma offset_ok : forall d t a c, 0 < d -> 0 <= c -> a - d < t ->
  (offset_to d t a c = -1 /\ a + d * c - d < t) \/
  (0 <= offset_to d t a c < c /\ t <= a + d * offset_to d t a c < t + d).
Proof.
  intros d t a c Hd Hc H. unfold offset_to.
  destruct (c =? 0) eqn:E0; [apply Z.eqb_eq in E0; left; split; [reflexivity|lia]|].
  apply Z.eqb_neq in E0.
  destruct (t <=? a - d) eqn:E1; [lia|]. cbn [orb].
  destruct (a + d * (c - 1) <? t) eqn:E2; [left; split; [reflexivity|lia]|].
  right. set (x := t - (a - d)). set (k := (x + d - 1) / d).
  assert (Hk : d * k <= x + d - 1 < d * k + d).
  { unfold k. pose proof (Z.div_mod (x + d - 1) d ltac:(lia)). pose proof (Z.mod_pos_bound (x + d - 1) d Hd). lia. }
  subst x. split; nia.
Qed.

Lemma sync_loop_ok : forall d t, 0 < d -> forall ps a c e, Forall okp ps -> linked d (Some (a + d * c)) ps e ->
  0 <= c -> a - d < t -> forall ps' cu i ev, sync_loop d t a c ps = (ps', cu, i, ev) ->
  Forall okp ps' /\ exists p', linked d p' ps' e /\
  match cu with
  | Some (a', c') => p' = Some (a' + d * c') /\ 0 <= i < c' /\ t <= a' + d * i < t + d /\ ev = false
  | None => i = -1 /\ (exists t', p' = Some t' /\ t' - d < t) /\ (ev = false -> ps' = [])
  end.
Proof.
  intros d t Hd. induction ps as [|y ps IH]; intros a c e O L Hc H ps' cu i ev E; cbn [sync_loop] in E.
  - destruct (offset_ok d t a c Hd Hc H) as [(K & K2)|(K & K2)].
    + rewrite K in E. cbn [Z.eqb] in E. replace (-1 =? -1) with true in E by reflexivity. injection E as <- <- <- <-.
      split; [constructor|]. exists (Some (a + d * c)). split; [exact L|]. split; [reflexivity|]. split; [|reflexivity]. exists (a + d * c). split; [reflexivity|lia].
    + replace (offset_to d t a c =? -1) with false in E by (symmetry; apply Z.eqb_neq; lia). injection E as <- <- <- <-.
      split; [exact O|]. exists (Some (a + d * c)). auto.
  - destruct (offset_ok d t a c Hd Hc H) as [(K & K2)|(K & K2)].
    + rewrite K in E. replace (-1 =? -1) with true in E by reflexivity.
      inversion O as [|? ? O1 O2]; subst.
      destruct y as [a' c'|nl ok|].
      * cbn in L. destruct L as (L1 & L2 & L3). destruct L2 as [L2|L2]; [discriminate|]. injection L2 as L2.
        refine (IH a' c' e O2 L3 L1 _ _ _ _ _ E). lia.
      * injection E as <- <- <- <-. split; [exact O|]. exists (Some (a + d * c)). split; [exact L|]. split; [reflexivity|]. split; [|discriminate]. exists (a + d * c). split; [reflexivity|lia].
      * injection E as <- <- <- <-. split; [exact O|]. exists (Some (a + d * c)). split; [exact L|]. split; [reflexivity|]. split; [|discriminate]. exists (a + d * c). split; [reflexivity|lia].
    + replace (offset_to d t a c =? -1) with false in E by (symmetry; apply Z.eqb_neq; lia). injection E as <- <- <- <-.
      split; [exact O|]. exists (Some (a + d * c)). auto.
Qed.

Lemma shape_sync_one : forall c s, shape_of (sync_one c s) = shape_of s.
Proof.
  intros c s. unfold sync_one. pose proof (shape_first_event s) as (E & _).
  destruct (first_event s) as [s1 ev]. cbn [fst] in E.
  destruct (st s); try reflexivity; destruct ev; try exact E;
  (destruct (cur s1) as [[a k]|]; [|exact E]);
  destruct (sync_loop (delta s1) c a k (q s1)) as [[[ps cu] i] ev']; destruct ev'; exact E.
Qed.

(** Bringing a signal, whose position is not past the start by a sample, to it. *)
Lemma sync_one_SI : forall C g s, SB g s -> used s = true -> 
  (st s = Synced -> SS C 0 g s) ->
  (st s <> Synced -> exists a c, cur s = Some (a, c) /\ a + delta s * idx s - delta s < C) ->
  exists g', ge g' = ge g /\ SI C 0 g' (sync_one C s) /\ (st s = Synced -> gt g' = gt g)
    /\ (st s = Syncing -> st (sync_one C s) <> Unsync).
Proof.
  intros C g s Hb U Hsy Hns. unfold sync_one.
  assert (X : st s = Synced \/ st s <> Synced) by (destruct (st s); [right|right|left]; congruence).
  destruct X as [X|X].
  { rewrite X. exists g. split; [reflexivity|]. split; [|split; [reflexivity|congruence]]. split; [exact Hb|intros _; apply Hsy; exact X]. }
  destruct (Hns X) as (a & c & EC & Hlt).
  assert (FE : first_event s = (s, false)) by (unfold first_event; rewrite EC; reflexivity).
  rewrite FE, EC. destruct Hb as (B & O & Hd & He & HL). destruct (HL U) as (L & Hh). unfold held in Hh. rewrite EC in Hh.
  destruct Hh as (Hi & Hp). assert (Hdp : 0 < delta s) by (rewrite He; nia).
  destruct (sync_loop (delta s) C a c (q s)) as [[[ps cu] i] ev] eqn:E.
  rewrite Hp in L.
  destruct (sync_loop_ok (delta s) C Hdp (q s) a c (ge g) O L ltac:(lia) ltac:(nia) _ _ _ _ E) as (O' & p' & L' & Q).
  assert (G : exists g', ge g' = ge g /\ SI C 0 g' (if ev then with_read s ps cu i else with_st (with_read s ps cu i) (if i =? -1 then Syncing else Synced))
     /\ (st s = Syncing -> st (if ev then with_read s ps cu i else with_st (with_read s ps cu i) (if i =? -1 then Syncing else Synced)) <> Unsync)).
  { destruct cu as [[a' c']|].
    - destruct Q as (Q1 & Q2 & Q3 & ->). replace (i =? -1) with false by (symmetry; apply Z.eqb_neq; lia).
      exists (ge g, p', a' + delta s * i). split; [reflexivity|]. split; [|cbn; intros; discriminate]. split.
      + unfold SB, held; cbn. split; [exact B|split; [exact O'|split; [exact Hd|split; [exact He|]]]]. intros _. split; [exact L'|]. split; [lia|exact Q1].
      + intros _. unfold SS, pos; cbn. split; [reflexivity|lia].
    - destruct Q as (-> & (t' & -> & Ht) & Q). exists (ge g, Some t', t'). split; [reflexivity|].
      assert (SB (ge g, Some t', t') (with_read s ps None (-1))) as SB'.
      { unfold SB, held; cbn. split; [exact B|split; [exact O'|split; [exact Hd|split; [exact He|]]]]. intros _. split; [exact L'|exact Logic.I]. }
      destruct ev.
      + split; [|cbn; congruence]. split; [exact SB'|]. intros _. unfold SS, pos; cbn.
        destruct (st s); [exact Logic.I|split; [reflexivity|exact Ht]|congruence].
      + replace (-1 =? -1) with true by reflexivity. split; [|cbn; congruence]. split; [exact SB'|]. intros _. unfold SS, pos; cbn. split; [reflexivity|exact Ht]. }
  destruct G as (g' & G1 & G2 & G3). exists g'.
  destruct (st s) eqn:ES; [| |congruence]; (split; [exact G1|split; [exact G2|split; [congruence|exact G3]]]).
Qed.

Lemma rd_ok : forall d, 0 < d -> forall ps a c rem i e, Forall okp ps -> linked d (Some (a + d * c)) ps e -> 0 <= i <= c ->
  0 < rem <= c - i + until_event false ps ->
  exists ps' cu j p', rd d rem i (Data a c :: ps) = (every d (a + d * i) (Z.to_nat rem), ps', cu, j, None, Fine)
  /\ Forall okp ps' /\ linked d p' ps' e
  /\ match cu with Some (a', c') => 0 <= j <= c' /\ p' = Some (a' + d * c') /\ a' + d * j = a + d * i + d * rem
     | None => j = 0 /\ p' = Some (a + d * i + d * rem) end.
Proof.
  intros d Hd. induction ps as [|y ps IH]; intros a c rem i e O L Hi Hr.
  - cbn [rd]. cbn [until_event] in Hr.
    replace (rem =? 0) with false by (symmetry; apply Z.eqb_neq; lia).
    replace (i <? 0) with false by (symmetry; apply Z.ltb_ge; lia).
    rewrite Z.min_l by lia.
    destruct (rem <? c - i) eqn:E.
    + apply Z.ltb_lt in E. exists [], (Some (a, c)), (i + rem), (Some (a + d * c)). rewrite ticks_every.
      split; [reflexivity|]. split; [exact O|]. split; [exact L|]. split; [lia|]. split; [reflexivity|nia].
    + apply Z.ltb_ge in E. assert (rem = c - i) by lia. subst rem.
      replace (c - i - (c - i) =? 0) with true by (symmetry; apply Z.eqb_eq; lia).
      cbv beta iota.
      exists [], None, 0, (Some (a + d * c)). rewrite app_nil_r, ticks_every.
      split; [reflexivity|]. split; [exact O|]. split; [exact L|]. split; [reflexivity|f_equal; nia].
  - change (rd d rem i (Data a c :: y :: ps)) with
      (if rem =? 0 then ([], Data a c :: y :: ps, @None (Z * Z), i, @None bool, Fine) else
       if i <? 0 then ([], y :: ps, None, i, None, OutOfBounds) else
       if Z.min rem (c - i) <? c - i then (ticks d (a + d * i) (Z.min rem (c - i)), y :: ps, Some (a, c), i + Z.min rem (c - i), None, Fine)
       else let '(o, ps0, cu, j, b, f) := rd d (rem - Z.min rem (c - i)) 0 (y :: ps) in (ticks d (a + d * i) (Z.min rem (c - i)) ++ o, ps0, cu, j, b, f)).
    replace (rem =? 0) with false by (symmetry; apply Z.eqb_neq; lia).
    replace (i <? 0) with false by (symmetry; apply Z.ltb_ge; lia).
    destruct (Z.min rem (c - i) <? c - i) eqn:E.
    + apply Z.ltb_lt in E. rewrite Z.min_l by lia. exists (y :: ps), (Some (a, c)), (i + rem), (Some (a + d * c)). rewrite ticks_every.
      split; [reflexivity|]. split; [exact O|]. split; [exact L|]. split; [lia|]. split; [reflexivity|nia].
    + apply Z.ltb_ge in E. rewrite Z.min_r by lia.
      destruct (Z.eq_dec rem (c - i)) as [->|NE].
      * replace (rd d (c - i - (c - i)) 0 (y :: ps)) with (@nil Z, y :: ps, @None (Z * Z), 0, @None bool, Fine).
        2:{ replace (c - i - (c - i)) with 0 by lia. destruct y; reflexivity. }
        cbv beta iota.
        exists (y :: ps), None, 0, (Some (a + d * c)). rewrite app_nil_r, ticks_every.
        split; [reflexivity|]. split; [exact O|]. split; [exact L|]. split; [reflexivity|f_equal; nia].
      * inversion O as [|? ? O1 O2]; subst. destruct y as [a' c'|nl ok|]; cbn [until_event] in Hr; [|lia|lia].
        cbn in L. destruct L as (L1 & L2 & L3). destruct L2 as [L2|L2]; [discriminate|]. injection L2 as L2.
        destruct (IH a' c' (rem - (c - i)) 0 e O2 L3 ltac:(lia) ltac:(lia)) as (ps' & cu & j & p' & R & Q1 & Q2 & Q3).
        rewrite R. exists ps', cu, j, p'. split.
        -- rewrite ticks_every. repeat f_equal. 
           replace (Z.to_nat rem) with (Z.to_nat (c - i) + Z.to_nat (rem - (c - i)))%nat by lia.
           rewrite every_app. f_equal. f_equal. rewrite Z2Nat.id by lia. nia.
        -- split; [exact Q1|]. split; [exact Q2|].
           assert (X : a' + d * 0 + d * (rem - (c - i)) = a + d * i + d * rem) by nia.
           rewrite X in Q3. exact Q3.
Qed.

Lemma read_sig_SI : forall C n m g s, SI C n g s -> used s = true -> st s = Synced ->
  (divi s | m) -> 0 < m <= available false s -> cur s <> None ->
  exists s' g', read_sig (m / divi s) s = (s', every (delta s) (gt g) (Z.to_nat (m / divi s)), Fine)
   /\ shape_of s' = shape_of s /\ st s' = Synced /\ ge g' = ge g /\ gt g' = gt g + delta s * (m / divi s) /\ SI C (n + m) g' s'.
Proof.
  intros C n m g s ((B & O & Hd & He & HL) & HS) U ES Dv Hm HC.
  destruct (HL U) as (L & Hh). specialize (HS U). unfold SS in HS. rewrite ES in HS. destruct HS as (HP & HT).
  assert (Hdp : 0 < delta s) by (rewrite He; nia).
  destruct (cur s) as [[a c]|] eqn:EC; [|congruence]. unfold held in Hh. rewrite EC in Hh. destruct Hh as (Hi & Hp).
  unfold pos in HP. rewrite EC in HP. injection HP as HP.
  unfold available in Hm. rewrite EC in Hm.
  destruct Dv as (z & Dz). assert (Z1 : m / divi s = z) by (rewrite Dz; apply Z.div_mul; lia). rewrite Z1.
  rewrite Hp in L.
  destruct (rd_ok (delta s) Hdp (q s) a c z (idx s) (ge g) O L Hi ltac:(nia)) as (ps' & cu & j & p' & R & Q1 & Q2 & Q3).
  unfold read_sig. rewrite U, EC. replace (z =? 0) with false by (symmetry; apply Z.eqb_neq; nia). cbn [negb orb].
  rewrite R. rewrite HP. eexists. exists (ge g, p', gt g + delta s * z). split; [reflexivity|].
  split; [reflexivity|]. split; [exact ES|]. split; [reflexivity|]. split; [reflexivity|].
  split.
  - unfold SB, held; cbn. split; [exact B|split; [exact Q1|split; [exact Hd|split; [exact He|]]]]. intros _. split; [exact Q2|].
    destruct cu as [[a' c']|]; [split; [lia|tauto]|exact Logic.I].
  - intros _. unfold SS, pos; cbn. rewrite ES. split.
    + destruct cu as [[a' c']|]; [f_equal; lia|]. destruct Q3 as (_ & Q3). rewrite Q3. f_equal; lia.
    + rewrite Dz. rewrite He in *. nia.
Qed.

(* ---------- all signals ---------- *)
Lemma Forall2_map_r : forall {A B} (P Q : A -> B -> Prop) (R : A -> A -> Prop) (f : B -> B) l m,
  (forall a b, P a b -> exists a', R a a' /\ Q a' (f b)) -> Forall2 P l m ->
  exists l', Forall2 R l l' /\ Forall2 Q l' (map f m).
Proof.
  intros A B P Q R f l m H F. induction F as [|a b l m HP F IH].
  - exists []. split; constructor.
  - destruct IH as (l' & I1 & I2). destruct (H a b HP) as (a' & H1 & H2). exists (a' :: l'). split; constructor; auto.
Qed.
Lemma Forall2_In_r : forall {A B} (P : A -> B -> Prop) l m b, Forall2 P l m -> In b m -> exists a, In a l /\ P a b.
Proof.
  intros A B P l m b F. induction F as [|a b' l m HP F IH]; intros H; [contradiction|].
  destruct H as [->|H]; [exists a; split; [left; reflexivity|exact HP]|]. destruct (IH H) as (a' & H1 & H2). exists a'. split; [right; exact H1|exact H2].
Qed.
Lemma Forall2_map_eq : forall {A B} (f : A -> B) l m, Forall2 (fun a b => f b = f a) l m -> map f m = map f l.
Proof. intros A B f l m F. induction F; cbn; congruence. Qed.

Lemma status_cases : forall ss x,
  match status x ss with
  | Synced => (forall s, In s ss -> used s = true -> st s = Synced) /\ x <> Syncing
  | Syncing => (forall s, In s ss -> used s = true -> st s <> Unsync) /\ (x = Syncing \/ exists s, In s ss /\ used s = true /\ st s = Syncing)
  | Unsync => (exists s, In s ss /\ used s = true /\ st s = Unsync) \/ (forall s, In s ss -> used s = false) /\ x = Unsync
  end.
Proof.
  induction ss as [|s ss IH]; intros x; cbn [status].
  - destruct x; [right|split; [|left; reflexivity]|split; [|discriminate]]; [split; [|reflexivity]| |]; intros s H; contradiction.
  - assert (K : forall y, match status y ss with
      | Synced => (forall s, In s ss -> used s = true -> st s = Synced) /\ y <> Syncing
      | Syncing => (forall s, In s ss -> used s = true -> st s <> Unsync) /\ (y = Syncing \/ exists s, In s ss /\ used s = true /\ st s = Syncing)
      | Unsync => (exists s, In s ss /\ used s = true /\ st s = Unsync) \/ (forall s, In s ss -> used s = false) /\ y = Unsync
      end) by (intros y; exact (IH y)). clear IH.
    destruct (used s) eqn:U.
    + destruct (st s) eqn:E.
      * left. exists s. split; [left; reflexivity|auto].
      * specialize (K Syncing). destruct (status Syncing ss).
        -- destruct K as [(s' & K1 & K2)|(_ & K)]; [|discriminate]. left. exists s'. split; [right; exact K1|exact K2].
        -- destruct K as (K1 & K2). split.
           ++ intros s' [<-|H] U'; [congruence|exact (K1 _ H U')].
           ++ right. exists s. split; [left; reflexivity|auto].
        -- destruct K as (_ & K). congruence.
      * specialize (K (match x with Unsync => Synced | _ => x end)).
        destruct (status (match x with Unsync => Synced | _ => x end) ss).
        -- destruct K as [(s' & K1 & K2)|(_ & K)].
           ++ left. exists s'. split; [right; exact K1|exact K2].
           ++ exfalso. destruct x; discriminate.
        -- destruct K as (K1 & K2). split.
           ++ intros s' [<-|H] U'; [congruence|exact (K1 _ H U')].
           ++ destruct K2 as [K2|(s' & K2 & K3)]; [left; destruct x; congruence|right; exists s'; split; [right; exact K2|exact K3]].
        -- destruct K as (K1 & K2). split.
           ++ intros s' [<-|H] U'; [congruence|exact (K1 _ H U')].
           ++ destruct x; congruence.
    + specialize (K x). destruct (status x ss).
      * destruct K as [(s' & K1 & K2)|(K1 & K2)].
        -- left. exists s'. split; [right; exact K1|exact K2].
        -- right. split; [|exact K2]. intros s' [<-|H]; [exact U|exact (K1 _ H)].
      * destruct K as (K1 & K2). split.
        -- intros s' [<-|H] U'; [congruence|exact (K1 _ H U')].
        -- destruct K2 as [K2|(s' & K2 & K3)]; [left; exact K2|right; exists s'; split; [right; exact K2|exact K3]].
      * destruct K as (K1 & K2). split; [|exact K2].
        intros s' [<-|H] U'; [congruence|exact (K1 _ H U')].
Qed.

Lemma min_avail_ok : forall C n gs ss, Forall2 (SI C n) gs ss -> forall m0, 0 < m0 ->
  0 <= min_avail m0 ss <= m0 /\
  forall s, In s ss -> used s = true -> min_avail m0 ss <= available false s /\ (min_avail m0 ss <> 0 -> cur s <> None).
Proof.
  intros C n gs ss F. induction F as [|g s gs ss H F IH]; intros m0 Hm; cbn [min_avail].
  - split; [lia|]. intros s H. contradiction.
  - destruct (used s) eqn:U.
    + pose proof (avail_nonneg _ _ _ _ H U) as A.
      destruct (cur s) as [[a c]|] eqn:EC.
      * destruct (available false s <? m0) eqn:E1.
        -- apply Z.ltb_lt in E1. destruct (available false s =? 0) eqn:E2.
           ++ apply Z.eqb_eq in E2. split; [lia|]. intros s' [<-|H'] U'; [split; [lia|intros X; congruence]|].
              destruct (Forall2_In_r _ _ _ _ F H') as (g' & _ & HS). pose proof (avail_nonneg _ _ _ _ HS U'). split; [lia|congruence].
           ++ apply Z.eqb_neq in E2. destruct (IH (available false s) ltac:(lia)) as (I1 & I2). split; [lia|].
              intros s' [<-|H'] U'; [split; [lia|congruence]|exact (I2 _ H' U')].
        -- apply Z.ltb_ge in E1. destruct (IH m0 Hm) as (I1 & I2). split; [exact I1|].
           intros s' [<-|H'] U'; [split; [lia|congruence]|exact (I2 _ H' U')].
      * replace (0 <? m0) with true by (symmetry; apply Z.ltb_lt; lia). replace (0 =? 0) with true by reflexivity.
        split; [lia|]. intros s' [<-|H'] U'; [split; [lia|congruence]|].
        destruct (Forall2_In_r _ _ _ _ F H') as (g' & _ & HS). pose proof (avail_nonneg _ _ _ _ HS U'). split; [lia|congruence].
    + destruct (IH m0 Hm) as (I1 & I2). split; [exact I1|]. intros s' [<-|H'] U'; [congruence|exact (I2 _ H' U')].
Qed.
Lemma size_max_pos : 0 < size_max. Proof. reflexivity. Qed.

Lemma domain_start_ok : forall ss c,
  (forall x, c = Some x -> exists y, domain_start c ss = Some y /\ x <= y) /\
  (forall s, In s ss -> used s = true -> exists y, domain_start c ss = Some y /\
     match cur s with Some (a, _) => a + delta s * idx s | None => 0 end <= y).
Proof.
  induction ss as [|s ss IH]; intros c; cbn [domain_start].
  - split; [intros x ->; exists x; split; [reflexivity|lia]|intros s H; contradiction].
  - destruct (used s) eqn:U.
    + set (t := match cur s with Some (a, _) => a + delta s * idx s | None => 0 end).
      set (c' := match c with None => Some t | Some x => if x <? t then Some t else Some x end).
      destruct (IH c') as (I1 & I2).
      assert (K : exists y, c' = Some y /\ t <= y /\ forall x, c = Some x -> x <= y).
      { unfold c'. destruct c as [x|].
        - destruct (x <? t) eqn:E; [exists t|exists x]; (split; [reflexivity|split; [lia|]]); intros x' E'; injection E' as <-; lia.
        - exists t. split; [reflexivity|split; [lia|]]. intros x' E'. discriminate. }
      destruct K as (y & K1 & K2 & K3). destruct (I1 y K1) as (z & Z1 & Z2). split.
      * intros x Ex. exists z. split; [exact Z1|]. specialize (K3 x Ex). lia.
      * intros s' [<-|H'] U'; [exists z; split; [exact Z1|fold t; lia]|exact (I2 _ H' U')].
    + destruct (IH c) as (I1 & I2). split; [exact I1|]. intros s' [<-|H'] U'; [congruence|exact (I2 _ H' U')].
Qed.

Variable G : Z.
Hypothesis HG : 0 < G.
Variable shapes : list shape.
Hypothesis Hused : exists k d rest, shapes = (true, k, d) :: rest.

Definition all_in (x : sync) (ss : list sig) : Prop := forall s, In s ss -> used s = true -> st s = x.
Definition some_in (x : sync) (ss : list sig) : Prop := exists s, In s ss /\ used s = true /\ st s = x.
Definition MI (C n : Z) (gs : list ghost) (ss : list sig) (mon : option (Z * list Z)) : Prop :=
  match mon with
  | Some (T, ts) => ts = map gt gs /\ T = C + D * n /\ all_in Synced ss
  | None => (n = 0 /\ (G | C)) \/ some_in Unsync ss
  end.
Definition RI (r : reader) (gs : list ghost) (mon : option (Z * list Z)) : Prop :=
  map shape_of (sigs r) = shapes /\ inval r = false /\ nextev r = false /\
  exists C n, 0 <= n /\ (forall s, In s (sigs r) -> used s = true -> (divi s | n))
  /\ Forall2 (SI C n) gs (sigs r)
  /\ (cstart r = Some C \/ (cstart r = None /\ all_in Unsync (sigs r)))
  /\ (some_in Syncing (sigs r) -> n = 0)
  /\ MI C n gs (sigs r) mon.
Definition same (r r' : reader) : Prop := buf r' = buf r /\ calls r' = calls r /\ want r' = want r.

Lemma RI_used : forall r gs mon, RI r gs mon -> exists s rest, sigs r = s :: rest /\ used s = true.
Proof.
  intros r gs mon (H & _). destruct Hused as (k & d & rest & E). rewrite E in H.
  destruct (sigs r) as [|s l]; [discriminate|]. cbn in H. injection H as H _ _ _. exists s, l. auto.
Qed.

Lemma map_shape : forall f ss, (forall s, shape_of (f s) = shape_of s) -> map shape_of (map (on_used f) ss) = map shape_of ss.
Proof.
  intros f ss H. rewrite map_map. apply map_ext. intros s. unfold on_used. destruct (used s); auto.
Qed.
Lemma in_map_used : forall f ss s, (forall s, shape_of (f s) = shape_of s) -> In s (map (on_used f) ss) -> used s = true ->
  exists s0, In s0 ss /\ used s0 = true /\ s = f s0.
Proof.
  intros f ss s H I U. apply in_map_iff in I. destruct I as (s0 & <- & I). unfold on_used in *.
  destruct (used s0) eqn:U0; [exists s0; auto|congruence].
Qed.

(** Loading the next data packets changes nothing that matters. *)
Definition loaded (s s' : sig) : Prop := s' = s \/ s' = fst (first_event s).
Lemma loaded_shape : forall s s', loaded s s' -> shape_of s' = shape_of s /\ st s' = st s.
Proof. intros s s' [->| ->]; [auto|]. pose proof (shape_first_event s). tauto. Qed.
Lemma loaded_RI_list : forall C n gs ss ss', Forall2 (SI C n) gs ss -> Forall2 loaded ss ss' ->
  exists gs', Forall2 (SI C n) gs' ss' /\ map ge gs' = map ge gs /\ map gt gs' = map gt gs.
Proof.
  intros C n gs ss ss' F. revert ss'. induction F as [|g s gs ss H F IH]; intros ss' L; inversion L as [|? s' ? ss1 L1 L2]; subst.
  - exists []. repeat split; constructor.
  - destruct (IH _ L2) as (gs' & I1 & I2 & I3).
    assert (K : exists g', ge g' = ge g /\ gt g' = gt g /\ SI C n g' s').
    { destruct L1 as [->| ->]; [exists g; auto|exact (first_event_SI _ _ _ _ H)]. }
    destruct K as (g' & K1 & K2 & K3). exists (g' :: gs'). split; [constructor; auto|]. cbn. split; congruence.
Qed.
Lemma Forall2_In_l : forall {A B} (P : A -> B -> Prop) l m a, Forall2 P l m -> In a l -> exists b, In b m /\ P a b.
Proof.
  intros A B P l m a F. induction F as [|a' b' l m HP F IH]; intros H; [contradiction|].
  destruct H as [->|H]; [exists b'; split; [left; reflexivity|exact HP]|]. destruct (IH H) as (b & H1 & H2). exists b. split; [right; exact H1|exact H2].
Qed.
Lemma loaded_RI : forall r gs mon ss', RI r gs mon -> Forall2 loaded (sigs r) ss' ->
  exists gs', map ge gs' = map ge gs /\ RI (with_sigs r ss') gs' mon.
Proof.
  intros r gs mon ss' (H1 & H2 & H3 & C & n & H4 & H5 & H6 & H7 & H8 & H9) L.
  destruct (loaded_RI_list _ _ _ _ _ H6 L) as (gs' & F & E1 & E2). exists gs'. split; [exact E1|].
  assert (Sh : forall s', In s' ss' -> exists s, In s (sigs r) /\ used s' = used s /\ divi s' = divi s /\ st s' = st s).
  { intros s' I. destruct (Forall2_In_r _ _ _ _ L I) as (s & I' & K). destruct (loaded_shape _ _ K) as (K1 & K2).
    unfold shape_of in K1. injection K1 as K3 K4 K5. exists s. auto. }
  assert (Sh' : forall s, In s (sigs r) -> exists s', In s' ss' /\ used s' = used s /\ st s' = st s).
  { intros s I. destruct (Forall2_In_l _ _ _ _ L I) as (s' & I' & K). destruct (loaded_shape _ _ K) as (K1 & K2).
    unfold shape_of in K1. injection K1 as K3 K4 K5. exists s'. auto. }
  assert (A : forall x, all_in x (sigs r) -> all_in x ss').
  { intros x K s I U. destruct (Sh s I) as (s0 & I0 & U0 & _ & E). rewrite E. apply K; congruence. }
  assert (S1 : forall x, some_in x ss' -> some_in x (sigs r)).
  { intros x (s & I & U & K). destruct (Sh s I) as (s0 & I0 & U0 & _ & E). exists s0. split; [exact I0|split; congruence]. }
  assert (S2 : forall x, some_in x (sigs r) -> some_in x ss').
  { intros x (s & I & U & K). destruct (Sh' s I) as (s0 & I0 & U0 & E). exists s0. split; [exact I0|split; congruence]. }
  split; [cbn; rewrite <- H1; apply (Forall2_map_eq shape_of); clear - L; induction L as [|s s' l l' K L IH]; constructor; [apply (loaded_shape _ _ K)|exact IH]|].
  split; [exact H2|]. split; [exact H3|].
  exists C, n. cbn. split; [exact H4|]. split.
  { intros s I U. destruct (Sh s I) as (s0 & I0 & U0 & E & _). rewrite E. apply H5; congruence. }
  split; [exact F|]. split; [destruct H7 as [H7|(H7 & H7')]; [left; exact H7|right; split; [exact H7|exact (A _ H7')]]|].
  split; [intros K; exact (H8 (S1 _ K))|].
  unfold MI in *. destruct mon as [[T ts]|].
  - rewrite E2. destruct H9 as (M1 & M2 & M3). split; [exact M1|split; [exact M2|exact (A _ M3)]].
  - destruct H9 as [M|M]; [left; exact M|right; exact (S2 _ M)].
Qed.
Lemma load_RI : forall r gs mon, RI r gs mon ->
  exists gs', map ge gs' = map ge gs /\ RI (with_sigs r (map (on_used (fun s => fst (first_event s))) (sigs r))) gs' mon.
Proof.
  intros r gs mon H. apply (loaded_RI _ _ _ _ H). clear. induction (sigs r) as [|s ss IH]; cbn; constructor; [|exact IH].
  unfold loaded, on_used. destruct (used s); auto.
Qed.
Lemma ready_loaded : forall ss, Forall2 loaded ss (fst (ready ss)).
Proof.
  induction ss as [|s ss IH]; cbn [ready]; [constructor|].
  destruct (used s).
  - destruct (first_event s) as [s1 ev] eqn:E. destruct ev.
    + cbn [fst]. constructor; [right; rewrite E; reflexivity|]. clear. induction ss; constructor; [left; reflexivity|exact IHss].
    + destruct (ready ss) as [ss1 b]. cbn [fst] in *. constructor; [right; rewrite E; reflexivity|exact IH].
  - destruct (ready ss) as [ss1 b]. cbn [fst] in *. constructor; [left; reflexivity|exact IH].
Qed.

Lemma sync_all_RI : forall r C gs, map shape_of (sigs r) = shapes -> inval r = false -> nextev r = false ->
  cstart r = Some C -> (G | C) ->
  Forall2 (fun g s => SB g s /\ (used s = true -> (st s = Synced -> SS C 0 g s) /\
     (st s <> Synced -> exists a c, cur s = Some (a, c) /\ a + delta s * idx s - delta s < C))) gs (sigs r) ->
  forall r' m x v, sync_all r C = (r', m, x, v) ->
  v = VOk /\ same r r' /\ x = sync_status (sigs r') /\ m = min_samples (sigs r') /\
  exists gs', map ge gs' = map ge gs /\ RI r' gs' None.
Proof.
  intros r C gs H1 H2 H3 H4 HC F r' m x v E. unfold sync_all in E. injection E as <- <- <- <-.
  split; [reflexivity|]. split; [split; [|split]; reflexivity|]. split; [reflexivity|]. split; [reflexivity|].
  assert (K : exists gs', Forall2 (fun g g' => ge g' = ge g) gs gs' /\ Forall2 (SI C 0) gs' (map (on_used (sync_one C)) (sigs r))).
  { refine (Forall2_map_r _ _ _ _ _ _ _ F). cbv beta. intros g s (K1 & K2). unfold on_used. destruct (used s) eqn:U.
    - destruct (K2 eq_refl) as (K3 & K4). destruct (sync_one_SI C g s K1 U K3 K4) as (g' & Q1 & Q2 & _). exists g'. auto.
    - exists g. split; [reflexivity|]. split; [exact K1|congruence]. }
  destruct K as (gs' & F1 & F2).
  exists gs'. split; [apply Forall2_map_eq; exact F1|].
  split; [cbn; rewrite map_shape; [exact H1|apply shape_sync_one]|]. split; [exact H2|]. split; [exact H3|].
  exists C, 0. split; [lia|]. split; [intros s _ _; exists 0; reflexivity|]. cbn. split; [exact F2|].
  split; [left; exact H4|]. split; [reflexivity|]. left. auto.
Qed.

Lemma synchronize_RI : forall c r gs mon, grid c = Some G -> RI r gs mon ->
  forall r' m x v, synchronize c r = (r', m, x, v) ->
  v = VOk /\ same r r' /\ x = sync_status (sigs r') /\ 0 <= m /\ (x = Synced -> m = min_samples (sigs r')) /\
  exists gs', map ge gs' = map ge gs /\ RI r' gs' mon.
Proof.
  intros c r gs mon Hc H r' m x v E. unfold synchronize in E.
  assert (Hm : 0 <= min_samples (sigs r)).
  { destruct H as (_ & _ & _ & C & n & _ & _ & F & _). unfold min_samples. apply (min_avail_ok _ _ _ _ F size_max size_max_pos). }
  assert (Same : same r r) by (split; [|split]; reflexivity).
  destruct (sync_status (sigs r)) eqn:X.
  3:{ injection E as <- <- <- <-. split; [reflexivity|]. split; [exact Same|]. split; [congruence|]. split; [exact Hm|]. split; [reflexivity|]. exists gs. auto. }
  - (* a fresh synchronization *)
    destruct (min_samples (sigs r) =? 0) eqn:E0.
    { injection E as <- <- <- <-. split; [reflexivity|]. split; [exact Same|]. split; [congruence|]. split; [exact Hm|]. split; [discriminate|]. exists gs. auto. }
    apply Z.eqb_neq in E0.
    assert (Hcur : forall s, In s (sigs r) -> used s = true -> cur s <> None).
    { intros s I U. destruct H as (_ & _ & _ & C & n & _ & _ & F & _).
      destruct (min_avail_ok _ _ _ _ F size_max size_max_pos) as (_ & K). destruct (K s I U) as (_ & K2). exact (K2 E0). }
    assert (Hmon : mon = None).
    { pose proof (status_cases (sigs r) Unsync) as K. unfold sync_status in X. rewrite X in K.
      destruct mon as [[T ts]|]; [|reflexivity]. exfalso.
      destruct (RI_used _ _ _ H) as (s & rest & Es & Us).
      destruct H as (_ & _ & _ & C & n & _ & _ & _ & _ & _ & (_ & _ & M)).
      destruct K as [(s' & K1 & K2 & K3)|(K & _)].
      - rewrite (M _ K1 K2) in K3. discriminate.
      - rewrite Es in K. rewrite (K s ltac:(left; reflexivity)) in Us. discriminate. }
    destruct (load_RI _ _ _ H) as (g1 & G1 & H1).
    destruct (RI_used _ _ _ H1) as (s1 & rest & Es & Us).
    destruct H1 as (H1 & H2 & H3 & C & n & H4 & H5 & H6 & H7 & H8 & H9).
    remember (with_sigs r (map (on_used (fun s => fst (first_event s))) (sigs r))) as r1 eqn:Er1.
    assert (Hcur1 : forall s, In s (sigs r1) -> used s = true -> cur s <> None).
    { intros s I U. rewrite Er1 in I. cbn in I.
      destruct (in_map_used (fun s => fst (first_event s)) _ s ltac:(intros; apply shape_first_event) I U) as (s0 & I0 & U0 & ->).
      unfold first_event. pose proof (Hcur _ I0 U0). destruct (cur s0) as [[a k]|] eqn:EC; [cbn; congruence|congruence]. }
    cbv zeta in E.
    remember (with_sigs r1 (map (on_used (fun s => with_st s Unsync)) (sigs r1))) as r2 eqn:Er2.
    assert (I2 : forall s, In s (sigs r2) -> used s = true -> exists s0, In s0 (sigs r1) /\ used s0 = true /\ s = with_st s0 Unsync).
    { intros s I U. rewrite Er2 in I. cbn in I. exact (in_map_used (fun s => with_st s Unsync) _ s ltac:(reflexivity) I U). }
    assert (Hcur2 : forall s, In s (sigs r2) -> used s = true -> cur s <> None).
    { intros s I U. destruct (I2 s I U) as (s0 & K1 & K2 & ->). exact (Hcur1 _ K1 K2). }
    destruct (domain_start_ok (sigs r2) (cstart r2)) as (_ & DS).
    assert (Es2 : exists s2, In s2 (sigs r2) /\ used s2 = true).
    { exists (with_st s1 Unsync). split; [|exact Us]. rewrite Er2. cbn. rewrite Es. cbn. unfold on_used at 1. rewrite Us. left. reflexivity. }
    destruct Es2 as (s2 & K1 & K2). destruct (DS s2 K1 K2) as (y & Ey & _).
    rewrite Ey, Hc in E.
    destruct (sync_all (with_start r2 (Some (round_up G y))) (round_up G y)) as [[[r3 m3] x3] v3] eqn:SA.
    assert (Hsh : map shape_of (sigs r2) = shapes).
    { rewrite Er2. cbn. rewrite map_shape; [exact H1|reflexivity]. }
    assert (Hpre : Forall2 (fun g s => SB g s /\ (used s = true -> (st s = Synced -> SS (round_up G y) 0 g s) /\
       (st s <> Synced -> exists a c, cur s = Some (a, c) /\ a + delta s * idx s - delta s < round_up G y))) g1 (sigs r2)).
    { assert (Hy : forall s, In s (sigs r2) -> used s = true -> exists a c, cur s = Some (a, c) /\ a + delta s * idx s <= round_up G y).
      { intros s I U. destruct (DS s I U) as (y' & Ey' & Hy). rewrite Ey in Ey'. injection Ey' as <-.
        pose proof (Hcur2 s I U). destruct (cur s) as [[a k]|]; [|congruence]. exists a, k. split; [reflexivity|].
        pose proof (round_up_ge G y HG). lia. }
      assert (F2 : Forall2 SB g1 (sigs r2)).
      { rewrite Er2. cbn. clear - H6. induction H6 as [|g s gs ss (K & _) F IH]; cbn; constructor; [|exact IH].
        unfold on_used. destruct (used s) eqn:U; [|exact K]. exact K. }
      assert (Hdp : forall g s, SB g s -> 0 < delta s) by (intros g s (_ & _ & Q1 & Q2 & _); rewrite Q2; nia).
      assert (Hun : forall s, In s (sigs r2) -> used s = true -> st s = Unsync).
      { intros s I U. destruct (I2 s I U) as (s0 & _ & _ & ->). reflexivity. }
      clear - F2 Hy Hun Hdp. induction F2 as [|g s gs ss K F IH]; constructor.
      - split; [exact K|]. intros U. split.
        + intros Q. rewrite (Hun s ltac:(left; reflexivity) U) in Q. discriminate.
        + intros _. destruct (Hy s ltac:(left; reflexivity) U) as (a & k & Q1 & Q2). exists a, k. split; [exact Q1|].
          pose proof (Hdp _ _ K). lia.
      - apply IH; intros s' I U; [exact (Hy _ (or_intror I) U)|exact (Hun _ (or_intror I) U)]. }
    destruct (sync_all_RI (with_start r2 (Some (round_up G y))) (round_up G y) g1 Hsh
      ltac:(rewrite Er2; exact H2) ltac:(rewrite Er2; exact H3) eq_refl (round_up_grid G y) Hpre _ _ _ _ SA)
      as (V & Sm & X3 & M3 & gs' & Q1 & Q2).
    injection E as <- <- <- <-. split; [exact V|]. split.
    { destruct Sm as (S1 & S2 & S3). rewrite Er2, Er1 in S1, S2, S3. split; [exact S1|split; [exact S2|exact S3]]. }
    split; [exact X3|]. split.
    { destruct x3; try exact Hm. rewrite M3. destruct Q2 as (_ & _ & _ & C' & n' & _ & _ & F & _). unfold min_samples. apply (min_avail_ok _ _ _ _ F size_max size_max_pos). }
    split; [intros ->; exact M3|]. exists gs'. split; [congruence|]. rewrite Hmon. exact Q2.
  - (* still synchronizing *)
    destruct (min_samples (sigs r) =? 0) eqn:E0.
    { injection E as <- <- <- <-. split; [reflexivity|]. split; [exact Same|]. split; [congruence|]. split; [exact Hm|]. split; [discriminate|]. exists gs. auto. }
    apply Z.eqb_neq in E0.
    assert (Hcur : forall s, In s (sigs r) -> used s = true -> cur s <> None).
    { intros s I U. destruct H as (_ & _ & _ & C & n & _ & _ & F & _).
      destruct (min_avail_ok _ _ _ _ F size_max size_max_pos) as (_ & K). destruct (K s I U) as (_ & K2). exact (K2 E0). }
    assert (Hst : all_in Synced (sigs r) -> False).
    { intros A. pose proof (status_cases (sigs r) Unsync) as K. unfold sync_status in X. rewrite X in K.
      destruct K as (_ & [K|(s & K1 & K2 & K3)]); [discriminate|]. rewrite (A _ K1 K2) in K3. discriminate. }
    assert (Hnu : some_in Unsync (sigs r) -> False).
    { intros (s & K1 & K2 & K3). pose proof (status_cases (sigs r) Unsync) as K. unfold sync_status in X. rewrite X in K.
      destruct K as (K & _). exact (K _ K1 K2 K3). }
    assert (Hsome : some_in Syncing (sigs r)).
    { pose proof (status_cases (sigs r) Unsync) as K. unfold sync_status in X. rewrite X in K.
      destruct K as (_ & [K|K]); [discriminate|exact K]. }
    destruct (load_RI _ _ _ H) as (g1 & G1 & H1).
    assert (Hmon : mon = None).
    { destruct mon as [[T ts]|]; [|reflexivity]. exfalso.
      destruct H as (_ & _ & _ & C & n & _ & _ & _ & _ & _ & (_ & _ & M)). exact (Hst M). }
    subst mon.
    remember (with_sigs r (map (on_used (fun s => fst (first_event s))) (sigs r))) as r1 eqn:Er1.
    assert (Hcur1 : forall s, In s (sigs r1) -> used s = true -> cur s <> None /\ st s <> Unsync).
    { intros s I U. rewrite Er1 in I. cbn in I.
      destruct (in_map_used (fun s => fst (first_event s)) _ s ltac:(intros; apply shape_first_event) I U) as (s0 & I0 & U0 & ->).
      split.
      - unfold first_event. pose proof (Hcur _ I0 U0). destruct (cur s0) as [[a k]|] eqn:EC; [cbn; congruence|congruence].
      - rewrite (proj1 (proj2 (shape_first_event s0))). intros K. apply Hnu. exists s0. auto. }
    destruct H1 as (H1 & H2 & H3 & C & n & H4 & H5 & H6 & H7 & H8 & H9).
    assert (Hsome1 : some_in Syncing (sigs r1)).
    { destruct Hsome as (s & K1 & K2 & K3). exists (fst (first_event s)). rewrite Er1. cbn. split; [|split].
      - apply in_map_iff. exists s. unfold on_used. rewrite K2. auto.
      - pose proof (proj1 (shape_first_event s)) as Q. unfold shape_of in Q. injection Q as Q _ _. congruence.
      - rewrite (proj1 (proj2 (shape_first_event s))). exact K3. }
    specialize (H8 Hsome1). subst n.
    assert (HGC : (G | C)).
    { destruct H9 as [(_ & K)|(s & K1 & K2 & K3)]; [exact K|]. destruct (Hcur1 _ K1 K2) as (_ & K). congruence. }
    assert (Hcs : cstart r1 = Some C).
    { destruct H7 as [K|(_ & K)]; [exact K|]. exfalso. destruct Hsome1 as (s & K1 & K2 & K3). rewrite (K _ K1 K2) in K3. discriminate. }
    cbv zeta in E. rewrite Hcs in E.
    destruct (sync_all r1 C) as [[[r3 m3] x3] v3] eqn:SA.
    assert (Hpre : Forall2 (fun g s => SB g s /\ (used s = true -> (st s = Synced -> SS C 0 g s) /\
       (st s <> Synced -> exists a c, cur s = Some (a, c) /\ a + delta s * idx s - delta s < C))) g1 (sigs r1)).
    { clear - H6 Hcur1. induction H6 as [|g s gs ss (K1 & K2) F IH]; constructor.
      - split; [exact K1|]. intros U. specialize (K2 U). destruct (Hcur1 s ltac:(left; reflexivity) U) as (Q1 & Q2). split.
        + intros _. exact K2.
        + intros NS. destruct (cur s) as [[a k]|] eqn:EC; [|congruence]. exists a, k. split; [reflexivity|].
          unfold SS, pos in K2. rewrite EC in K2. destruct (st s); [congruence| |congruence]. destruct K2 as (K2 & K3). injection K2 as K2. lia.
      - apply IH. intros s' I. exact (Hcur1 _ (or_intror I)). }
    destruct (sync_all_RI r1 C g1 H1 H2 H3 Hcs HGC Hpre _ _ _ _ SA) as (V & Sm & X3 & M3 & gs' & Q1 & Q2).
    injection E as <- <- <- <-. split; [exact V|]. split.
    { destruct Sm as (S1 & S2 & S3). rewrite Er1 in S1, S2, S3. split; [exact S1|split; [exact S2|exact S3]]. }
    split; [exact X3|]. split.
    { destruct x3; try exact Hm. rewrite M3. destruct Q2 as (_ & _ & _ & C' & n' & _ & _ & F & _). unfold min_samples. apply (min_avail_ok _ _ _ _ F size_max size_max_pos). }
    split; [intros ->; exact M3|]. exists gs'. split; [congruence|]. exact Q2.
Qed.

(* ---------- events ---------- *)
Lemma collect_ok : forall C n gs ss, Forall2 (SI C n) gs ss -> forall i ss' es b, collect i ss = (ss', es, b) ->
  b = false /\ map shape_of ss' = map shape_of ss /\
  Forall2 (fun s s' => used s' = used s /\ divi s' = divi s /\ (st s' = st s \/ st s' = Unsync)) ss ss' /\
  exists gs', map ge gs' = map ge gs /\ Forall2 (SI C n) gs' ss' /\
  ((map gt gs' = map gt gs /\ Forall2 (fun s s' => used s' = used s /\ (used s' = true -> st s' = st s)) ss ss' /\
    forall j e, In (j, e) es -> exists j', j = (i + j')%nat /\ exists k d, nth_error (map shape_of ss) j' = Some (false, k, d))
   \/ (some_in Unsync ss' /\ exists j' e k d, In ((i + j')%nat, e) es /\ nth_error (map shape_of ss) j' = Some (true, k, d))).
Proof.
  intros C n gs ss F. induction F as [|g s gs ss H F IH]; intros i ss' es b E; cbn [collect] in E.
  - injection E as <- <- <-. split; [reflexivity|]. split; [reflexivity|]. split; [constructor|]. exists []. split; [reflexivity|]. split; [constructor|].
    left. split; [reflexivity|]. split; [constructor|]. intros j e I. contradiction.
  - destruct (until_data s) as [s1 e1] eqn:EU.
    destruct (collect (S i) ss) as [[ss1 es1] b1] eqn:EC.
    destruct (until_data_SI _ _ _ _ _ _ H EU) as (Sh & g1 & G1 & G2 & G3 & G4).
    destruct (IH _ _ _ _ EC) as (-> & Sh1 & Rel & gs1 & I1 & I2 & I3).
    pose proof Sh as Sh0. unfold shape_of in Sh0. injection Sh0 as Su Sd Sdl.
    injection E as <- <- <-.
    split; [destruct G2 as ((Q & _) & _); rewrite Q; reflexivity|]. split; [cbn; congruence|].
    split. { constructor; [|exact Rel]. split; [exact Su|]. split; [exact Sd|]. destruct e1; [right; exact G3|left; tauto]. }
    exists (g1 :: gs1). split; [cbn; congruence|]. split; [constructor; auto|].
    destruct e1 as [e1|].
    + destruct (used s) eqn:U.
      * right. split.
        -- exists s1. split; [left; reflexivity|]. split; [congruence|exact G3].
        -- exists O, e1, (divi s), (delta s). split; [left; f_equal; lia|]. cbn. unfold shape_of. rewrite U. reflexivity.
      * destruct I3 as [(J1 & J2 & J3)|(J1 & J2)].
        -- left. split; [cbn; rewrite (G4 eq_refl); congruence|]. split; [constructor; [split; [congruence|intros X; congruence]|exact J2]|].
           intros j e [K|K].
           ++ injection K as <- <-. exists O. split; [lia|]. cbn. unfold shape_of. rewrite U. eauto.
           ++ destruct (J3 _ _ K) as (j' & -> & k & d & K'). exists (S j'). split; [lia|]. cbn. eauto.
        -- right. split.
           ++ destruct J1 as (s' & K1 & K2). exists s'. split; [right; exact K1|exact K2].
           ++ destruct J2 as (j' & e & k & d & K1 & K2). exists (S j'), e, k, d. split; [right; replace (i + S j')%nat with (S i + j')%nat by lia; exact K1|exact K2].
    + destruct G3 as (G3 & G5). destruct I3 as [(J1 & J2 & J3)|(J1 & J2)].
      * left. split; [cbn; congruence|]. split; [constructor; [split; [congruence|intros _; exact G5]|exact J2]|].
        intros j e K. destruct (J3 _ _ K) as (j' & -> & k & d & K'). exists (S j'). split; [lia|]. cbn. eauto.
      * right. split.
        -- destruct J1 as (s' & K1 & K2). exists s'. split; [right; exact K1|exact K2].
        -- destruct J2 as (j' & e & k & d & K1 & K2). exists (S j'), e, k, d. split; [replace (i + S j')%nat with (S i + j')%nat by lia; exact K1|exact K2].
Qed.

Definition on_used_event (es : list (nat * note)) : Prop := exists i e k d, In (i, e) es /\ nth_error shapes i = Some (true, k, d).
Definition aside (es : list (nat * note)) : Prop := forall i e, In (i, e) es -> exists k d, nth_error shapes i = Some (false, k, d).

Lemma collect_RI : forall r gs mon, RI r gs mon -> forall ss' es b, collect 0 (sigs r) = (ss', es, b) ->
  b = false /\ exists gs' mon', map ge gs' = map ge gs /\ RI (with_sigs r ss') gs' mon' /\
  ((mon' = mon /\ aside es) \/ (mon' = None /\ on_used_event es)).
Proof.
  intros r gs mon (H1 & H2 & H3 & C & n & H4 & H5 & H6 & H7 & H8 & H9) ss' es b E.
  destruct (collect_ok _ _ _ _ H6 _ _ _ _ E) as (-> & Sh & Rel & gs' & G1 & G2 & G3).
  split; [reflexivity|].
  assert (Sh' : forall s', In s' ss' -> exists s, In s (sigs r) /\ used s' = used s /\ divi s' = divi s /\ (st s' = st s \/ st s' = Unsync)).
  { intros s' I. destruct (Forall2_In_r _ _ _ _ Rel I) as (s & I' & K). exists s. tauto. }
  assert (Base : forall mon', MI C n gs' ss' mon' -> RI (with_sigs r ss') gs' mon').
  { intros mon' M. split; [cbn; congruence|]. split; [exact H2|]. split; [exact H3|]. exists C, n. cbn.
    split; [exact H4|]. split. { intros s I U. destruct (Sh' s I) as (s0 & I0 & U0 & E0 & _). rewrite E0. apply H5; congruence. }
    split; [exact G2|]. split.
    { destruct H7 as [H7|(H7 & H7')]; [left; exact H7|right; split; [exact H7|]]. intros s I U.
      destruct (Sh' s I) as (s0 & I0 & U0 & _ & [E0|E0]); [rewrite E0; apply H7'; congruence|exact E0]. }
    split; [|exact M]. intros (s & I & U & K). apply H8.
    destruct (Sh' s I) as (s0 & I0 & U0 & _ & [E0|E0]); [exists s0; split; [exact I0|split; congruence]|congruence]. }
  exists gs'. destruct G3 as [(J1 & J2 & J3)|(J1 & j & e & k & d & J2 & J3)].
  - exists mon. split; [exact G1|]. split.
    + apply Base. unfold MI in *. destruct mon as [[T ts]|].
      * destruct H9 as (M1 & M2 & M3). rewrite J1. split; [exact M1|split; [exact M2|]].
        intros s I U. destruct (Forall2_In_r _ _ _ _ J2 I) as (s0 & I0 & K1 & K).
        rewrite (K U). apply M3; congruence.
      * destruct H9 as [M|(s & M1 & M2 & M3)]; [left; exact M|right].
        destruct (Forall2_In_l _ _ _ _ Rel M1) as (s' & K1 & K2 & _ & K3). exists s'. split; [exact K1|]. split; [congruence|].
        destruct K3; congruence.
    + left. split; [reflexivity|]. intros i e I. destruct (J3 _ _ I) as (j' & -> & k & d & K). exists k, d. rewrite <- H1. exact K.
  - exists None. split; [exact G1|]. split; [apply Base; right; exact J1|]. right. split; [reflexivity|].
    exists j, e, k, d. split; [exact J2|]. rewrite <- H1. exact J3.
Qed.

(* ---------- reading ---------- *)
Definition fits_m (m : Z) (ss : list sig) : Prop :=
  all_in Synced ss /\ 0 <= m /\ (0 < m -> forall s, In s ss -> used s = true -> m <= available false s /\ cur s <> None).

Lemma read_sig_fine : forall C n m g s, SI C n g s -> 0 < m -> (used s = true -> m <= available false s /\ cur s <> None) ->
  exists s' o, read_sig (m / divi s) s = (s', o, Fine).
Proof.
  intros C n m g s ((B & O & Hd & He & HL) & HS) Hm Ha. unfold read_sig.
  destruct (used s) eqn:U; cbn [negb orb]; [|eauto].
  destruct (m / divi s =? 0) eqn:E0; [eauto|]. apply Z.eqb_neq in E0.
  destruct (Ha eq_refl) as (A1 & A2). destruct (HL eq_refl) as (L & Hh).
  destruct (cur s) as [[a c]|] eqn:EC; [|congruence]. unfold held in Hh. rewrite EC in Hh. destruct Hh as (Hi & Hp).
  unfold available in A1. rewrite EC in A1. rewrite Hp in L.
  assert (Hdp : 0 < delta s) by (rewrite He; nia).
  assert (K1 : 0 <= m / divi s) by (apply Z.div_pos; lia).
  assert (K2 : m / divi s * divi s <= m) by (rewrite Z.mul_comm; apply Z.mul_div_le; lia).
  destruct (rd_ok (delta s) Hdp (q s) a c (m / divi s) (idx s) (ge g) O L Hi ltac:(nia)) as (ps' & cu & j & p' & R & _).
  rewrite R. eauto.
Qed.
Lemma read_samples_fine : forall C n m gs ss, Forall2 (SI C n) gs ss -> 0 < m ->
  (forall s, In s ss -> used s = true -> m <= available false s /\ cur s <> None) ->
  exists ss' w, read_samples m ss = (ss', w, Fine).
Proof.
  intros C n m gs ss F Hm. induction F as [|g s gs ss H F IH]; intros Ha; cbn [read_samples]; [eauto|].
  destruct (read_sig_fine _ _ _ _ _ H Hm (Ha s ltac:(left; reflexivity))) as (s' & o & ->).
  destruct IH as (ss' & w & ->); [intros x I; exact (Ha _ (or_intror I))|]. eauto.
Qed.
Lemma read_samples_ok : forall C n m gs ss, Forall2 (SI C n) gs ss -> 0 < m -> all_in Synced ss ->
  (forall s, In s ss -> used s = true -> (divi s | m) /\ m <= available false s /\ cur s <> None) ->
  exists ss' w gs', read_samples m ss = (ss', w, Fine) /\ map shape_of ss' = map shape_of ss /\ all_in Synced ss'
   /\ map ge gs' = map ge gs /\ Forall2 (SI C (n + m)) gs' ss'
   /\ piece m (C + D * n) (map shape_of ss) (map gt gs) w (map gt gs').
Proof.
  intros C n m gs ss F Hm. induction F as [|g s gs ss H F IH]; intros Hs Ha; cbn [read_samples].
  - exists [], [], []. repeat split; try constructor. intros s I. contradiction.
  - destruct IH as (ss' & w & gs' & R & Sh & Al & G1 & G2 & P).
    { intros x I. exact (Hs _ (or_intror I)). }
    { intros x I. exact (Ha _ (or_intror I)). }
    destruct (used s) eqn:U.
    + destruct (Ha s ltac:(left; reflexivity) U) as (A1 & A2 & A3).
      pose proof (Hs s ltac:(left; reflexivity) U) as Es.
      destruct (read_sig_SI _ _ _ _ _ H U Es A1 ltac:(lia) A3) as (s' & g' & R1 & Sh1 & St1 & Q1 & Q2 & Q3).
      rewrite R1, R. exists (s' :: ss'), (every (delta s) (gt g) (Z.to_nat (m / divi s)) :: w), (g' :: gs').
      split; [reflexivity|]. split; [cbn; congruence|]. split.
      { intros x [<-|I] Ux; [exact St1|exact (Al _ I Ux)]. }
      split; [cbn; congruence|]. split; [constructor; auto|]. cbn [map]. unfold shape_of at 1. rewrite U, Q2.
      constructor; [|exact P]. destruct H as (_ & HS). specialize (HS U). unfold SS in HS. rewrite Es in HS. tauto.
    + unfold read_sig at 1. rewrite U. cbn [negb orb]. rewrite R. exists (s :: ss'), ([] :: w), (g :: gs').
      split; [reflexivity|]. split; [cbn; congruence|]. split.
      { intros x [<-|I] Ux; [congruence|exact (Al _ I Ux)]. }
      split; [cbn; congruence|]. split.
      { constructor; [|exact G2]. destruct H as (H & _). split; [exact H|congruence]. }
      cbn [map]. unfold shape_of at 1. rewrite U. constructor. exact P.
Qed.
Lemma read_samples_zero : forall ss, read_samples 0 ss = (ss, none ss, Fine).
Proof.
  induction ss as [|s ss IH]; cbn [read_samples]; [reflexivity|].
  unfold read_sig. rewrite Zdiv_0_l. replace (0 =? 0) with true by reflexivity. rewrite orb_true_r. rewrite IH. reflexivity.
Qed.
Lemma none_empty : forall ss y, In y (none ss) -> y = [].
Proof. intros ss y I. unfold none in I. apply in_map_iff in I. destruct I as (s & <- & _). reflexivity. Qed.

Definition said (r' : reader) (mon mon' : option (Z * list Z)) (o : outcome) : Prop :=
  exists w es, o = Got 0 w (target r') es true /\ (forall y, In y w -> y = []) /\
    ((mon' = mon /\ aside es) \/ (mon' = None /\ on_used_event es)).

Lemma read_sync_RI : forall c zero r gs mon, grid c = Some G -> min_read c <= 1 -> RI r gs mon ->
  forall r' m x o, read_sync c zero r = (r', m, x, o) -> same r r' /\
  exists gs' mon', map ge gs' = map ge gs /\ RI r' gs' mon' /\
  match o with
  | None => mon' = mon /\ zero = false /\ (x = Synced -> fits_m m (sigs r'))
  | Some o => said r' mon mon' o
  end.
Proof.
  intros c zero r gs mon Hc Hmr H r' m x o E. unfold read_sync in E.
  destruct (collect 0 (sigs r)) as [[ss1 es] b] eqn:EC.
  destruct (collect_RI _ _ _ H _ _ _ EC) as (-> & g1 & mon1 & G1 & H1 & Hev).
  assert (Hinv : inval r = false) by apply H. rewrite Hinv in E. cbn [orb] in E.
  replace (with_inval (with_sigs r ss1) false) with (with_sigs r ss1) in E by (unfold with_inval, with_sigs; cbn; rewrite Hinv; reflexivity).
  destruct (synchronize c (with_sigs r ss1)) as [[[r2 m2] x2] v2] eqn:ES.
  destruct (synchronize_RI _ _ _ _ Hc H1 _ _ _ _ ES) as (-> & Sm & X & Hm & Hmin & g2 & G2 & H2).
  assert (Hinv2 : inval r2 = false) by apply H2. rewrite Hinv2 in E. cbn [negb] in E.
  assert (Sm' : same r r2) by exact Sm.
  destruct es as [|e0 es].
  - assert (mon1 = mon) as ->.
    { destruct Hev as [(K & _)|(_ & i & e & k & d & [] & _)]. exact K. }
    destruct zero.
    + assert (K : exists r3 w, same r2 r3 /\ sigs r3 = sigs r2 /\ cstart r3 = cstart r2 /\ inval r3 = inval r2 /\ nextev r3 = nextev r2 /\ (forall y, In y w -> y = []) /\
        (r3, m2, x2, Some (Got 0 w (target r3) [] true)) = (r', m, x, o)).
      { destruct ((m2 <? min_read c) && event_queued (sigs r2)) eqn:Q.
        - apply andb_true_iff in Q. destruct Q as (Q & _). apply Z.ltb_lt in Q. assert (m2 = 0) as -> by lia.
          rewrite read_samples_zero in E. cbn in E. rewrite ?Hinv2 in E. cbn in E.
          exists (with_sigs r2 (sigs r2)), (none (sigs r2)). split; [split; [|split]; reflexivity|]. 
          split; [reflexivity|]. split; [reflexivity|]. split; [reflexivity|]. split; [reflexivity|]. split; [apply none_empty|exact E].
        - exists r2, (none (sigs r2)). split; [split; [|split]; reflexivity|]. split; [reflexivity|]. split; [reflexivity|]. split; [reflexivity|]. split; [reflexivity|]. split; [apply none_empty|exact E]. }
      destruct K as (r3 & w & S3 & E3 & E4 & E5 & E6 & Hw & K). injection K as <- <- <- <-.
      split. { destruct Sm' as (S1 & S2 & S4). destruct S3 as (S5 & S6 & S7). split; [congruence|split; congruence]. }
      exists g2, mon. split; [congruence|]. split.
      { unfold RI in *. rewrite E3, E4, E5, E6. exact H2. }
      exists w, []. split; [reflexivity|]. split; [exact Hw|]. left. split; [reflexivity|]. intros i e [].
    + injection E as <- <- <- <-. split; [exact Sm'|]. exists g2, mon. split; [congruence|]. split; [exact H2|].
      split; [reflexivity|]. split; [reflexivity|]. intros Hx. specialize (Hmin Hx).
      split.
      * subst x2. pose proof (status_cases (sigs r2) Unsync) as K. fold (sync_status (sigs r2)) in K. rewrite Hx in K. intros s I U. apply (proj1 K); auto.
      * split; [exact Hm|]. intros Hp s I U. destruct H2 as (_ & _ & _ & C & n & _ & _ & F & _).
        destruct (min_avail_ok _ _ _ _ F size_max size_max_pos) as (_ & K). destruct (K s I U) as (K1 & K2).
        rewrite Hmin. unfold min_samples. split; [exact K1|]. apply K2. unfold min_samples in Hmin. lia.
  - injection E as <- <- <- <-. split; [exact Sm'|]. exists g2, mon1. split; [congruence|]. split; [exact H2|].
    exists (none (sigs r2)), (e0 :: es). split; [reflexivity|]. split; [apply none_empty|]. exact Hev.
Qed.

(* ---------- packets that arrive ---------- *)
Definition future (es : list (option Z)) (L : list (nat * pkt)) : Prop :=
  (forall i k d e, nth_error shapes i = Some (true, k, d) -> nth_error es i = Some e -> without_holes d e (of_signal i L))
  /\ (forall i p, In (i, p) L -> okp p).
Lemma until_event_snoc : forall ps p, (forall a c, p = Data a c -> 0 <= c) -> until_event false ps <= until_event false (ps ++ [p]).
Proof.
  intros ps p Hp. induction ps as [|y ps IH]; cbn [until_event app].
  - destruct p as [a c|nl ok|]; [specialize (Hp a c eq_refl); lia|lia|lia].
  - destruct y as [a c|nl ok|]; lia.
Qed.
Lemma of_signal_cons : forall i j p L, of_signal i ((j, p) :: L) = if Nat.eqb j i then p :: of_signal i L else of_signal i L.
Proof. intros i j p L. unfold of_signal. cbn. destruct (Nat.eqb j i); reflexivity. Qed.

Definition put (p : pkt) (s : sig) : sig := with_read s (q s ++ [p]) (cur s) (idx s).
Lemma push_list : forall C n p, okp p -> forall i gs ss, Forall2 (SI C n) gs ss ->
  (forall g s, nth_error gs i = Some g -> nth_error ss i = Some s -> used s = true -> without_holes (delta s) (ge g) [p]) ->
  exists gs', Forall2 (SI C n) gs' (at_sig i (put p) ss) /\ map gt gs' = map gt gs /\
    (forall j g', nth_error gs' j = Some g' -> exists g, nth_error gs j = Some g /\
        (j <> i -> ge g' = ge g) /\ (j = i -> forall s, nth_error ss i = Some s -> used s = true -> ge g' = tail (delta s) (ge g) p)).
Proof.
  intros C n p Hp. induction i as [|i IH]; intros gs ss F W; inversion F as [|g s gs1 ss1 H F1]; subst; cbn [at_sig].
  - exists []. split; [constructor|]. split; [reflexivity|]. intros j g' E. destruct j; discriminate.
  - exists ((if used s then tail (delta s) (ge g) p else ge g, gp g, gt g) :: gs1). split.
    + constructor; [|exact F1]. destruct H as ((B & O & Hd & He & HL) & HS). split.
      * unfold SB, put; cbn. split; [exact B|]. split; [apply Forall_app; split; [exact O|constructor; [exact Hp|constructor]]|].
        split; [exact Hd|]. split; [exact He|]. intros U. destruct (HL U) as (L & Hh). split; [|exact Hh].
        unfold ge, gp; cbn. rewrite U. apply linked_snoc; [exact L|]. exact (W g s eq_refl eq_refl U).
      * intros U. specialize (HS U). exact HS.
    + split; [reflexivity|]. intros j g' E. destruct j as [|j]; cbn in E.
      * injection E as <-. exists g. split; [reflexivity|]. split; [congruence|]. intros _ s0 E0 U0. cbn in E0. injection E0 as <-. unfold ge; cbn. rewrite U0. reflexivity.
      * exists g'. split; [exact E|]. split; [reflexivity|discriminate].
  - exists []. split; [constructor|]. split; [reflexivity|]. intros j g' E. destruct j; discriminate.
  - destruct (IH gs1 ss1 F1 W) as (gs' & K1 & K2 & K3). exists (g :: gs'). split; [constructor; auto|]. split; [cbn; congruence|].
    intros j g' E. destruct j as [|j]; cbn in E.
    + injection E as <-. exists g. split; [reflexivity|]. split; [reflexivity|discriminate].
    + destruct (K3 j g' E) as (g0 & E0 & Q1 & Q2). exists g0. split; [exact E0|]. split; [intros N; apply Q1; congruence|].
      intros E1 s0 Es. apply Q2; [congruence|exact Es].
Qed.
Lemma at_sig_in : forall f, (forall s, shape_of (f s) = shape_of s /\ st (f s) = st s) -> forall i ss s', In s' (at_sig i f ss) -> exists s, In s ss /\ (s' = s \/ s' = f s).
Proof.
  intros f Hf. induction i as [|i IH]; intros [|s ss] s' I; cbn in I; try contradiction.
  - destruct I as [<-|I]; [exists s; split; [left; reflexivity|auto]|exists s'; split; [right; exact I|auto]].
  - destruct I as [<-|I]; [exists s; split; [left; reflexivity|auto]|]. destruct (IH _ _ I) as (s0 & I0 & K). exists s0. split; [right; exact I0|exact K].
Qed.
Lemma at_sig_in2 : forall f i ss s, In s ss -> exists s', In s' (at_sig i f ss) /\ (s' = s \/ s' = f s).
Proof.
  intros f. induction i as [|i IH]; intros [|s0 ss] s I; cbn in I; try contradiction; cbn [at_sig].
  - destruct I as [<-|I]; [exists (f s0); split; [left; reflexivity|auto]|exists s; split; [right; exact I|auto]].
  - destruct I as [<-|I]; [exists s0; split; [left; reflexivity|auto]|]. destruct (IH _ _ I) as (s' & I0 & K). exists s'. split; [right; exact I0|exact K].
Qed.
Lemma at_sig_shape : forall f, (forall s, shape_of (f s) = shape_of s) -> forall i ss, map shape_of (at_sig i f ss) = map shape_of ss.
Proof.
  intros f Hf. induction i as [|i IH]; intros [|s ss]; cbn; try reflexivity; [rewrite Hf; reflexivity|rewrite IH; reflexivity].
Qed.

Lemma push_RI : forall r gs mon i p L, RI r gs mon -> future (map ge gs) ((i, p) :: L) ->
  exists gs', RI (push r (i, p)) gs' mon /\ future (map ge gs') L /\ same r (push r (i, p)).
Proof.
  intros r gs mon i p L (H1 & H2 & H3 & C & n & H4 & H5 & H6 & H7 & H8 & H9) (Fu & Ok).
  assert (Hp : okp p) by (apply (Ok i p); left; reflexivity).
  assert (Sh : forall j s, nth_error (sigs r) j = Some s -> nth_error shapes j = Some (shape_of s)).
  { intros j s E. rewrite <- H1. apply map_nth_error. exact E. }
  assert (W : forall g s, nth_error gs i = Some g -> nth_error (sigs r) i = Some s -> used s = true -> without_holes (delta s) (ge g) (p :: of_signal i L)).
  { intros g s Eg Es U. pose proof (Sh _ _ Es) as Q. unfold shape_of in Q. rewrite U in Q.
    pose proof (Fu i _ _ _ Q (map_nth_error ge i gs Eg)) as K. rewrite of_signal_cons, Nat.eqb_refl in K. exact K. }
  destruct (push_list C n p Hp i gs (sigs r) H6) as (gs' & K1 & K2 & K3).
  { intros g s Eg Es U. pose proof (W g s Eg Es U) as K. destruct p as [a c|nl ok|]; cbn in *; tauto. }
  exists gs'. split; [|split; [|split; [|split]; reflexivity]].
  - unfold push. cbn [fst snd]. fold (put p).
    split; [cbn; rewrite at_sig_shape; [exact H1|reflexivity]|]. split; [exact H2|]. split; [exact H3|].
    exists C, n. cbn. split; [exact H4|].
    assert (A : forall x, all_in x (sigs r) -> all_in x (at_sig i (put p) (sigs r))).
    { intros x K s I U. destruct (at_sig_in (put p) ltac:(intros; split; reflexivity) _ _ _ I) as (s0 & I0 & [->| ->]); exact (K _ I0 U). }
    split. { intros s I U. destruct (at_sig_in (put p) ltac:(intros; split; reflexivity) _ _ _ I) as (s0 & I0 & [->| ->]); exact (H5 _ I0 U). }
    split; [exact K1|]. split; [destruct H7 as [H7|(H7 & H7')]; [left; exact H7|right; split; [exact H7|exact (A _ H7')]]|].
    split. { intros (s & I & U & K). apply H8. destruct (at_sig_in (put p) ltac:(intros; split; reflexivity) _ _ _ I) as (s0 & I0 & [->| ->]); exists s0; auto. }
    unfold MI in *. destruct mon as [[T ts]|].
    + rewrite K2. destruct H9 as (M1 & M2 & M3). split; [exact M1|split; [exact M2|exact (A _ M3)]].
    + destruct H9 as [M|(s & I & U & K)]; [left; exact M|right]. destruct (at_sig_in2 (put p) i _ _ I) as (s' & I' & [->| ->]); [exists s; auto|exists (put p s); auto].
  - split; [|intros j x I; exact (Ok j x (or_intror I))].
    intros j k d e Q Ee. rewrite nth_error_map in Ee. destruct (nth_error gs' j) as [g'|] eqn:Eg; [|discriminate]. cbn in Ee. injection Ee as <-.
    destruct (K3 j g' Eg) as (g & E0 & J1 & J2).
    destruct (Nat.eq_dec j i) as [->|N].
    + destruct (nth_error (sigs r) i) as [s|] eqn:Es.
      * pose proof (Sh _ _ Es) as Q'. rewrite Q in Q'. injection Q' as U -> ->. symmetry in U.
        rewrite (J2 eq_refl s eq_refl U). pose proof (W g s E0 eq_refl U) as K.
        destruct p as [a c|nl ok|]; cbn in *; tauto.
      * exfalso. rewrite <- H1 in Q. rewrite nth_error_map, Es in Q. discriminate.
    + rewrite (J1 N). pose proof (Fu j k d _ Q (map_nth_error ge j gs E0)) as K. rewrite of_signal_cons in K.
      replace (Nat.eqb i j) with false in K by (symmetry; apply Nat.eqb_neq; congruence). exact K.
Qed.

Definition last_ok (last : Z * sync) (r : reader) : Prop := snd last = Synced -> fits_m (fst last) (sigs r).
Lemma fits_loaded : forall m ss ss', fits_m m ss -> Forall2 loaded ss ss' -> fits_m m ss'.
Proof.
  intros m ss ss' (H1 & H2 & H3) L. split; [|split; [exact H2|]].
  - intros s' I U. destruct (Forall2_In_r _ _ _ _ L I) as (s & I0 & K). destruct (loaded_shape _ _ K) as (K1 & K2).
    unfold shape_of in K1. injection K1 as K1 _ _. rewrite K2. apply H1; congruence.
  - intros Hm s' I U. destruct (Forall2_In_r _ _ _ _ L I) as (s & I0 & K). destruct (loaded_shape _ _ K) as (K1 & _).
    unfold shape_of in K1. injection K1 as K1 _ _. destruct (H3 Hm s I0 ltac:(congruence)) as (A1 & A2).
    assert (s' = s) as ->; [|auto]. destruct K as [->| ->]; [reflexivity|]. unfold first_event. destruct (cur s); [reflexivity|congruence].
Qed.
Lemma fits_push : forall r gs mon i p L m, RI r gs mon -> future (map ge gs) ((i, p) :: L) -> fits_m m (sigs r) -> fits_m m (sigs (push r (i, p))).
Proof.
  intros r gs mon i p L m H (Fu & _) (F1 & F2 & F3). unfold push. cbn [fst snd sigs with_sigs]. fold (put p).
  split; [|split; [exact F2|]].
  - intros s I U. destruct (at_sig_in (put p) ltac:(intros; split; reflexivity) _ _ _ I) as (s0 & I0 & [->| ->]); exact (F1 _ I0 U).
  - intros Hm. specialize (F3 Hm).
    assert (W : forall s, nth_error (sigs r) i = Some s -> used s = true -> forall a c, p = Data a c -> 0 <= c).
    { intros s Es U a c ->. destruct H as (H1 & _ & _ & C & n & _ & _ & F & _).
      assert (Q : nth_error shapes i = Some (true, divi s, delta s)) by (rewrite <- H1, <- U; apply (map_nth_error shape_of _ _ Es)).
      assert (X : exists g, nth_error gs i = Some g).
      { clear - F Es. revert i Es. induction F as [|g s0 gs ss K F IH]; intros i Es; destruct i; try discriminate; cbn in *; eauto. }
      destruct X as (g & Eg). pose proof (Fu i _ _ _ Q (map_nth_error ge i gs Eg)) as K.
      rewrite of_signal_cons, Nat.eqb_refl in K. cbn in K. tauto. }
    assert (Dv : forall s, In s (sigs r) -> 0 < divi s).
    { intros s I. destruct H as (_ & _ & _ & C & n & _ & _ & F & _). destruct (Forall2_In_r _ _ _ _ F I) as (g & _ & ((_ & _ & K & _) & _)). exact K. }
    clear - F3 W Dv. revert i W. induction (sigs r) as [|s ss IH]; intros i W x I U; destruct i; cbn in I; try contradiction.
    + destruct I as [<-|I]; [|exact (F3 _ (or_intror I) U)].
      destruct (F3 s ltac:(left; reflexivity) U) as (A1 & A2). split; [|exact A2].
      assert (W' : forall a c, p = Data a c -> 0 <= c) by (intros a c; exact (W s eq_refl U a c)).
      pose proof (until_event_snoc (q s) p W'). pose proof (Dv s ltac:(left; reflexivity)).
      unfold available, put in *; cbn in *. nia.
    + destruct I as [<-|I]; [exact (F3 _ ltac:(left; reflexivity) U)|].
      refine (IH _ _ i _ x I U); [intros y Iy; exact (F3 _ (or_intror Iy))|intros y Iy; exact (Dv _ (or_intror Iy))|exact W].
Qed.

Lemma notify_RI : forall r gs mon i, RI r gs mon -> exists gs', map ge gs' = map ge gs /\ RI (notify r i) gs' mon /\ same r (notify r i)
  /\ (forall m, fits_m m (sigs r) -> fits_m m (sigs (notify r i))).
Proof.
  intros r gs mon i H. unfold notify. rewrite (proj1 (proj2 H)).
  destruct (loaded_RI _ _ _ _ H (ready_loaded (sigs r))) as (gs' & G1 & G2). exists gs'. split; [exact G1|]. split; [exact G2|].
  split; [split; [|split]; reflexivity|]. intros m F. cbn. exact (fits_loaded _ _ _ F (ready_loaded (sigs r))).
Qed.
Lemma same_trans : forall a b c, same a b -> same b c -> same a c.
Proof. intros a b c (A1 & A2 & A3) (B1 & B2 & B3). split; [congruence|split; congruence]. Qed.

Lemma arrive_RI : forall b r gs mon L, RI r gs mon -> future (map ge gs) (b ++ L) ->
  exists gs', RI (arrive r b) gs' mon /\ future (map ge gs') L /\ same r (arrive r b) /\
   (forall m, fits_m m (sigs r) -> fits_m m (sigs (arrive r b))).
Proof.
  induction b as [|[i p] b IH]; intros r gs mon L H Fu.
  - exists gs. split; [exact H|]. split; [exact Fu|]. split; [split; [|split]; reflexivity|auto].
  - cbn [app] in Fu. destruct (push_RI _ _ _ _ _ _ H Fu) as (g1 & H1 & F1 & S1).
    destruct (notify_RI _ _ _ i H1) as (g2 & G2 & H2 & S2 & K2).
    rewrite <- G2 in F1. destruct (IH _ _ _ _ H2 F1) as (g3 & H3 & F3 & S3 & K3).
    exists g3. unfold arrive in *. cbn [fold_left fst]. split; [exact H3|]. split; [exact F3|]. split; [exact (same_trans _ _ _ (same_trans _ _ _ S1 S2) S3)|].
    intros m Fm. apply K3, K2. exact (fits_push _ _ _ _ _ _ _ H Fu Fm).
Qed.
Lemma arrive_all_RI : forall bs r gs mon L, RI r gs mon -> future (map ge gs) (concat bs ++ L) ->
  exists gs', RI (fold_left arrive bs r) gs' mon /\ future (map ge gs') L.
Proof.
  induction bs as [|b bs IH]; intros r gs mon L H Fu; cbn in *.
  - exists gs. auto.
  - rewrite <- app_assoc in Fu. destruct (arrive_RI _ _ _ _ _ H Fu) as (g1 & H1 & F1 & _). exact (IH _ _ _ _ H1 F1).
Qed.

Lemma wait_RI : forall c zero, grid c = Some G -> min_read c <= 1 -> forall bs r gs mon last L, RI r gs mon -> last_ok last r ->
  (snd last = Synced -> zero = false) ->
  future (map ge gs) (concat bs ++ L) ->
  forall r' last' o rest, wait c zero bs r last = (r', last', o, rest) -> same r r' /\
  exists gs' mon', RI r' gs' mon' /\ future (map ge gs') (concat rest ++ L) /\
  match o with
  | None => mon' = mon /\ last_ok last' r' /\ (snd last' = Synced -> zero = false)
  | Some o => said r' mon mon' o
  end.
Proof.
  intros c zero Hc Hmr.
  assert (Cond : forall r gs mon last, RI r gs mon -> last_ok last r -> (snd last = Synced -> zero = false) ->
    forall r' last' o stop, condition c zero r last = (r', last', o, stop) -> same r r' /\
    exists gs' mon', map ge gs' = map ge gs /\ RI r' gs' mon' /\
    match o with None => mon' = mon /\ last_ok last' r' /\ (snd last' = Synced -> zero = false) | Some o => said r' mon mon' o /\ stop = true end).
  { intros r gs mon last H La Lz r' last' o stop E. unfold condition in E.
    pose proof (ready_loaded (sigs r)) as Lo. destruct (ready (sigs r)) as [ss b] eqn:ER. cbn [fst] in Lo.
    destruct (loaded_RI _ _ _ _ H Lo) as (g1 & G1 & H1).
    destruct b; cbn [negb] in E.
    - destruct (read_sync c zero (with_sigs r ss)) as [[[r2 m] x] o2] eqn:ES.
      destruct (read_sync_RI _ _ _ _ _ Hc Hmr H1 _ _ _ _ ES) as (Sm & g2 & mon2 & G2 & H2 & Q).
      assert (Sm' : same r r2) by exact Sm.
      destruct o2 as [o2|]; injection E as <- <- <- <-.
      + split; [exact Sm'|]. exists g2, mon2. split; [congruence|]. split; [exact H2|]. split; [exact Q|reflexivity].
      + split; [exact Sm'|]. exists g2, mon2. split; [congruence|]. split; [exact H2|]. destruct Q as (Q1 & Q2 & Q3).
        split; [exact Q1|]. split; [exact Q3|]. intros _. exact Q2.
    - injection E as <- <- <- <-. split; [split; [|split]; reflexivity|]. exists g1, mon. split; [exact G1|]. split; [exact H1|].
      split; [reflexivity|]. split; [|exact Lz]. intros K. cbn. exact (fits_loaded _ _ _ (La K) Lo). }
  induction bs as [|b bs IH]; intros r gs mon last L H La Lz Fu r' last' o rest E; cbn [wait] in E;
    destruct (condition c zero r last) as [[[r1 l1] o1] stop] eqn:EC;
    destruct (Cond _ _ _ _ H La Lz _ _ _ _ EC) as (Sm & g1 & mon1 & G1 & H1 & Q).
  - assert (E' : (r1, l1, o1, @nil (list (nat * pkt))) = (r', last', o, rest)) by (destruct stop; exact E).
    injection E' as <- <- <- <-. split; [exact Sm|]. exists g1, mon1. split; [exact H1|]. rewrite G1. split; [exact Fu|].
    destruct o1; [exact (proj1 Q)|exact Q].
  - destruct stop.
    + injection E as <- <- <- <-. split; [exact Sm|]. exists g1, mon1. split; [exact H1|]. rewrite G1. split; [exact Fu|].
      destruct o1; [exact (proj1 Q)|exact Q].
    + destruct o1 as [o1|]; [destruct Q; discriminate|]. destruct Q as (-> & La1 & Lz1).
      cbn [concat] in Fu. rewrite <- app_assoc in Fu. rewrite <- G1 in Fu.
      destruct (arrive_RI _ _ _ _ _ H1 Fu) as (g2 & H2 & F2 & S2 & K2).
      assert (La2 : last_ok l1 (arrive r1 b)) by (intros K; apply K2; exact (La1 K)).
      destruct (IH _ _ _ _ _ H2 La2 Lz1 F2 _ _ _ _ E) as (S3 & g3 & mon3 & H3 & F3 & Q3).
      split; [exact (same_trans _ _ _ (same_trans _ _ _ Sm S2) S3)|]. exists g3, mon3. auto.
Qed.

(** A piece handed out by the last part of a read, if it is whole. *)
Definition whole_piece (r' : reader) (gs : list ghost) (mon : option (Z * list Z)) (k : Z) (w : list (list Z)) : Prop :=
  (forall u d, In (true, u, d) shapes -> (u | k)) ->
  exists T ts nx gs', (mon = Some (T, ts) \/ (mon = None /\ (G | T) /\ cstart r' = Some T)) /\ piece k T shapes ts w nx
   /\ map ge gs' = map ge gs /\ RI r' gs' (Some (T + D * k, nx)).
Definition handed (r r' : reader) (gs : list ghost) (mon : option (Z * list Z)) (o : outcome) : Prop :=
  exists k w, buf r' = buf r /\ calls r' = calls r /\ want r' = want r - k /\ 0 < k <= want r
   /\ o = Got 0 w (target r') [] true /\ whole_piece r' gs mon k w.

Lemma read_now : forall r gs mon m, RI r gs mon -> fits_m m (sigs r) -> 0 < m -> 0 < want r ->
  exists ss' w, read_samples (Z.min (want r) m) (sigs r) = (ss', w, Fine) /\ no_offset (sigs r) = false
   /\ forall n, whole_piece (with_want (with_sigs r ss') n) gs mon (Z.min (want r) m) w.
Proof.
  intros r gs mon m H (Al & _ & Av) Hm Hw. specialize (Av Hm).
  destruct (RI_used _ _ _ H) as (s0 & rest & Es & Us).
  destruct H as (H1 & H2 & H3 & C & n & H4 & H5 & H6 & H7 & H8 & H9).
  assert (Hk : 0 < Z.min (want r) m) by lia.
  assert (Av' : forall s, In s (sigs r) -> used s = true -> Z.min (want r) m <= available false s /\ cur s <> None).
  { intros s I U. destruct (Av s I U) as (A1 & A2). split; [lia|exact A2]. }
  destruct (read_samples_fine _ _ _ _ _ H6 Hk Av') as (ss' & w & R). exists ss', w. split; [exact R|]. split.
  { rewrite Es. cbn. destruct (Av s0 ltac:(rewrite Es; left; reflexivity) Us) as (_ & A). destruct (cur s0); [reflexivity|congruence]. }
  intros n0 Wh.
  destruct (read_samples_ok C n (Z.min (want r) m) gs (sigs r) H6 Hk Al) as (ss2 & w2 & g2 & R2 & Sh2 & Al2 & G2 & F2 & P2).
  { intros s I U. split; [|exact (Av' s I U)]. apply (Wh (divi s) (delta s)). rewrite <- H1, <- U. exact (in_map shape_of _ _ I). }
  rewrite R in R2. injection R2 as <- <-.
  assert (Hcs : cstart r = Some C).
  { destruct H7 as [H7|(_ & H7')]; [exact H7|]. exfalso.
    pose proof (Al s0 ltac:(rewrite Es; left; reflexivity) Us) as A. rewrite (H7' s0 ltac:(rewrite Es; left; reflexivity) Us) in A. discriminate. }
  exists (C + D * n), (map gt gs), (map gt g2), g2. split.
  { unfold MI in H9. destruct mon as [[T ts]|].
    - left. destruct H9 as (-> & -> & _). reflexivity.
    - right. split; [reflexivity|]. destruct H9 as [(-> & K)|(s & I & U & K)]; [rewrite Z.mul_0_r, Z.add_0_r; split; [exact K|exact Hcs]|].
      rewrite (Al _ I U) in K. discriminate. }
  split; [rewrite <- H1; exact P2|]. split; [exact G2|].
  split; [cbn; congruence|]. split; [exact H2|]. split; [exact H3|]. exists C, (n + Z.min (want r) m). cbn.
  split; [lia|]. split.
  { intros s I U. assert (Sx : In (shape_of s) shapes) by (rewrite <- H1, <- Sh2; apply in_map; exact I).
    apply Z.divide_add_r.
    - rewrite <- H1 in Sx. apply in_map_iff in Sx. destruct Sx as (s1 & E1 & I1). unfold shape_of in E1. injection E1 as E1 E2 E3. rewrite <- E2. apply H5; congruence.
    - unfold shape_of in Sx. rewrite U in Sx. exact (Wh _ _ Sx). }
  split; [exact F2|]. split; [left; exact Hcs|].
  split. { intros (s & I & U & K). rewrite (Al2 _ I U) in K. discriminate. }
  split; [reflexivity|]. split; [lia|exact Al2].
Qed.

Lemma read_rest_RI : forall c zero r gs mon m x, grid c = Some G -> min_read c <= 1 -> RI r gs mon -> last_ok (m, x) r ->
  (x = Synced -> zero = false) -> 0 <= want r -> (zero = false -> 0 < want r) ->
  forall r' o, read_rest c zero r m x = (r', o) ->
  (same r r' /\ exists gs' mon', map ge gs' = map ge gs /\ RI r' gs' mon' /\ said r' mon mon' o) \/ handed r r' gs mon o.
Proof.
  intros c zero r gs mon m x Hc Hmr H La Lz Hw Hz r' o E. unfold read_rest in E.
  assert (K : exists r1 m1 x1 o1 gs1 mon1,
     match x with Synced => (r, m, x, None) | _ => read_sync c zero r end = (r1, m1, x1, o1) /\ same r r1 /\ map ge gs1 = map ge gs /\ RI r1 gs1 mon1
     /\ match o1 with None => mon1 = mon /\ zero = false /\ (x1 = Synced -> fits_m m1 (sigs r1)) | Some o => said r1 mon mon1 o end).
  { destruct (match x with Synced => true | _ => false end) eqn:X.
    - destruct x; try discriminate. exists r, m, Synced, None, gs, mon. split; [reflexivity|]. split; [split; [|split]; reflexivity|].
      split; [reflexivity|]. split; [exact H|]. split; [reflexivity|]. split; [exact (Lz eq_refl)|]. exact La.
    - destruct (read_sync c zero r) as [[[r1 m1] x1] o1] eqn:ES.
      destruct (read_sync_RI _ _ _ _ _ Hc Hmr H _ _ _ _ ES) as (S1 & g1 & mon1 & K). exists r1, m1, x1, o1, g1, mon1.
      split; [destruct x; try discriminate; reflexivity|]. split; [exact S1|]. exact K. }
  destruct K as (r1 & m1 & x1 & o1 & g1 & mon1 & E1 & S1 & G1 & H1 & Q). rewrite E1 in E. clear E1.
  assert (Hinv : inval r1 = false) by apply H1.
  destruct o1 as [o1|].
  { injection E as <- <-. left. split; [exact S1|]. exists g1, mon1. auto. }
  destruct Q as (-> & Zf & Q).
  assert (Nothing : (r1, Got 0 (none (sigs r1)) (target r1) [] true) = (r', o) ->
     same r r' /\ exists gs' mon', map ge gs' = map ge gs /\ RI r' gs' mon' /\ said r' mon mon' o).
  { intros X. injection X as <- <-. split; [exact S1|]. exists g1, mon. split; [exact G1|]. split; [exact H1|].
    exists (none (sigs r1)), []. split; [reflexivity|]. split; [apply none_empty|]. left. split; [reflexivity|]. intros i e []. }
  destruct x1; try (left; apply Nothing; rewrite Hinv in E; exact E).
  destruct (0 <? m1) eqn:Em; [|left; apply Nothing; rewrite Hinv in E; exact E]. apply Z.ltb_lt in Em.
  destruct S1 as (B1 & B2 & B3). specialize (Hz Zf).
  destruct (read_now _ _ _ _ H1 (Q eq_refl) Em ltac:(lia)) as (ss' & w & R & NO & WP).
  rewrite NO, R in E. cbn [inval with_want with_sigs] in E. rewrite Hinv in E. injection E as <- <-.
  right. exists (Z.min (want r1) m1), w. cbn. split; [exact B1|]. split; [exact B2|]. split; [lia|]. split; [lia|]. split; [reflexivity|].
  intros Wh. destruct (WP (want r1 - Z.min (want r1) m1) Wh) as (T & ts & nx & gs' & P1 & P2 & P3 & P4). exists T, ts, nx, gs'.
  split; [exact P1|]. split; [exact P2|]. split; [congruence|exact P4].
Qed.

Lemma lcm_pos : forall C n gs ss, Forall2 (SI C n) gs ss -> 0 < divs_lcm ss.
Proof.
  intros C n gs ss F. induction F as [|g s gs ss H F IH]; cbn [divs_lcm]; [lia|].
  destruct (used s); [|exact IH]. destruct H as ((_ & _ & Hd & _) & _).
  pose proof (Z.lcm_nonneg (divi s) (divs_lcm ss)). pose proof (Z.lcm_eq_0 (divi s) (divs_lcm ss)). lia.
Qed.

Lemma read_packets_RI : forall c limit r gs mon L, grid c = Some G -> min_read c <= 1 -> RI r gs mon -> 0 <= want r ->
  future (map ge gs) (concat (match limit with Some bs => bs | None => [] end) ++ L) ->
  forall r' o rest, read_packets c limit r = (r', o, rest) ->
  exists r1 gs1 mon1, same r r1 /\ RI r1 gs1 mon1 /\ future (map ge gs1) (concat rest ++ L) /\
  ((r' = r1 /\ said r' mon mon1 o) \/ (mon1 = mon /\ handed r1 r' gs1 mon o)).
Proof.
  intros c limit r gs mon L Hc Hmr H Hw Fu r' o rest E. unfold read_packets in E.
  assert (K : exists r0 m x o0 rest0 g0 mon0,
    match limit with Some bs => wait c (want r =? 0) bs r (0, Unsync) | None => (r, (0, Unsync), None, []) end = (r0, (m, x), o0, rest0)
    /\ same r r0 /\ RI r0 g0 mon0 /\ future (map ge g0) (concat rest0 ++ L) /\
    match o0 with None => mon0 = mon /\ last_ok (m, x) r0 /\ (x = Synced -> (want r =? 0) = false) | Some o => said r0 mon mon0 o end).
  { destruct limit as [bs|].
    - destruct (wait c (want r =? 0) bs r (0, Unsync)) as [[[r0 [m x]] o0] rest0] eqn:EW.
      destruct (wait_RI c (want r =? 0) Hc Hmr bs r gs mon (0, Unsync) L H ltac:(intros K; discriminate) ltac:(intros K; discriminate) Fu _ _ _ _ EW)
        as (S0 & g0 & mon0 & K1 & K2 & K3).
      exists r0, m, x, o0, rest0, g0, mon0. auto 6.
    - exists r, 0, Unsync, None, [], gs, mon. split; [reflexivity|]. split; [split; [|split]; reflexivity|]. split; [exact H|]. split; [exact Fu|].
      split; [reflexivity|]. split; [intros K; discriminate|discriminate]. }
  destruct K as (r0 & m & x & o0 & rest0 & g0 & mon0 & E0 & S0 & H0 & F0 & Q). rewrite E0 in E. clear E0.
  destruct o0 as [o0|].
  { injection E as <- <- <-. exists r0, g0, mon0. auto 6. }
  destruct Q as (-> & La & Lz).
  destruct (read_rest c (want r =? 0) r0 m x) as [r2 o2] eqn:ER. injection E as <- <- <-.
  assert (W0 : want r0 = want r) by apply S0.
  destruct (read_rest_RI c (want r =? 0) r0 g0 mon m x Hc Hmr H0 La Lz ltac:(lia) ltac:(intros K; apply Z.eqb_neq in K; lia) _ _ ER) as [(S1 & g1 & mon1 & G1 & H1 & Q1)|Hd].
  - exists r2, g1, mon1. split; [exact (same_trans _ _ _ S0 S1)|]. split; [exact H1|]. rewrite G1. auto.
  - exists r0, g0, mon. auto 6.
Qed.

Lemma after_call : forall c limit r gs mon L n, grid c = Some G -> min_read c <= 1 -> RI r gs mon -> want r = n -> 0 <= n -> target r <> Stale ->
  future (map ge gs) (concat (match limit with Some bs => bs | None => [] end) ++ L) ->
  forall r' o rest, read_packets c limit r = (r', o, rest) ->
  (forall k w to es ok u d, set_count (n - want r') o = Got k w to es ok -> In (true, u, d) shapes -> (u | k)) ->
  exists gs' mon', RI r' gs' mon' /\ future (map ge gs') (concat rest ++ L) /\ (forall f, set_count (n - want r') o <> Dies f) /\
    forall cl l, n <= asked cl -> story D G shapes mon' l -> story D G shapes mon ((cl, set_count (n - want r') o) :: l).
Proof.
  intros c limit r gs mon L n Hc Hmr H Hn Hn0 Ht Fu r' o rest E Wh.
  assert (TS : forall a b : reader, buf b = buf a -> calls b = calls a -> target a <> Stale -> target b <> Stale).
  { intros a b E1 E2. unfold target. rewrite E1, E2. auto. }
  destruct (read_packets_RI _ _ _ _ _ _ Hc Hmr H ltac:(lia) Fu _ _ _ E) as (r1 & g1 & mon1 & S1 & H1 & F1 & [(-> & w & es & -> & Hw & Ev)|(-> & k & w & B1 & B2 & B3 & Hk & -> & P)]).
  - exists g1, mon1. split; [exact H1|]. split; [exact F1|]. cbn [set_count]. split; [discriminate|].
    destruct S1 as (S1 & S2 & S3). replace (n - want r1) with 0 by lia.
    intros cl l Hc' St. pose proof (TS _ _ S1 S2 Ht) as Ht'. destruct Ev as [(-> & Ev)|(-> & Ev)]; [apply story_aside; assumption|apply story_event; assumption].
  - destruct S1 as (S1 & S2 & S3). cbn [set_count] in *. replace (n - want r') with k in * by lia.
    destruct P as (T & ts & nx & gs' & P1 & P2 & P3 & P4).
    { intros u d I. exact (Wh _ _ _ _ _ u d eq_refl I). }
    exists gs', (Some (T + D * k, nx)). split; [exact P4|]. rewrite P3. split; [exact F1|]. split; [discriminate|].
    intros cl l Hc' St. refine (story_piece _ _ _ mon cl k w (target r') l T ts nx _ _ _ P2 St); [lia| |destruct P1 as [P1|(P1 & P1' & _)]; auto].
    exact (TS r r' ltac:(congruence) ltac:(congruence) Ht).
Qed.

(** With all signals used, synchronized and holding data, a read hands out data. *)
Lemma collect_none : forall C n gs ss i, Forall2 (SI C n) gs ss -> (forall s, In s ss -> cur s <> None) -> collect i ss = (ss, [], false).
Proof.
  intros C n gs ss i F. revert i. induction F as [|g s gs ss H F IH]; intros i Hc; cbn [collect]; [reflexivity|].
  assert (E : until_data s = (s, None)).
  { unfold until_data, first_event. pose proof (Hc s ltac:(left; reflexivity)). destruct (cur s); [reflexivity|congruence]. }
  rewrite E, IH; [|intros x I; exact (Hc _ (or_intror I))]. destruct H as ((-> & _) & _). reflexivity.
Qed.
Lemma reader_eta : forall r, with_inval (with_sigs r (sigs r)) (inval r) = r.
Proof. intros []. reflexivity. Qed.
Lemma read_now_call : forall c r gs mon count, grid c = Some G -> RI r gs mon -> (forall s, In s (sigs r) -> used s = true) ->
  all_in Synced (sigs r) -> 0 < min_samples (sigs r) -> min_read c <= count -> 0 < count / divs_lcm (sigs r) ->
  exists r' w, do_read c false false count None r = (r', Got (Z.min (count / divs_lcm (sigs r) * divs_lcm (sigs r)) (min_samples (sigs r))) w Mine [] true, [])
    /\ whole_piece r' gs mon (Z.min (count / divs_lcm (sigs r) * divs_lcm (sigs r)) (min_samples (sigs r))) w /\ cstart r' = cstart r.
Proof.
  intros c r gs mon count Hc H Us Al Hm Hmr Hl.
  assert (Hi : inval r = false) by apply H. assert (Hn : nextev r = false) by apply H.
  assert (Lp : 0 < divs_lcm (sigs r)) by (destruct H as (_ & _ & _ & C & n & _ & _ & F & _); exact (lcm_pos _ _ _ _ F)).
  assert (Hcur : forall s, In s (sigs r) -> used s = true -> min_samples (sigs r) <= available false s /\ cur s <> None).
  { intros s I U. destruct H as (_ & _ & _ & C & n & _ & _ & F & _).
    destruct (min_avail_ok _ _ _ _ F size_max size_max_pos) as (_ & K). destruct (K s I U) as (K1 & K2). unfold min_samples in *. split; [exact K1|apply K2; lia]. }
  set (n := count / divs_lcm (sigs r) * divs_lcm (sigs r)).
  assert (Hn0 : 0 < n) by (unfold n; nia).
  set (r1 := prepare (with_call r) n (Some (calls r + 1))).
  assert (H1 : RI r1 gs mon) by exact H.
  assert (Fm : fits_m (min_samples (sigs r)) (sigs r1)).
  { split; [exact Al|]. split; [lia|]. intros _. exact Hcur. }
  assert (RS : read_sync c false r1 = (r1, min_samples (sigs r), Synced, None)).
  { unfold read_sync. change (sigs r1) with (sigs r).
    destruct H as (_ & _ & _ & C & m & _ & _ & F & _).
    rewrite (collect_none _ _ _ _ 0 F) by (intros s I; apply (Hcur s I (Us s I))).
    rewrite orb_false_r. change (sigs r) with (sigs r1) at 1. rewrite reader_eta. unfold synchronize. change (sigs r1) with (sigs r).
    assert (X : sync_status (sigs r) = Synced).
    { pose proof (status_cases (sigs r) Unsync) as K. unfold sync_status. destruct (RI_used _ _ _ H1) as (s0 & rest & Es & U0). change (sigs r1) with (sigs r) in Es.
      destruct (status Unsync (sigs r)); [| |reflexivity].
      - destruct K as [(s & I & U & K)|(K & _)]; [rewrite (Al _ I U) in K; discriminate|]. rewrite (K s0) in U0; [discriminate|rewrite Es; left; reflexivity].
      - destruct K as (_ & [K|(s & I & U & K)]); [discriminate|]. rewrite (Al _ I U) in K. discriminate. }
    rewrite X. reflexivity. }
  destruct (read_now r1 gs mon (min_samples (sigs r)) H1 Fm Hm Hn0) as (ss' & w & R & NO & WP).
  unfold do_read. replace (negb (count =? 0) && (false || (count <? min_read c))) with false.
  2:{ symmetry. cbn [orb]. replace (count <? min_read c) with false by (symmetry; apply Z.ltb_ge; lia). apply andb_false_r. }
  cbn [nextev with_call]. rewrite Hn. cbn [inval with_call]. rewrite Hi. cbn [andb sigs with_call]. fold n. cbn [calls with_call]. fold r1.
  unfold read_packets. change (want r1) with n. replace (n =? 0) with false by (symmetry; apply Z.eqb_neq; lia).
  unfold read_rest. rewrite RS. change (sigs r1) with (sigs r) in *. change (want r1) with n in *.
  replace (0 <? min_samples (sigs r)) with true by (symmetry; apply Z.ltb_lt; lia). rewrite NO, R. cbn [set_count].
  eexists. exists w. split.
  - cbn [want with_want]. replace (n - (n - Z.min n (min_samples (sigs r)))) with (Z.min n (min_samples (sigs r))) by lia.
    unfold target. cbn [buf calls with_want with_sigs r1 prepare with_call]. rewrite Z.eqb_refl. cbn [inval with_want with_sigs r1 prepare with_call]. rewrite Hi. reflexivity.
  - split; [apply WP|reflexivity].
Qed.

Lemma with_call_RI : forall r gs mon, RI r gs mon -> RI (with_call r) gs mon.
Proof. intros r gs mon H. exact H. Qed.
Lemma prepare_RI : forall r gs mon n b, RI r gs mon -> RI (prepare r n b) gs mon.
Proof. intros r gs mon n b H. exact H. Qed.

Lemma step_RI : forall c o r gs mon L, grid c = Some G -> min_read c <= 1 -> RI r gs mon -> sensible o ->
  future (map ge gs) (arrivals o ++ L) ->
  forall r' x, step c o r = (r', x) ->
  (forall k w to es ok u d, x = Got k w to es ok -> In (true, u, d) shapes -> (u | k)) ->
  exists gs' mon', RI r' gs' mon' /\ future (map ge gs') L /\ (forall f, x <> Dies f) /\
    forall l, story D G shapes mon' l -> story D G shapes mon ((o, x) :: l).
Proof.
  intros c o r gs mon L Hc Hmr H Sn Fu r' x E Wh.
  assert (Hi : inval r = false) by apply H. assert (Hn : nextev r = false) by apply H.
  destruct o as [i p|i|dom nul count limit|count|]; cbn [step arrivals app] in *.
  - injection E as <- <-. destruct (push_RI _ _ _ _ _ _ H Fu) as (g1 & H1 & F1 & _). exists g1, mon.
    split; [exact H1|]. split; [exact F1|]. split; [discriminate|]. intros l St. apply story_quiet; [auto|exact St].
  - injection E as <- <-. destruct (notify_RI _ _ _ i H) as (g1 & G1 & H1 & _). exists g1, mon. rewrite G1.
    split; [exact H1|]. split; [exact Fu|]. split; [discriminate|]. intros l St. apply story_quiet; [auto|exact St].
  - destruct (do_read c dom nul count limit r) as [[r1 x1] rest] eqn:ER. injection E as <- <-.
    assert (Fu' : future (map ge gs) (concat (match limit with Some bs => bs | None => [] end) ++ L)) by (destruct limit; exact Fu).
    destruct Sn as (Sn1 & Sn2). unfold do_read in ER.
    destruct (negb (count =? 0) && (nul || (count <? min_read c))) eqn:EB.
    { injection ER as <- <- <-. destruct (arrive_all_RI _ _ _ _ _ H Fu') as (g1 & H1 & F1). exists g1, mon. split; [exact H1|]. split; [exact F1|].
      split; [discriminate|]. intros l St. apply story_quiet; [auto|exact St]. }
    cbn [nextev inval with_call sigs calls] in ER. rewrite Hn, Hi in ER.
    assert (ND : dom && nul = false) by (destruct dom; [rewrite (Sn2 eq_refl)|]; reflexivity).
    rewrite ND in ER. cbn [andb] in ER.
    assert (Hl : 0 < divs_lcm (sigs r)) by (destruct H as (_ & _ & _ & C & n & _ & _ & F & _); exact (lcm_pos _ _ _ _ F)).
    set (n := count / divs_lcm (sigs r) * divs_lcm (sigs r)) in *.
    assert (N0 : 0 <= n <= count).
    { unfold n. pose proof (Z.div_pos count (divs_lcm (sigs r)) Sn1 Hl). pose proof (Z.mul_div_le count (divs_lcm (sigs r)) Hl). lia. }
    destruct (read_packets c limit (prepare (with_call r) n (if nul then None else Some (calls r + 1)))) as [[r2 o2] rest2] eqn:EP.
    injection ER as <- <- <-.
    destruct (after_call c limit (prepare (with_call r) n (if nul then None else Some (calls r + 1))) gs mon L n Hc Hmr H eq_refl ltac:(lia)
      ltac:(unfold target; destruct nul; cbn; [discriminate|rewrite Z.eqb_refl; discriminate]) Fu' _ _ _ EP Wh) as (g1 & mon1 & H1 & F1 & K1 & K2).
    destruct (arrive_all_RI _ _ _ _ _ H1 F1) as (g2 & H2 & F2). exists g2, mon1. split; [exact H2|]. split; [exact F2|]. split; [exact K1|].
    intros l St. apply K2; [cbn; lia|exact St].
  - unfold do_skip in E. rewrite Hi in E. destruct (count <? min_read c).
    { injection E as <- <-. exists gs, mon. split; [exact H|]. split; [exact Fu|]. split; [discriminate|]. intros l St. apply story_quiet; [auto|exact St]. }
    destruct (read_packets c None (prepare r count None)) as [[r2 o2] rest2] eqn:EP. injection E as <- <-.
    cbn in Sn.
    destruct (after_call c None (prepare r count None) gs mon L count Hc Hmr H eq_refl Sn ltac:(discriminate) Fu _ _ _ EP Wh) as (g1 & mon1 & H1 & F1 & K1 & K2).
    assert (rest2 = []) as ->.
    { unfold read_packets in EP. destruct (read_rest c (want (prepare r count None) =? 0) (prepare r count None) 0 Unsync). injection EP as _ _ <-. reflexivity. }
    exists g1, mon1. split; [exact H1|]. split; [exact F1|]. split; [exact K1|]. intros l St. apply K2; [cbn; lia|exact St].
  - unfold do_avail in E. destruct (synchronize c r) as [[[r1 m1] x1] v1] eqn:ES.
    destruct (synchronize_RI _ _ _ _ Hc H _ _ _ _ ES) as (-> & _ & _ & _ & _ & g1 & G1 & H1).
    injection E as <- <-. exists g1, mon. rewrite G1. split; [exact H1|]. split; [exact Fu|]. split; [discriminate|].
    intros l St. apply story_quiet; [right; right; eauto|exact St].
Qed.

Theorem run_RI : forall c, grid c = Some G -> min_read c <= 1 -> forall h r gs mon, RI r gs mon -> Forall sensible h ->
  future (map ge gs) (arrived h) -> forall r' xs, run c h r = (r', xs) -> whole shapes xs ->
  story D G shapes mon (combine h xs) /\ length xs = length h.
Proof.
  intros c Hc Hmr. induction h as [|o h IH]; intros r gs mon H Sn Fu r' xs E Wh; cbn [run] in E.
  - injection E as _ <-. split; [constructor|reflexivity].
  - destruct (step c o r) as [r1 x1] eqn:ES. inversion Sn as [|? ? S1 S2]; subst.
    assert (E' : exists xs1, xs = x1 :: xs1).
    { destruct x1; try (destruct (run c h r1) as [r2 ys]; injection E as _ <-; eauto). }
    destruct E' as (xs1 & ->).
    destruct (step_RI c o r gs mon (arrived h) Hc Hmr H S1 Fu _ _ ES) as (g1 & mon1 & H1 & F1 & ND & St).
    { intros k w to es ok u d Ex I. subst x1. apply (Wh k w to es ok u d); [left; reflexivity|exact I]. }
    assert (E2 : run c h r1 = (r', xs1)).
    { destruct x1; try (destruct (run c h r1) as [r2 ys]; injection E as <- <-; reflexivity). exfalso. exact (ND f eq_refl). }
    destruct (IH _ _ _ H1 S2 F1 _ _ E2) as (I1 & I2).
    { intros k w to es ok u d I. apply (Wh k w to es ok u d). right. exact I. }
    cbn. split; [apply St; exact I1|rewrite I2; reflexivity].
Qed.

Lemma run_end : forall c, grid c = Some G -> min_read c <= 1 -> forall h r gs mon, RI r gs mon -> Forall sensible h ->
  future (map ge gs) (arrived h) -> forall r' xs, run c h r = (r', xs) -> whole shapes xs ->
  exists gs' mon', RI r' gs' mon'.
Proof.
  intros c Hc Hmr. induction h as [|o h IH]; intros r gs mon H Sn Fu r' xs E Wh; cbn [run] in E.
  - injection E as <- <-. eauto.
  - destruct (step c o r) as [r1 x1] eqn:ES. inversion Sn as [|? ? S1 S2]; subst.
    assert (E' : exists xs1, xs = x1 :: xs1).
    { destruct x1; try (destruct (run c h r1) as [r2 ys]; injection E as _ <-; eauto). }
    destruct E' as (xs1 & ->).
    destruct (step_RI c o r gs mon (arrived h) Hc Hmr H S1 Fu _ _ ES) as (g1 & mon1 & H1 & F1 & ND & St).
    { intros k w to es ok u d Ex I. subst x1. apply (Wh k w to es ok u d); [left; reflexivity|exact I]. }
    assert (E2 : run c h r1 = (r', xs1)).
    { destruct x1; try (destruct (run c h r1) as [r2 ys]; injection E as <- <-; reflexivity). exfalso. exact (ND f eq_refl). }
    refine (IH _ _ _ H1 S2 F1 _ _ E2 _).
    intros k w to es ok u d I. apply (Wh k w to es ok u d). right. exact I.
Qed.
End Inv.

Lemma fresh_RI : forall D G ss, matched D ss -> RI D G ss (fresh ss) (map (fun _ : shape => (@None Z, @None Z, 0)) ss) None.
Proof.
  intros D G ss (HD & HU & HM).
  split; [cbn; rewrite map_map; clear; induction ss as [|[[u k] d] ss IH]; cbn; [reflexivity|rewrite IH; reflexivity]|].
  split; [reflexivity|]. split; [reflexivity|]. exists 0, 0. cbn. split; [lia|]. split; [intros s _ _; exists 0; reflexivity|].
  assert (Al : all_in Unsync (map (fun x : shape => mkSig (fst (fst x)) (snd (fst x)) (snd x) [] None 0 Unsync false) ss)).
  { intros s I _. apply in_map_iff in I. destruct I as (x & <- & _). reflexivity. }
  split.
  { clear - HM HD. induction ss as [|[[u k] d] ss IH]; cbn; constructor.
    - destruct (HM u k d ltac:(left; reflexivity)) as (K1 & K2). split.
      + unfold SB, held; cbn. split; [reflexivity|]. split; [constructor|]. split; [exact K1|]. split; [exact K2|]. auto.
      + intros _. exact Logic.I.
    - apply IH. intros u' k' d' I. exact (HM u' k' d' (or_intror I)). }
  split; [right; split; [reflexivity|exact Al]|]. split.
  { intros (s & I & U & K). rewrite (Al _ I U) in K. discriminate. }
  right. destruct HU as (k & d & rest & ->). eexists. split; [left; reflexivity|]. split; reflexivity.
Qed.
Lemma fresh_future : forall ss h, steady ss h -> accepted h -> future ss (map ge (map (fun _ : shape => (@None Z, @None Z, 0)) ss)) (arrived h).
Proof.
  intros ss h Sd Ac. split.
  - intros i k d e Q Ee. rewrite map_map in Ee. rewrite nth_error_map, Q in Ee. cbn in Ee. injection Ee as <-. exact (Sd i k d Q).
  - intros i p I. destruct p as [a n|nl ok|]; cbn; auto. exact (Ac i nl ok I).
Qed.
Theorem aligned : forall D G ss c h r xs,
  0 < G -> matched D ss -> grid c = Some G -> min_read c <= 1 ->
  Forall sensible h -> steady ss h -> accepted h ->
  run c h (fresh ss) = (r, xs) -> whole ss xs ->
  story D G ss None (combine h xs) /\ length xs = length h.
Proof.
  intros D G ss c h r xs HG HM Hc Hmr Sn Sd Ac E Wh. pose proof HM as (HD & HU & _).
  exact (run_RI D HD G HG ss HU c Hc Hmr h (fresh ss) _ None (fresh_RI D G ss HM) Sn (fresh_future ss h Sd Ac) r xs E Wh).
Qed.

(** What is said to be available can be read. *)
Theorem available_is_read : forall D G ss c h r xs r1 a,
  0 < G -> matched D ss -> (forall u k d, In (u, k, d) ss -> u = true) -> grid c = Some G -> min_read c <= 1 ->
  Forall sensible h -> steady ss h -> accepted h ->
  run c h (fresh ss) = (r, xs) -> whole ss xs ->
  step c Avail r = (r1, AvailIs a) -> 0 < a ->
  exists r2 w, step c (Read false false a None) r1 = (r2, Got a w Mine [] true).
Proof.
  intros D G ss c h r xs r1 a HG HM Hall Hc Hmr Sn Sd Ac E Wh EA Ha. pose proof HM as (HD & HU & _).
  destruct (run_end D HD G HG ss HU c Hc Hmr h (fresh ss) _ None (fresh_RI D G ss HM) Sn (fresh_future ss h Sd Ac) r xs E Wh) as (gs & mon & H).
  cbn [step] in EA. unfold do_avail in EA. destruct (synchronize c r) as [[[r0 m] x] v] eqn:ES.
  destruct (synchronize_RI D HD G HG ss HU _ _ _ _ Hc H _ _ _ _ ES) as (-> & _ & X & Hm & Hmin & g1 & G1 & H1).
  injection EA as <- EA.
  destruct x; try lia. specialize (Hmin eq_refl).
  destruct (m / divs_lcm (sigs r0) * divs_lcm (sigs r0) <? min_read c) eqn:EM; [lia|]. apply Z.ltb_ge in EM.
  assert (Lp : 0 < divs_lcm (sigs r0)) by (destruct H1 as (_ & _ & _ & C & n & _ & _ & F & _); exact (lcm_pos _ _ _ _ _ F)).
  assert (Ea : a / divs_lcm (sigs r0) * divs_lcm (sigs r0) = a) by (rewrite <- EA; rewrite Z.div_mul by lia; reflexivity).
  assert (Le : a <= m) by (rewrite <- EA; rewrite Z.mul_comm; apply Z.mul_div_le; exact Lp).
  assert (Us : forall s, In s (sigs r0) -> used s = true).
  { intros s I. destruct H1 as (Sh & _). assert (K : In (shape_of s) ss) by (rewrite <- Sh; apply in_map; exact I). exact (Hall _ _ _ K). }
  assert (Al : all_in Synced (sigs r0)).
  { pose proof (status_cases (sigs r0) Unsync) as K. unfold sync_status in X. rewrite <- X in K. intros s I U. apply (proj1 K); auto. }
  destruct (read_now_call D HD G ss HU c r0 g1 mon a Hc H1 Us Al ltac:(lia) ltac:(lia) ltac:(nia)) as (r2 & w & R & _).
  rewrite Ea in R. rewrite <- Hmin in R. rewrite Z.min_l in R by lia. cbn [step]. rewrite R. cbn. eauto.
Qed.
