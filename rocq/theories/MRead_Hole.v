(** A signal that has no sample at the common start; readers that became invalid. *)
From Coq Require Import List Bool ZArith Lia.
From Verif Require Import MRead_Model MRead_Spec MRead_Proofs.
Import ListNotations.
Open Scope Z_scope.

Section Hole.
Variable t : Z.
Definition late (d : Z) (p : pkt) : Prop := exists a c, p = Data a c /\ t <= a - d.
Definition plain (p : pkt) : Prop := exists a c, p = Data a c.
Definition stuck (s : sig) : Prop :=
  used s = true /\ st s = Syncing /\ bad s = false /\ Forall (late (delta s)) (q s)
  /\ match cur s with Some (a, _) => t <= a - delta s | None => idx s = -1 end.
Definition other (s : sig) : Prop := (used s = true -> st s <> Unsync) /\ bad s = false /\ Forall plain (q s).
Definition J (r : reader) : Prop :=
  inval r = false /\ nextev r = false /\ cstart r = Some t /\ exists s ss, sigs r = s :: ss /\ stuck s /\ Forall other ss.

Lemma late_offset : forall d a c, t <= a - d -> offset_to d t a c = -1.
Proof. intros d a c H. unfold offset_to. destruct (c =? 0); [reflexivity|]. replace (t <=? a - d) with true by (symmetry; apply Z.leb_le; exact H). reflexivity. Qed.
Lemma late_loop : forall d ps a c, Forall (late d) ps -> t <= a - d -> sync_loop d t a c ps = ([], None, -1, false).
Proof.
  intros d. induction ps as [|p ps IH]; intros a c F H; cbn [sync_loop]; rewrite late_offset by exact H; replace (-1 =? -1) with true by reflexivity; [reflexivity|].
  inversion F as [|? ? (x & y & -> & K) F']; subst. exact (IH _ _ F' K).
Qed.
Lemma stuck_event : forall s, stuck s -> stuck (fst (first_event s)) /\ snd (first_event s) = false.
Proof.
  intros s (H1 & H2 & H3 & H4 & H5). unfold first_event. destruct (cur s) as [[a c]|] eqn:EC.
  - split; [|reflexivity]. cbn. repeat split; auto. rewrite EC. exact H5.
  - destruct (q s) as [|p ps] eqn:EQ.
    + split; [|reflexivity]. cbn. repeat split; auto. rewrite EQ. constructor. rewrite EC. exact H5.
    + inversion H4 as [|? ? (x & y & -> & K) F']; subst. split; [|reflexivity]. cbn. repeat split; auto.
Qed.
Lemma other_event : forall s, other s -> other (fst (first_event s)) /\ snd (first_event s) = false.
Proof.
  intros s (H1 & H2 & H3). unfold first_event. destruct (cur s) as [[a c]|] eqn:EC; [split; [|reflexivity]; repeat split; assumption|].
  destruct (q s) as [|p ps] eqn:EQ.
  - split; [|reflexivity]. split; [exact H1|]. split; [exact H2|]. cbn. rewrite EQ. constructor.
  - inversion H3 as [|? ? (x & y & ->) F']; subst. split; [|reflexivity]. split; [exact H1|]. split; [exact H2|exact F'].
Qed.
Lemma stuck_sync : forall s, stuck s -> stuck (sync_one t s).
Proof.
  intros s H. unfold sync_one. rewrite (proj1 (proj2 H)). destruct (stuck_event s H) as (K & E). destruct (first_event s) as [s1 e]. cbn in K, E. subst e.
  destruct K as (K1 & K2 & K3 & K4 & K5). destruct (cur s1) as [[a c]|] eqn:EC.
  - rewrite (late_loop _ _ _ _ K4 K5). replace (-1 =? -1) with true by reflexivity. split; [exact K1|]. split; [reflexivity|]. split; [exact K3|]. split; [constructor|reflexivity].
  - rewrite K5. replace (-1 =? -1) with true by reflexivity. split; [exact K1|]. split; [reflexivity|]. split; [exact K3|]. split; [exact K4|]. cbn. rewrite EC. exact K5.
Qed.
Lemma plain_loop : forall d ps a c ps' cu i ev, Forall plain ps -> sync_loop d t a c ps = (ps', cu, i, ev) -> Forall plain ps' /\ ev = false.
Proof.
  intros d. induction ps as [|p ps IH]; intros a c ps' cu i ev F E; cbn [sync_loop] in E; destruct (offset_to d t a c =? -1).
  - injection E as <- _ _ <-. auto.
  - injection E as <- _ _ <-. auto.
  - inversion F as [|? ? (x & y & ->) F']; subst. exact (IH _ _ _ _ _ _ F' E).
  - injection E as <- _ _ <-. auto.
Qed.
Lemma other_sync : forall s, other s -> other (sync_one t s).
Proof.
  intros s H. unfold sync_one. destruct (st s) eqn:ES; [| |exact H].
  all: destruct (other_event s H) as (K & E); destruct (first_event s) as [s1 e]; cbn in K, E; subst e.
  all: destruct K as (K1 & K2 & K3); destruct (cur s1) as [[a c]|] eqn:EC.
  all: try (split; [intros _; cbn; destruct (idx s1 =? -1); discriminate|split; assumption]).
  all: destruct (sync_loop (delta s1) t a c (q s1)) as [[[ps cu] i] ev] eqn:EL; destruct (plain_loop _ _ _ _ _ _ _ _ K3 EL) as (P1 & ->).
  all: split; [intros _; cbn; destruct (i =? -1); discriminate|split; [exact K2|exact P1]].
Qed.
Lemma status_stuck : forall ss, (forall s, In s ss -> used s = true -> st s <> Unsync) -> (exists s, In s ss /\ used s = true /\ st s = Syncing) -> sync_status ss = Syncing.
Proof.
  intros ss H (s & I & U & X). unfold sync_status. pose proof (status_cases ss Unsync) as K. destruct (status Unsync ss); [|reflexivity|].
  - exfalso. destruct K as [(s' & I' & U' & K)|(K & _)]; [exact (H _ I' U' K)|]. rewrite (K _ I) in U. discriminate.
  - exfalso. rewrite (proj1 K _ I U) in X. discriminate.
Qed.
Lemma J_status : forall r, J r -> sync_status (sigs r) = Syncing.
Proof.
  intros r (_ & _ & _ & s & ss & -> & H & F). apply status_stuck.
  - intros x [<-|I] U; [rewrite (proj1 (proj2 H)); discriminate|]. rewrite Forall_forall in F. exact (proj1 (F _ I) U).
  - exists s. split; [left; reflexivity|]. split; [apply H|apply H].
Qed.
Lemma on_used_other : forall f ss, (forall s, other s -> other (f s)) -> Forall other ss -> Forall other (map (on_used f) ss).
Proof. intros f ss H F. rewrite Forall_map. eapply Forall_impl; [|exact F]. cbv beta. intros s K. unfold on_used. destruct (used s); auto. Qed.
Lemma J_map : forall r f, J r -> (forall s, stuck s -> stuck (f s)) -> (forall s, other s -> other (f s)) -> J (with_sigs r (map (on_used f) (sigs r))).
Proof.
  intros r f (H1 & H2 & H3 & s & ss & E & H & F) Hs Ho. split; [exact H1|]. split; [exact H2|]. split; [exact H3|].
  rewrite E. exists (f s), (map (on_used f) ss). cbn. unfold on_used at 1. rewrite (proj1 H). split; [reflexivity|]. split; [auto|]. apply on_used_other; assumption.
Qed.
Lemma J_synchronize : forall c r, J r -> exists r' m, synchronize c r = (r', m, Syncing, VOk) /\ J r' /\ want r' = want r.
Proof.
  intros c r H. unfold synchronize. rewrite (J_status r H). destruct (min_samples (sigs r) =? 0); [do 2 eexists; split; [reflexivity|split; [exact H|reflexivity]]|].
  assert (H1 : J (with_sigs r (map (on_used (fun s => fst (first_event s))) (sigs r)))).
  { apply J_map; [exact H|intros s K; apply stuck_event; exact K|intros s K; apply other_event; exact K]. }
  set (r1 := with_sigs r (map (on_used (fun s => fst (first_event s))) (sigs r))) in *. cbv beta zeta.
  rewrite (proj1 (proj2 (proj2 H1))). unfold sync_all.
  assert (H2 : J (with_sigs r1 (map (on_used (sync_one t)) (sigs r1)))) by (apply J_map; [exact H1|exact stuck_sync|exact other_sync]).
  pose proof (J_status _ H2) as X. cbn [sigs with_sigs] in X |- *. rewrite X. do 2 eexists; split; [reflexivity|split; [exact H2|reflexivity]].
Qed.
Lemma until_data_quiet : forall s, snd (first_event s) = false -> until_data s = (fst (first_event s), None).
Proof. intros s H. unfold until_data. destruct (first_event s) as [s1 e]. cbn in H. subst e. reflexivity. Qed.
Lemma collect_other : forall ss i, Forall other ss -> exists ss', collect i ss = (ss', [], false) /\ Forall other ss'.
Proof.
  induction ss as [|s ss IH]; intros i F; cbn [collect]; [eauto|]. inversion F as [|? ? H F']; subst.
  destruct (other_event s H) as (K1 & K2). rewrite (until_data_quiet _ K2). destruct (IH (S i) F') as (ss' & -> & F1).
  rewrite (proj1 (proj2 K1)). eauto.
Qed.
Lemma J_collect : forall r, J r -> exists ss, collect 0 (sigs r) = (ss, [], false) /\ J (with_sigs r ss).
Proof.
  intros r (H1 & H2 & H3 & s & ss & E & H & F). rewrite E. cbn [collect]. destruct (stuck_event s H) as (K1 & K2). rewrite (until_data_quiet _ K2).
  destruct (collect_other ss 1%nat F) as (ss' & -> & F'). rewrite (proj1 (proj2 (proj2 K1))). eexists. split; [reflexivity|].
  split; [exact H1|]. split; [exact H2|]. split; [exact H3|]. cbn. eauto 6.
Qed.
Lemma no_event_queued : forall r, J r -> event_queued (sigs r) = false.
Proof.
  intros r (_ & _ & _ & s & ss & -> & (_ & _ & _ & L & _) & F). unfold event_queued. cbn [existsb].
  assert (K : forall ps, Forall plain ps -> existsb is_event ps = false).
  { induction 1 as [|p ps (a & c & ->) _ IH]; [reflexivity|exact IH]. }
  rewrite (K (q s)) by (eapply Forall_impl; [|exact L]; intros p (a & c & -> & _); exists a, c; reflexivity).
  rewrite andb_false_r. cbn [orb]. induction F as [|x ss (_ & _ & P) F IH]; [reflexivity|]. cbn [existsb]. rewrite (K _ P), andb_false_r. exact IH.
Qed.
Definition empty (o : outcome) : Prop := exists n w to, o = Got n w to [] true /\ (forall y, In y w -> y = []).
Lemma J_read_sync : forall c zero r, J r -> exists r' m o, read_sync c zero r = (r', m, Syncing, o) /\ J r' /\ want r' = want r /\
  match o with Some o => empty o | None => True end.
Proof.
  intros c zero r H. unfold read_sync. destruct (J_collect r H) as (ss & -> & H1).
  assert (Hi : inval r = false) by apply H. rewrite Hi. cbn [orb].
  replace (with_inval (with_sigs r ss) false) with (with_sigs r ss) by (unfold with_inval, with_sigs; cbn; rewrite Hi; reflexivity).
  destruct (J_synchronize c _ H1) as (r2 & m & -> & H2 & W). rewrite (no_event_queued _ H2), andb_false_r. rewrite (proj1 H2). cbn [negb].
  destruct zero; do 3 eexists; (split; [reflexivity|]); (split; [exact H2|]); (split; [exact W|]); [|exact Logic.I].
  do 3 eexists. split; [reflexivity|apply none_empty].
Qed.
Lemma J_ready : forall r, J r -> J (with_sigs r (fst (ready (sigs r)))).
Proof.
  intros r (H1 & H2 & H3 & s & ss & E & H & F). split; [exact H1|]. split; [exact H2|]. split; [exact H3|]. cbn [sigs with_sigs]. rewrite E. cbn [ready]. rewrite (proj1 H).
  destruct (stuck_event s H) as (K1 & K2). destruct (first_event s) as [s1 e]. cbn in K1, K2. subst e.
  assert (K : Forall other (fst (ready ss))).
  { clear - F. induction F as [|x ss Hx F IH]; cbn [ready]; [constructor|]. destruct (used x).
    - destruct (other_event x Hx) as (P1 & P2). destruct (first_event x) as [x1 e]. cbn in P1, P2. subst e. destruct (ready ss) as [ss1 b]. cbn in *. constructor; assumption.
    - destruct (ready ss) as [ss1 b]. cbn in *. constructor; assumption. }
  destruct (ready ss) as [ss1 b]. cbn in *. eauto 6.
Qed.
(** Only data arrives, and at the first signal only late data. *)
Definition fine (d : Z) (ip : nat * pkt) : Prop := match fst ip with O => late d (snd ip) | S _ => plain (snd ip) end.
Definition first_delta (r : reader) : Z := match sigs r with s :: _ => delta s | [] => 0 end.
Lemma J_push : forall d r ip, J r -> first_delta r = d -> fine d ip -> J (push r ip).
Proof.
  intros d r [i p] (H1 & H2 & H3 & s & ss & E & H & F) Ed Hf. split; [exact H1|]. split; [exact H2|]. split; [exact H3|].
  unfold push. cbn [sigs with_sigs fst snd]. unfold first_delta in Ed. rewrite E in *. cbn [fst] in Hf. destruct i as [|i]; cbn [at_sig].
  - eexists _, ss. split; [reflexivity|]. split; [|exact F]. destruct H as (K1 & K2 & K3 & K4 & K5). split; [exact K1|]. split; [exact K2|]. split; [exact K3|]. split; [|exact K5].
    cbn. apply Forall_app. split; [exact K4|constructor; [subst d; exact Hf|constructor]].
  - eexists s, _. split; [reflexivity|]. split; [exact H|]. cbn in Hf. clear - F Hf. revert i. induction F as [|x ss Hx F IH]; intros [|i]; cbn [at_sig]; constructor; auto.
    destruct Hx as (K1 & K2 & K3). split; [exact K1|]. split; [exact K2|]. cbn. apply Forall_app. split; [exact K3|constructor; [exact Hf|constructor]].
Qed.
Lemma J_notify : forall r i, J r -> J (notify r i).
Proof. intros r i H. unfold notify. rewrite (proj1 H). apply J_ready. exact H. Qed.
Lemma delta_first_event : forall s, delta (fst (first_event s)) = delta s.
Proof. intros s. unfold first_event. destruct (cur s); [reflexivity|]. destruct (q s) as [|[]]; reflexivity. Qed.
Lemma delta_at : forall i f ss, (forall s, delta (f s) = delta s) -> first_delta (mkR (at_sig i f ss) None false false 0 None 0) = first_delta (mkR ss None false false 0 None 0).
Proof. intros [|i] f [|s ss] H; cbn; auto. Qed.
Lemma delta_ready : forall ss, map delta (fst (ready ss)) = map delta ss.
Proof.
  induction ss as [|s ss IH]; cbn [ready]; [reflexivity|]. destruct (used s).
  - pose proof (delta_first_event s) as K. destruct (first_event s) as [s1 e]. cbn in K. destruct e; [cbn; rewrite K; reflexivity|].
    destruct (ready ss) as [ss1 b]. cbn in *. rewrite K, IH. reflexivity.
  - destruct (ready ss) as [ss1 b]. cbn in *. rewrite IH. reflexivity.
Qed.
(** No call changes the distance of the samples. *)
Definition deltas (r : reader) : list Z := map delta (sigs r).
Lemma deltas_first : forall r r', deltas r' = deltas r -> first_delta r' = first_delta r.
Proof. intros r r' E. unfold deltas, first_delta in *. destruct (sigs r'), (sigs r); try discriminate; [reflexivity|]. injection E as E _. exact E. Qed.
Lemma deltas_on_used : forall f ss, (forall s, delta (f s) = delta s) -> map delta (map (on_used f) ss) = map delta ss.
Proof. intros f ss H. rewrite map_map. apply map_ext. intros s. unfold on_used. destruct (used s); auto. Qed.
Lemma delta_sync_one : forall c s, delta (sync_one c s) = delta s.
Proof. intros c s. pose proof (shape_sync_one c s) as K. injection K as _ _ K. exact K. Qed.
Lemma deltas_synchronize : forall c r r' m x v, synchronize c r = (r', m, x, v) -> deltas r' = deltas r.
Proof.
  intros c r r' m x v E. unfold synchronize in E. unfold deltas.
  assert (K1 : map delta (map (on_used (fun s => fst (first_event s))) (sigs r)) = map delta (sigs r)) by (apply deltas_on_used; exact delta_first_event).
  assert (K2 : forall y, map delta (map (on_used (fun s => with_st s y)) (map (on_used (fun s => fst (first_event s))) (sigs r))) = map delta (sigs r)).
  { intros y. rewrite deltas_on_used; [exact K1|]. reflexivity. }
  destruct (sync_status (sigs r)).
  - destruct (min_samples (sigs r) =? 0); [injection E as <- _ _ _; reflexivity|]. cbv beta zeta in E. cbn [sigs with_sigs cstart] in E.
    match type of E with (match ?a with _ => _ end) = _ => destruct a as [y|] end; [|injection E as <- _ _ _; cbn; apply K2].
    destruct (grid c); [|injection E as <- _ _ _; cbn; apply K2]. unfold sync_all in E. injection E as <- _ _ _. cbn. rewrite deltas_on_used; [apply K2|apply delta_sync_one].
  - destruct (min_samples (sigs r) =? 0); [injection E as <- _ _ _; reflexivity|]. cbv beta zeta in E. cbn [sigs with_sigs cstart] in E.
    destruct (cstart r); [|injection E as <- _ _ _; cbn; apply K1]. unfold sync_all in E. injection E as <- _ _ _. cbn. rewrite deltas_on_used; [apply K1|apply delta_sync_one].
  - injection E as <- _ _ _. reflexivity.
Qed.
Lemma deltas_collect : forall ss i ss' es b, collect i ss = (ss', es, b) -> map delta ss' = map delta ss.
Proof.
  induction ss as [|s ss IH]; intros i ss' es b E; cbn [collect] in E.
  - injection E as <- _ _. reflexivity.
  - destruct (until_data s) as [s1 e] eqn:EU. destruct (collect (S i) ss) as [[ss1 es1] b1] eqn:EC. injection E as <- _ _. cbn. rewrite (IH _ _ _ _ EC). f_equal.
    unfold until_data in EU. pose proof (delta_first_event s) as K. destruct (first_event s) as [s2 ev]. cbn in K. destruct ev; cbn [negb] in EU; [|injection EU as <- _; exact K].
    destruct (merge None false (q s2)) as [[ps cc] out]. destruct out as [[[] ?]|]; injection EU as <- _; exact K.
Qed.
Lemma J_read_sync_delta : forall c zero r r' m x, J r -> forall o, read_sync c zero r = (r', m, x, o) -> deltas r' = deltas r.
Proof.
  intros c zero r r' m x H o E. unfold read_sync in E. destruct (J_collect r H) as (ss & EC & H1). rewrite EC in E.
  assert (Hi : inval r = false) by apply H. rewrite Hi in E. cbn [orb] in E.
  replace (with_inval (with_sigs r ss) false) with (with_sigs r ss) in E by (unfold with_inval, with_sigs; cbn; rewrite Hi; reflexivity).
  destruct (J_synchronize c _ H1) as (r2 & m2 & ES & H2 & _). rewrite ES in E. rewrite (no_event_queued _ H2), andb_false_r in E.
  assert (r' = r2) as -> by (destruct zero; congruence).
  rewrite (deltas_synchronize _ _ _ _ _ _ ES). exact (deltas_collect _ _ _ _ _ EC).
Qed.
Lemma J_read_sync' : forall c zero r, J r -> exists r' m o, read_sync c zero r = (r', m, Syncing, o) /\ J r' /\ want r' = want r /\ deltas r' = deltas r /\
  match o with Some o => empty o | None => True end.
Proof.
  intros c zero r H. destruct (J_read_sync c zero r H) as (r' & m & o & E & H1 & W & K). exists r', m, o. split; [exact E|]. split; [exact H1|]. split; [exact W|].
  split; [exact (J_read_sync_delta _ _ _ _ _ _ H _ E)|exact K].
Qed.
Lemma deltas_notify : forall r i, J r -> deltas (notify r i) = deltas r.
Proof. intros r i H. unfold notify. rewrite (proj1 H). apply delta_ready. Qed.
Lemma deltas_push : forall r ip, deltas (push r ip) = deltas r.
Proof.
  intros r [i p]. unfold deltas, push. cbn. generalize (sigs r) i. induction l as [|s ss IH]; intros [|k]; cbn; try reflexivity. rewrite IH. reflexivity.
Qed.
Lemma want_notify : forall r i, J r -> want (notify r i) = want r.
Proof. intros r i H. unfold notify. rewrite (proj1 H). reflexivity. Qed.
Lemma J_arrive : forall d b r, J r -> first_delta r = d -> Forall (fine d) b -> J (arrive r b) /\ deltas (arrive r b) = deltas r /\ want (arrive r b) = want r.
Proof.
  intros d. unfold arrive. induction b as [|ip b IH]; intros r H Ed F; cbn [fold_left]; [auto|]. inversion F as [|? ? F1 F2]; subst.
  pose proof (J_push _ r ip H eq_refl F1) as H1. pose proof (J_notify _ (fst ip) H1) as H2.
  assert (Q : deltas (notify (push r ip) (fst ip)) = deltas r) by (rewrite deltas_notify by exact H1; apply deltas_push).
  destruct (IH _ H2 (deltas_first _ _ Q) F2) as (A1 & A2 & A3). split; [exact A1|]. split; [congruence|]. rewrite A3, (want_notify _ _ H1). reflexivity.
Qed.
Lemma J_condition : forall c zero r last, J r -> exists r' last' o stop, condition c zero r last = (r', last', o, stop) /\ J r' /\ want r' = want r /\ deltas r' = deltas r /\
  (last' = last \/ snd last' = Syncing) /\ match o with Some o => empty o | None => True end.
Proof.
  intros c zero r last H. unfold condition. pose proof (J_ready r H) as H1. pose proof (delta_ready (sigs r)) as Dl. destruct (ready (sigs r)) as [ss b]. cbn in H1, Dl.
  destruct b; cbn [negb].
  - destruct (J_read_sync' c zero _ H1) as (r' & m & o & -> & H2 & W & Q & K). assert (Q' : deltas r' = deltas r) by (rewrite Q; exact Dl).
    destruct o; do 4 eexists; (split; [reflexivity|]); (split; [exact H2|]); (split; [exact W|]); (split; [exact Q'|]); (split; [right; reflexivity|exact K]).
  - do 4 eexists. split; [reflexivity|]. split; [exact H1|]. split; [reflexivity|]. split; [exact Dl|]. split; [left; reflexivity|exact Logic.I].
Qed.
Lemma J_wait : forall c zero bs r last, J r -> Forall (Forall (fine (first_delta r))) bs -> snd last <> Synced ->
  exists r' last' o rest, wait c zero bs r last = (r', last', o, rest) /\ J r' /\ want r' = want r /\ deltas r' = deltas r /\ snd last' <> Synced /\
  Forall (Forall (fine (first_delta r))) rest /\ match o with Some o => empty o | None => True end.
Proof.
  intros c zero. induction bs as [|b bs IH]; intros r last H F L; cbn [wait]; destruct (J_condition c zero r last H) as (r1 & l1 & o1 & stop & -> & H1 & W & Q & Hl & K);
    (assert (L1 : snd l1 <> Synced) by (destruct Hl as [->|E]; [exact L|rewrite E; discriminate])).
  - destruct stop; do 4 eexists; (split; [reflexivity|]); repeat (split; [eassumption|]); exact K.
  - destruct stop.
    + do 4 eexists; (split; [reflexivity|]); repeat (split; [eassumption|]); exact K.
    + inversion F as [|? ? F1 F2]; subst. destruct (J_arrive (first_delta r) b r1 H1 (deltas_first _ _ Q) F1) as (A1 & A2 & A3).
      assert (Q2 : first_delta (arrive r1 b) = first_delta r) by (apply deltas_first; congruence).
      destruct (IH (arrive r1 b) l1 A1 ltac:(rewrite Q2; exact F2) L1) as (r' & l' & o' & rest & E & B1 & B2 & B3 & B4 & B5 & B6).
      exists r', l', o', rest. split; [exact E|]. split; [exact B1|]. split; [congruence|]. split; [congruence|]. split; [exact B4|]. split; [rewrite <- Q2; exact B5|exact B6].
Qed.
Lemma J_rest : forall c zero r m x, J r -> x <> Synced -> exists r' o, read_rest c zero r m x = (r', o) /\ J r' /\ want r' = want r /\ deltas r' = deltas r /\ empty o.
Proof.
  intros c zero r m x H Hx. unfold read_rest. destruct (J_read_sync' c zero r H) as (r' & m1 & o & E & H1 & W & Q & K).
  assert (X : match x with Synced => (r, m, x, None) | _ => read_sync c zero r end = (r', m1, Syncing, o)) by (destruct x; congruence).
  rewrite X. destruct o as [o|].
  - exists r', o. auto 6.
  - exists r', (Got 0 (none (sigs r')) (target r') [] (negb (inval r'))). split; [reflexivity|]. split; [exact H1|]. split; [exact W|]. split; [exact Q|]. rewrite (proj1 H1). exists 0, (none (sigs r')), (target r'). split; [reflexivity|apply none_empty].
Qed.
Lemma J_packets : forall c limit r, J r -> Forall (Forall (fine (first_delta r))) (match limit with Some bs => bs | None => [] end) ->
  exists r' o rest, read_packets c limit r = (r', o, rest) /\ J r' /\ want r' = want r /\ deltas r' = deltas r /\ empty o /\ Forall (Forall (fine (first_delta r))) rest.
Proof.
  intros c limit r H F. unfold read_packets. destruct limit as [bs|].
  - destruct (J_wait c (want r =? 0) bs r (0, Unsync) H F ltac:(discriminate)) as (r1 & [m x] & o & rest & -> & H1 & W & Q & L & R & K). destruct o as [o|].
    + exists r1, o, rest. auto 7.
    + destruct (J_rest c (want r =? 0) r1 m x H1 L) as (r2 & o & -> & H2 & W2 & Q2 & K2). exists r2, o, rest. split; [reflexivity|]. split; [exact H2|]. split; [congruence|]. split; [congruence|]. auto.
  - destruct (J_rest c (want r =? 0) r 0 Unsync H ltac:(discriminate)) as (r2 & o & -> & H2 & W2 & Q2 & K2). exists r2, o, []. auto 7.
Qed.
Definition nothing (x : outcome) : Prop :=
  match x with Got n w _ evs ok => n = 0 /\ (forall y, In y w -> y = []) /\ evs = [] /\ ok = true | AvailIs n => n = 0 | Dies _ => False | _ => True end.
Lemma J_arrive_all : forall bs r, J r -> Forall (Forall (fine (first_delta r))) bs -> J (fold_left arrive bs r) /\ deltas (fold_left arrive bs r) = deltas r.
Proof.
  induction bs as [|b bs IH]; intros r H F; cbn [fold_left]; [auto|]. inversion F as [|? ? F1 F2]; subst.
  destruct (J_arrive _ b r H eq_refl F1) as (A1 & A2 & _). destruct (IH (arrive r b) A1) as (B1 & B2); [rewrite (deltas_first _ _ A2); exact F2|]. split; [exact B1|congruence].
Qed.
Lemma Forall_concat_in : forall {A} (P : A -> Prop) bs, Forall P (concat bs) -> Forall (Forall P) bs.
Proof. induction bs as [|b bs IH]; intros H; cbn in H; [constructor|]. apply Forall_app in H. destruct H. constructor; auto. Qed.
Lemma J_step : forall c o r, J r -> sensible o -> Forall (fine (first_delta r)) (arrivals o) ->
  exists r' x, step c o r = (r', x) /\ J r' /\ deltas r' = deltas r /\ nothing x.
Proof.
  intros c o r H Sn F. destruct o as [i p|i|dom nul n limit|n|]; cbn [step].
  - inversion F as [|? ? F1 _]; subst. exists (push r (i, p)), Done. split; [reflexivity|]. split; [exact (J_push _ r _ H eq_refl F1)|]. split; [apply deltas_push|exact Logic.I].
  - exists (notify r i), Done. split; [reflexivity|]. split; [apply J_notify; exact H|]. split; [apply deltas_notify; exact H|exact Logic.I].
  - assert (F' : Forall (Forall (fine (first_delta r))) (match limit with Some bs => bs | None => [] end)).
    { destruct limit as [bs|]; [|constructor]. apply Forall_concat_in. exact F. }
    unfold do_read. destruct (negb (n =? 0) && (nul || (n <? min_read c))).
    { destruct (J_arrive_all _ r H F') as (A1 & A2). do 2 eexists. split; [reflexivity|]. split; [exact A1|]. split; [exact A2|exact Logic.I]. }
    cbn [nextev with_call]. rewrite (proj1 (proj2 H)). cbn [inval with_call]. rewrite (proj1 H).
    assert (Hd : dom && nul = false) by (destruct Sn as (_ & K); destruct dom; [rewrite K; reflexivity|reflexivity]). rewrite Hd. cbn [andb].
    set (l := divs_lcm (sigs (with_call r))). set (r0 := prepare (with_call r) (n / l * l) (if nul then None else Some (calls (with_call r)))).
    assert (H0 : J r0) by exact H.
    destruct (J_packets c limit r0 H0 F') as (r1 & o & rest & -> & H1 & W & Q & (k & w & to & -> & Hw) & R).
    assert (Q0 : deltas r1 = deltas r) by exact Q.
    destruct (J_arrive_all rest r1 H1) as (A1 & A2); [rewrite (deltas_first _ _ Q); exact R|].
    do 2 eexists. split; [reflexivity|]. split; [exact A1|]. split; [congruence|]. cbn [set_count nothing]. rewrite W. cbn [want r0 prepare]. split; [lia|auto].
  - unfold do_skip. rewrite (proj1 H). destruct (n <? min_read c); [do 2 eexists; split; [reflexivity|]; split; [exact H|]; split; [reflexivity|exact Logic.I]|].
    set (r0 := prepare r n None). assert (H0 : J r0) by exact H.
    destruct (J_packets c None r0 H0 ltac:(constructor)) as (r1 & o & rest & -> & H1 & W & Q & (k & w & to & -> & Hw) & _).
    do 2 eexists. split; [reflexivity|]. split; [exact H1|]. split; [exact Q|]. cbn [set_count nothing]. rewrite W. cbn [want r0 prepare]. split; [lia|auto].
  - unfold do_avail. destruct (J_synchronize c r H) as (r' & m & E & H1 & _). rewrite E. do 2 eexists. split; [reflexivity|]. split; [exact H1|]. split; [exact (deltas_synchronize _ _ _ _ _ _ E)|reflexivity].
Qed.
Lemma J_run : forall c h r, J r -> Forall sensible h -> Forall (fine (first_delta r)) (arrived h) ->
  Forall nothing (snd (run c h r)) /\ length (snd (run c h r)) = length h.
Proof.
  intros c. induction h as [|o h IH]; intros r H Sn F; cbn [run]; [split; [constructor|reflexivity]|]. inversion Sn as [|? ? S1 S2]; subst.
  unfold arrived in F. cbn [flat_map] in F. apply Forall_app in F. destruct F as (F1 & F2).
  destruct (J_step c o r H S1 F1) as (r1 & x & -> & H1 & Q & N).
  destruct (IH r1 H1 S2 ltac:(rewrite (deltas_first _ _ Q); exact F2)) as (I1 & I2).
  destruct x; try contradiction N; destruct (run c h r1) as [r2 xs]; cbn in *; (split; [constructor; assumption|congruence]).
Qed.
End Hole.

(** An invalid reader never becomes valid again. *)
Lemma inval_synchronize : forall c r r' m x v, synchronize c r = (r', m, x, v) -> inval r' = inval r.
Proof.
  intros c r r' m x v E. unfold synchronize in E. destruct (sync_status (sigs r)).
  - destruct (min_samples (sigs r) =? 0); [congruence|]. cbv beta zeta in E.
    match type of E with (match ?a with _ => _ end) = _ => destruct a as [y|] end; [|injection E as <- _ _ _; reflexivity].
    destruct (grid c); [|injection E as <- _ _ _; reflexivity]. unfold sync_all in E. injection E as <- _ _ _. reflexivity.
  - destruct (min_samples (sigs r) =? 0); [congruence|]. cbv beta zeta in E.
    match type of E with (match ?a with _ => _ end) = _ => destruct a as [y|] end; [|injection E as <- _ _ _; reflexivity].
    unfold sync_all in E. injection E as <- _ _ _. reflexivity.
  - congruence.
Qed.
Definition invalid_got (o : outcome) : Prop := match o with Got _ _ _ _ ok => ok = false | _ => True end.
Lemma inval_read_sync : forall c z r r' m x o, inval r = true -> read_sync c z r = (r', m, x, o) -> inval r' = true /\ match o with Some o => invalid_got o | None => True end.
Proof.
  intros c z r r' m x o H E. unfold read_sync in E. destruct (collect 0 (sigs r)) as [[ss es] b].
  rewrite H in E. cbn [orb] in E. destruct (synchronize c (with_inval (with_sigs r ss) true)) as [[[r2 m2] x2] v] eqn:ES.
  pose proof (inval_synchronize _ _ _ _ _ _ ES) as K. change (inval (with_inval (with_sigs r ss) true)) with true in K.
  rewrite K in E. cbn [negb] in E. destruct v; [|injection E as <- _ _ <-; split; [exact K|reflexivity]|injection E as <- _ _ <-; split; [exact K|exact Logic.I]].
  destruct es; [|injection E as <- _ _ <-; split; [exact K|reflexivity]].
  destruct z; [|injection E as <- _ _ <-; split; [exact K|exact Logic.I]].
  destruct ((m2 <? min_read c) && event_queued (sigs r2)); [|injection E as <- _ _ <-; split; [exact K|reflexivity]].
  destruct (read_samples m2 (sigs r2)) as [[ss2 w] f]. cbn [inval with_sigs] in E. rewrite ?K in E. destruct f; injection E as <- _ _ <-; (split; [exact K|]); cbn; auto.
Qed.
Lemma inval_rest : forall c z r m x r' o, inval r = true -> read_rest c z r m x = (r', o) -> inval r' = true /\ invalid_got o.
Proof.
  intros c z r m x r' o H E. unfold read_rest in E.
  destruct (match x with Synced => (r, m, x, None) | _ => read_sync c z r end) as [[[r1 m1] x1] o1] eqn:E1.
  assert (K : inval r1 = true /\ match o1 with Some o => invalid_got o | None => True end).
  { destruct x; [exact (inval_read_sync _ _ _ _ _ _ _ H E1)|exact (inval_read_sync _ _ _ _ _ _ _ H E1)|]. injection E1 as <- _ _ <-. auto. }
  destruct K as (K1 & K2). destruct o1 as [o1|]; [injection E as <- <-; auto|]. rewrite K1 in E. cbn [negb] in E.
  destruct x1; try (injection E as <- <-; split; [exact K1|reflexivity]).
  destruct (0 <? m1); [|injection E as <- <-; split; [exact K1|reflexivity]].
  destruct (no_offset (sigs r1)); [injection E as <- <-; split; [exact K1|exact Logic.I]|].
  destruct (read_samples (Z.min (want r1) m1) (sigs r1)) as [[ss w] f]. cbn [inval with_want with_sigs] in E. rewrite ?K1 in E. destruct f; injection E as <- <-; (split; [exact K1|]); cbn; auto.
Qed.
Definition silent (x : outcome) : Prop := match x with Got n _ _ _ ok => n = 0 /\ ok = false | _ => True end.
Lemma arrive_inval : forall bs r, inval r = true -> inval (fold_left arrive bs r) = true.
Proof.
  induction bs as [|b bs IH]; intros r H; cbn [fold_left]; [exact H|]. apply IH. unfold arrive. revert r H. induction b as [|ip b IHb]; intros r H; cbn [fold_left]; [exact H|]. apply IHb.
  unfold notify. change (inval (push r ip)) with (inval r). rewrite H. destruct (nth_error (sigs (push r ip)) (fst ip)); exact H.
Qed.
Lemma inval_step : forall c o r r' x, inval r = true -> step c o r = (r', x) -> inval r' = true /\ silent x.
Proof.
  intros c o r r' x H E. destruct o as [i p|i|dom nul n limit|n|]; cbn [step] in E.
  - injection E as <- <-. split; [exact H|exact Logic.I].
  - injection E as <- <-. split; [|exact Logic.I]. unfold notify. rewrite H. destruct (nth_error (sigs r) i); exact H.
  - unfold do_read in E. destruct (negb (n =? 0) && (nul || (n <? min_read c))).
    { injection E as <- <-. split; [apply arrive_inval; exact H|exact Logic.I]. }
    cbn [nextev inval with_call] in E. destruct (nextev r).
    + destruct (read_packets c None (with_call r)) as [[r1 o] rest] eqn:ER. unfold read_packets in ER.
      destruct (read_rest c (want (with_call r) =? 0) (with_call r) 0 Unsync) as [r2 o2] eqn:E2. injection ER as -> -> <-.
      destruct (inval_rest _ _ (with_call r) _ _ _ _ H E2) as (K1 & K2). rewrite K1 in E. injection E as <- <-. split; [apply arrive_inval; exact K1|].
      destruct (dom && true); destruct o; cbn in *; auto.
    + rewrite H in E. injection E as <- <-. split; [apply arrive_inval; exact H|]. cbn. auto.
  - unfold do_skip in E. rewrite H in E. injection E as <- <-. split; [exact H|]. cbn. auto.
  - unfold do_avail in E. destruct (synchronize c r) as [[[r1 m] y] v] eqn:ES. pose proof (inval_synchronize _ _ _ _ _ _ ES) as K. destruct v; injection E as <- <-; (split; [congruence|exact Logic.I]).
Qed.
Lemma inval_run : forall c h r, inval r = true -> Forall silent (snd (run c h r)).
Proof.
  intros c. induction h as [|o h IH]; intros r H; cbn [run]; [constructor|]. destruct (step c o r) as [r1 x] eqn:ES. destruct (inval_step _ _ _ _ _ H ES) as (K1 & K2).
  specialize (IH r1 K1). destruct x; try (constructor; [exact K2|constructor]); destruct (run c h r1) as [r2 xs]; cbn in *; constructor; assumption.
Qed.

(** The flag of a status is the one of the reader. *)
Definition flag (r : reader) (o : outcome) : Prop := match o with Got _ _ _ _ ok => ok = negb (inval r) | _ => True end.
Lemma flag_read_sync : forall c z r r' m x o, read_sync c z r = (r', m, x, o) -> match o with Some o => flag r' o | None => True end.
Proof.
  intros c z r r' m x o E. unfold read_sync in E. destruct (collect 0 (sigs r)) as [[ss es] b].
  destruct (synchronize c (with_inval (with_sigs r ss) (inval r || b))) as [[[r2 m2] x2] v].
  destruct v; [|injection E as <- _ _ <-; reflexivity|injection E as <- _ _ <-; exact Logic.I].
  destruct es; [|injection E as <- _ _ <-; reflexivity].
  destruct z; [|injection E as <- _ _ <-; exact Logic.I].
  destruct ((m2 <? min_read c) && event_queued (sigs r2)); [|injection E as <- _ _ <-; reflexivity].
  destruct (read_samples m2 (sigs r2)) as [[ss2 w] f]. destruct f; injection E as <- _ _ <-; cbn; auto.
Qed.
Lemma flag_rest : forall c z r m x r' o, read_rest c z r m x = (r', o) -> flag r' o.
Proof.
  intros c z r m x r' o E. unfold read_rest in E.
  destruct (match x with Synced => (r, m, x, None) | _ => read_sync c z r end) as [[[r1 m1] x1] o1] eqn:E1.
  destruct o1 as [o1|].
  - injection E as <- <-. destruct x; try exact (flag_read_sync _ _ _ _ _ _ _ E1). discriminate.
  - destruct x1; try (injection E as <- <-; reflexivity).
    destruct (0 <? m1); [|injection E as <- <-; reflexivity].
    destruct (no_offset (sigs r1)); [injection E as <- <-; exact Logic.I|].
    destruct (read_samples (Z.min (want r1) m1) (sigs r1)) as [[ss w] f]. destruct f; injection E as <- <-; cbn; auto.
Qed.
Lemma flag_wait : forall c z bs r l r' l' o rest, wait c z bs r l = (r', l', o, rest) -> match o with Some o => flag r' o | None => True end.
Proof.
  intros c z. assert (K : forall r l r' l' o s, condition c z r l = (r', l', o, s) -> match o with Some o => flag r' o | None => True end).
  { intros r l r' l' o s E. unfold condition in E. destruct (ready (sigs r)) as [ss b]. destruct (negb b); [injection E as <- _ <- _; exact Logic.I|].
    destruct (read_sync c z (with_sigs r ss)) as [[[r1 m] x] o1] eqn:E1. pose proof (flag_read_sync _ _ _ _ _ _ _ E1) as F. destruct o1; injection E as <- _ <- _; exact F. }
  induction bs as [|b bs IH]; intros r l r' l' o rest E; cbn [wait] in E; destruct (condition c z r l) as [[[r1 l1] o1] stop] eqn:EC; pose proof (K _ _ _ _ _ _ EC) as F.
  - destruct stop; injection E as <- _ <- _; exact F.
  - destruct stop; [injection E as <- _ <- _; exact F|]. exact (IH _ _ _ _ _ _ E).
Qed.
Lemma flag_packets : forall c l r r' o rest, read_packets c l r = (r', o, rest) -> flag r' o.
Proof.
  intros c l r r' o rest E. unfold read_packets in E.
  destruct (match l with Some bs => wait c (want r =? 0) bs r (0, Unsync) | None => (r, (0, Unsync), None, []) end) as [[[r1 [m x]] o1] rest1] eqn:E1.
  destruct o1 as [o1|].
  - injection E as <- <- _. destruct l; [exact (flag_wait _ _ _ _ _ _ _ _ _ E1)|discriminate].
  - destruct (read_rest c (want r =? 0) r1 m x) as [r2 o2] eqn:E2. injection E as <- <- _. exact (flag_rest _ _ _ _ _ _ _ E2).
Qed.
Lemma false_stays : forall c o r r' n w to es, step c o r = (r', Got n w to es false) -> inval r' = true.
Proof.
  intros c o r r' n w to es E. destruct o as [i p|i|dom nul k limit|k|]; cbn [step] in E; try discriminate.
  - destruct (do_read c dom nul k limit r) as [[r1 x] rest] eqn:ED. injection E as <- ->. apply arrive_inval. unfold do_read in ED.
    destruct (negb (k =? 0) && (nul || (k <? min_read c))); [discriminate|]. cbn [nextev inval with_call] in ED. destruct (nextev r).
    + destruct (read_packets c None (with_call r)) as [[r2 o2] rest2] eqn:ER. pose proof (flag_packets _ _ _ _ _ _ ER) as F. injection ED as <- ED _.
      destruct (inval r2) eqn:EI; [reflexivity|]. rewrite andb_false_r in ED. destruct o2; try discriminate. cbn in ED, F. rewrite EI in F. injection ED as _ _ _ _ ED. rewrite F in ED. discriminate ED.
    + destruct (inval r) eqn:EI; [injection ED as <- _ _ _ _ _; exact EI|]. destruct (dom && nul && _); [discriminate|].
      match type of ED with match ?p with _ => _ end = _ => destruct p as [[r2 o2] rest2] eqn:ER end. pose proof (flag_packets _ _ _ _ _ _ ER) as F. injection ED as <- ED _.
      destruct o2; try discriminate. cbn in ED, F. injection ED as _ _ _ _ ED. subst ok. destruct (inval r2); [reflexivity|discriminate].
  - unfold do_skip in E. destruct (inval r) eqn:EI; [injection E as <- _ _ _ _; exact EI|]. destruct (k <? min_read c); [discriminate|].
    destruct (read_packets c None (prepare r k None)) as [[r2 o2] rest2] eqn:ER. pose proof (flag_packets _ _ _ _ _ _ ER) as F. injection E as <- E.
    destruct o2; try discriminate. cbn in E, F. injection E as _ _ _ _ E. subst ok. destruct (inval r2); [reflexivity|discriminate].
  - unfold do_avail in E. destruct (synchronize c r) as [[[? ?] ?] []]; discriminate.
Qed.
Lemma false_for_ever : forall c h r xs1 n w to es xs2, snd (run c h r) = xs1 ++ Got n w to es false :: xs2 -> Forall silent xs2.
Proof.
  intros c. induction h as [|o h IH]; intros r xs1 n w to es xs2 E; cbn [run] in E.
  - destruct xs1; discriminate.
  - destruct (step c o r) as [r1 x] eqn:ES. destruct xs1 as [|y xs1].
    + assert (x = Got n w to es false) as -> by (destruct (run c h r1); destruct x; cbn in E; congruence).
      pose proof (false_stays _ _ _ _ _ _ _ _ ES) as K. pose proof (inval_run c h r1 K) as F. destruct (run c h r1) as [r2 ys]. cbn in E, F. injection E as <-. exact F.
    + assert (K : snd (run c h r1) = xs1 ++ Got n w to es false :: xs2).
      { destruct x; try (destruct (run c h r1); cbn in E; injection E as _ E; exact E). cbn in E. injection E as _ E. destruct xs1; discriminate. }
      exact (IH _ _ _ _ _ _ _ K).
Qed.
