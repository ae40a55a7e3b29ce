(** Loading an arbitrary configuration: what can and what cannot come of it. *)
From Coq Require Import List Bool Arith Lia.
From Verif Require Import Conf_Model Conf_Spec Conf_Core Conf_Upd Conf_Proofs.
Import ListNotations.

Section CfgRec.
Variable P : cfg -> Prop.
Hypothesis H : forall i t po si subs, Forall P subs -> P (Cfg i t po si subs).
Fixpoint cfg_rec' (c : cfg) : P c :=
  match c with
  | Cfg i t po si subs => H i t po si subs ((fix go l : Forall P l := match l with [] => Forall_nil _ | k :: r => Forall_cons _ (cfg_rec' k) (go r) end) subs)
  end.
End CfgRec.

Section Any.
Variable w : world.

Record grown (n : node) (c : cfg) (n' : node) : Prop := {
  g_same : nid n' = nid n /\ nty n' = nty n /\ ncn n' = ncn n;
  g_tidy : tidyf n';
  g_fixed : forall q m, fixedf w n q = Some m -> exists m', fixedf w n' q = Some m' /\ nty m' = nty m;
  g_from : forall q m', find n' q = Some m' ->
    (exists m, find n q = Some m /\ nty m = nty m' /\ ncn m = ncn m') \/ (ncn m' = [] /\ exists po, listed c q (nty m') po) }.
Definition noted (p : path) (c : cfg) (x x' : ctx) : Prop :=
  forall r C port s, pget r (x_conns x') = Some C -> In (port, s) C ->
    (exists C0, pget r (x_conns x) = Some C0 /\ In (port, s) C0) \/ (exists q ty po, r = p ++ q /\ listed c q ty po /\ In (port, Some s) po).

Lemma aset_in : forall q (s' : sig) C port s, In (port, s) (aset q s' C) -> (port = q /\ s = s') \/ In (port, s) C.
Proof.
  intros q s'. induction C as [|(a, b) C IH]; intros port s; cbn [aset].
  - intros [H|[]]. injection H as <- <-. auto.
  - destruct (Nat.eqb a q); intros [H|H].
    + injection H as <- <-. auto.
    + right. right. exact H.
    + right. left. exact H.
    + destruct (IH port s H) as [K|K]; [auto|right; right; exact K].
Qed.
Lemma note_ports_any : forall p po x r C port s, pget r (x_conns (note_ports p po x)) = Some C -> In (port, s) C ->
  (exists C0, pget r (x_conns x) = Some C0 /\ In (port, s) C0) \/ (r = p /\ In (port, Some s) po).
Proof.
  intros p. induction po as [|(q, o) po IH]; intros x r C port s H Hin; [left; eauto|]. rewrite note_ports_cons in H.
  destruct (IH _ _ _ _ _ H Hin) as [(C0 & K1 & K2)|(-> & K)]; [|right; split; [reflexivity|right; exact K]].
  destruct o as [s'|]; [|left; eauto]. rewrite pget_set_conn in K1. destruct (path_eqb p r) eqn:E0; [|left; eauto]. apply path_eqb_eq in E0. subst r.
  injection K1 as <-. destruct (aset_in _ _ _ _ _ K2) as [(-> & ->)|K]; [right; split; [reflexivity|left; reflexivity]|].
  destruct (pget p (x_conns x)) as [C1|]; [left; eauto|destruct K].
Qed.

(** the children after the saved children [dn] *)
Record sofar (p : path) (n : node) (x : ctx) (all : list cfg) (a : acc) : Prop := {
  s_ids : NoDup (map nid (a_subs a));
  s_fixed : forall i k0, child i (keep w n) = Some k0 -> exists k', child i (a_subs a) = Some k' /\ nty k' = nty k0
     /\ (forall q m, fixedf w k0 q = Some m -> exists m', fixedf w k' q = Some m' /\ nty m' = nty m);
  s_tidy : forall i k', child i (a_subs a) = Some k' -> tidyf k';
  s_from : forall i k' q m', child i (a_subs a) = Some k' -> find k' q = Some m' ->
     (exists k0 m, child i (keep w n) = Some k0 /\ find k0 q = Some m /\ nty m = nty m' /\ ncn m = ncn m')
     \/ (ncn m' = [] /\ exists t po si su po', In (Cfg i t po si su) all /\ listed (Cfg i t po si su) q (nty m') po');
  s_ctx : forall r C port s, pget r (x_conns (a_ctx a)) = Some C -> In (port, s) C ->
     (exists C0, pget r (x_conns x) = Some C0 /\ In (port, s) C0)
     \/ (exists i t po si su q ty po', In (Cfg i t po si su) all /\ r = p ++ i :: q /\ listed (Cfg i t po si su) q ty po' /\ In (port, Some s) po') }.

Theorem upd_any : forall c p n x n' x' g ok, tidyf n -> upd w p n c x = (n', x', g, ok) -> grown n c n' /\ noted p c x x'.
Proof.
  induction c as [ci ct po si csubs IH] using cfg_rec'. intros p n x n' x' g ok Tn U.
  rewrite upd_eq in U. cbv zeta in U.
  set (x0 := note_ports p po x) in *.
  set (a0 := Acc (keep w n) x0 _ true) in U.
  assert (A0 : sofar p n x0 csubs a0).
  { split.
    - apply nodup_filter_ids. exact (tidyf_ids n Tn).
    - intros i k0 K. exists k0. split; [exact K|]. split; [reflexivity|]. intros q m Hm. eauto.
    - intros i k K. destruct (keep_child w n i k (tidyf_ids n Tn) K) as (K1 & _). exact (tidyf_child n _ _ Tn K1).
    - intros i k q m' K Hm. left. exists k, m'. auto.
    - intros r C port s K1 K2. left. eauto. }
  assert (Loop : forall l a, (forall c', In c' l -> In c' csubs) -> sofar p n x0 csubs a -> sofar p n x0 csubs (fold_left (stepw w (nty n) p) l a)).
  { induction l as [|c' l IHl]; intros a Hl A; [exact A|]. cbn [fold_left]. apply IHl; [intros c2 H2; apply Hl; right; exact H2|].
    assert (Inc : In c' csubs) by (apply Hl; left; reflexivity). rewrite Forall_forall in IH. specialize (IH c' Inc).
    destruct c' as [i t po1 si1 su1]. cbn [stepw]. destruct (a_ok a); [|exact A].
    pose proof A as [S1 S2 S3 S4 S5].
    destruct (w_avail w (nty n) t) eqn:Av.
    - destruct (child i (a_subs a)) as [k|] eqn:K; [destruct A; split; auto|]. destruct (w_ok w (p ++ [i]) t); [|destruct A; split; auto].
      destruct (upd w (p ++ [i]) (Node i t [] []) (Cfg i t po1 si1 su1) (a_ctx a)) as [[[k1 x1] g1] ok1] eqn:U1.
      destruct (IH _ _ _ _ _ _ _ (tidy_fresh (Node i t [] [])) U1) as ([(G1 & G2 & G3) G4 G5 G6] & N). cbn [nid nty ncn] in G1, G2, G3.
      split; cbn [a_subs a_ctx].
      + apply nodup_app_id; [exact S1|]. rewrite G1. exact K.
      + intros j k0 Hj. destruct (S2 j k0 Hj) as (k' & C1 & C2). exists k'. split; [|exact C2]. rewrite child_app, C1. reflexivity.
      + intros j k' Hj. rewrite child_app in Hj. destruct (child j (a_subs a)) eqn:Kj; [injection Hj as <-; exact (S3 j _ Kj)|].
        cbn [child] in Hj. destruct (Nat.eqb (nid k1) j); [injection Hj as <-; exact G4|discriminate].
      + intros j k' q m' Hj Hm. rewrite child_app in Hj. destruct (child j (a_subs a)) eqn:Kj; [injection Hj as <-; exact (S4 j _ q m' Kj Hm)|].
        cbn [child] in Hj. destruct (Nat.eqb (nid k1) j) eqn:Ej; [|discriminate]. injection Hj as <-. apply Nat.eqb_eq in Ej. rewrite G1 in Ej. subst j.
        right. destruct (G6 q m' Hm) as [(m & F1 & F2 & F3)|(F1 & po' & F2)].
        * destruct q as [|j q]; [|discriminate F1]. injection F1 as <-. cbn [nty ncn] in F2, F3. split; [symmetry; exact F3|]. rewrite <- F2.
          exists t, po1, si1, su1, po1. split; [exact Inc|constructor].
        * split; [exact F1|]. exists t, po1, si1, su1, po'. auto.
      + intros r C port s K1 K2. destruct (N r C port s K1 K2) as [(C0 & L1 & L2)|(q & ty & po' & L1 & L2 & L3)]; [exact (S5 r C0 port s L1 L2)|].
        right. exists i, t, po1, si1, su1, q, ty, po'. rewrite <- app_assoc in L1. auto.
    - destruct (child i (a_subs a)) as [k|] eqn:K; [|exact A].
      destruct (upd w (p ++ [i]) k (Cfg i t po1 si1 su1) (a_ctx a)) as [[[k1 x1] g1] ok1] eqn:U1.
      destruct (IH _ _ _ _ _ _ _ (S3 i k K) U1) as ([(G1 & G2 & G3) G4 G5 G6] & N). pose proof (child_id _ _ _ K) as Ik.
      assert (Ch : forall j, child j (replace k1 (a_subs a)) = if Nat.eqb i j then Some k1 else child j (a_subs a)).
      { intros j. rewrite child_replace, G1, Ik. destruct (Nat.eqb i j) eqn:Ej; [apply Nat.eqb_eq in Ej; subst j; rewrite K; reflexivity|]. destruct (child j (a_subs a)); reflexivity. }
      split; cbn [a_subs a_ctx].
      + rewrite replace_ids. exact S1.
      + intros j k0 Hj. destruct (S2 j k0 Hj) as (k' & C1 & C2 & C3). rewrite Ch. destruct (Nat.eqb i j) eqn:Ej; [|exists k'; auto].
        apply Nat.eqb_eq in Ej. subst j. assert (k' = k) as -> by congruence. exists k1. split; [reflexivity|]. split; [congruence|].
        intros q m Hm. destruct (C3 q m Hm) as (m1 & D1 & D2). destruct (G5 q m1 D1) as (m2 & D3 & D4). exists m2. split; [exact D3|congruence].
      + intros j k' Hj. rewrite Ch in Hj. destruct (Nat.eqb i j); [injection Hj as <-; exact G4|exact (S3 j k' Hj)].
      + intros j k' q m' Hj Hm. rewrite Ch in Hj. destruct (Nat.eqb i j) eqn:Ej; [|exact (S4 j k' q m' Hj Hm)]. injection Hj as <-. apply Nat.eqb_eq in Ej. subst j.
        destruct (G6 q m' Hm) as [(m & F1 & F2 & F3)|(F1 & po' & F2)].
        * rewrite <- F2, <- F3. exact (S4 i k q m K F1).
        * right. split; [exact F1|]. exists t, po1, si1, su1, po'. auto.
      + intros r C port s K1 K2. destruct (N r C port s K1 K2) as [(C0 & L1 & L2)|(q & ty & po' & L1 & L2 & L3)]; [exact (S5 r C0 port s L1 L2)|].
        right. exists i, t, po1, si1, su1, q, ty, po'. rewrite <- app_assoc in L1. auto. }
  specialize (Loop csubs a0 (fun c' H => H) A0). set (a := fold_left (stepw w (nty n) p) csubs a0) in *.
  injection U as <- <- <- <-. destruct Loop as [S1 S2 S3 S4 S5]. split.
  - split.
    + repeat split; reflexivity.
    + intros q m. destruct q as [|i q]; cbn [find]; [intros H; injection H as <-; exact S1|]. cbn [nsubs]. destruct (child i (a_subs a)) as [k|] eqn:K; [|discriminate].
      exact (S3 i k K q m).
    + intros q m. destruct q as [|i q]; cbn [fixedf]; [intros H; injection H as <-; eexists; split; reflexivity|].
      destruct (child i (keep w n)) as [k0|] eqn:K0; [|discriminate]. intros Hm. destruct (S2 i k0 K0) as (k' & C1 & C2 & C3).
      destruct (C3 q m Hm) as (m' & D1 & D2). exists m'. split; [|exact D2].
      assert (Kc : child i (keep w (Node (nid n) (nty n) (ncn n) (a_subs a))) = Some k').
      { unfold keep. cbn [nty nsubs]. destruct (child_in _ _ _ C1) as (I1 & I2). rewrite <- I2. apply child_nodup; [apply nodup_filter_ids; exact S1|].
        apply filter_In. split; [exact I1|]. destruct (keep_child w n i k0 (tidyf_ids n Tn) K0) as (_ & Av). rewrite C2, Av. reflexivity. }
      rewrite Kc. exact D1.
    + intros q m'. destruct q as [|i q]; cbn [find]; [intros H; injection H as <-; left; exists n; repeat split; reflexivity|]. cbn [nsubs].
      destruct (child i (a_subs a)) as [k|] eqn:K; [|discriminate]. intros Hm. destruct (S4 i k q m' K Hm) as [(k0 & m & D1 & D2 & D3)|(D1 & t & po1 & si1 & su1 & po' & D2 & D3)].
      * left. exists m. destruct (keep_child w n i k0 (tidyf_ids n Tn) D1) as (D4 & _). rewrite D4. split; [exact D2|exact D3].
      * right. split; [exact D1|]. exists po'. econstructor; eassumption.
  - intros r C port s K1 K2.
    assert (K1' : pget r (x_conns (a_ctx a)) = Some C).
    { destruct (a_ok a); [|exact K1]. destruct (note_sigs_ok p si (a_ctx a)) as (Z & _). rewrite Z in K1. exact K1. }
    destruct (S5 r C port s K1' K2) as [(C0 & L1 & L2)|(i & t & po1 & si1 & su1 & q & ty & po' & L1 & L2 & L3 & L4)].
    + destruct (note_ports_any p po x r C0 port s L1 L2) as [L|(-> & L)]; [left; exact L|]. right. exists [], ct, po. rewrite app_nil_r.
      split; [reflexivity|]. split; [constructor|exact L].
    + right. exists (i :: q), ty, po'. split; [exact L2|]. split; [econstructor; eassumption|exact L4].
Qed.

Section Ended.
Variables (t : node) (old : path -> nat -> sig -> Prop) (ok : path -> sig -> Prop).
Definition known (st : live) : Prop :=
  (forall r C port s, pget r (x_conns (l_ctx st)) = Some C -> In (port, s) C -> ok r s)
  /\ (forall r port s, In (port, s) (conns_of t st r) -> old r port s \/ ok r s).
Lemma known_connect : forall st ty p port s, known st -> ok p s -> known (connect w t st ty p port s).
Proof.
  intros st ty p port s (K1 & K2) Hs. unfold connect. cbv zeta. destruct (w_takes _ _ _ _ _); [|split; assumption]. split; [exact K1|].
  intros r q s' H. rewrite conns_pset in H. destruct (path_eqb p r) eqn:E0; [|exact (K2 r q s' H)]. apply path_eqb_eq in E0. subst r.
  destruct (aset_in _ _ _ _ _ H) as [(-> & ->)|H']; [right; exact Hs|exact (K2 p q s' H')].
Qed.
Lemma ended_any : forall f st p st', known st -> ended w t f st p = Some st' -> known st'.
Proof.
  induction f as [|f IH]; intros st p st' K; cbn [ended]; [discriminate|]. destruct (find t p) as [n|]; [|intros H; injection H as <-; exact K].
  assert (Pe : forall ty st q st1, known st -> port_ended (ended w t f) w t ty st p q = Some st1 -> known st1).
  { intros ty st0 q st1 K0. unfold port_ended. destruct (aget q (conns_of t st0 p)); [intros H; injection H as <-; exact K0|].
    unfold get_signal. destruct (pget p (x_conns (l_ctx st0))) as [C|] eqn:E0; [|intros H; injection H as <-; exact K0].
    destruct (aget q C) as [s|] eqn:E1; [|intros H; injection H as <-; exact K0].
    assert (Hs : ok p s) by exact (proj1 K0 p C q s E0 (aget_in _ _ _ _ E1)). cbv zeta.
    destruct (_ && _).
    - destruct (ended w t f st0 (fst s)) as [st2|] eqn:E2; [|discriminate]. pose proof (IH _ _ _ K0 E2) as K2.
      assert (K3 : known (Live (l_conns st2) (Ctx (x_conns (l_ctx st2)) (filter (fun r => negb (sig_eqb s r)) (x_deps (l_ctx st2)))))) by exact K2.
      destruct (exists_sig _ _ _ _); intros H; injection H as <-; [apply known_connect; assumption|exact K3].
    - destruct (exists_sig _ _ _ _); intros H; injection H as <-; [apply known_connect; assumption|exact K0]. }
  assert (L1 : forall ty l st un st1 un1, known st -> (forall q, In q l -> ok p (snd q)) -> (forall q, In q un -> ok p (snd q)) ->
     loop1 (ended w t f) w t ty p l st un = Some (st1, un1) -> known st1 /\ forall q, In q un1 -> ok p (snd q)).
  { intros ty. induction l as [|(q, s) l IHl]; intros st0 un st1 un1 K0 Hl Hu; cbn [loop1]; [intros H; injection H as <- <-; auto|].
    destruct (existsb _ _).
    - destruct (port_ended _ _ _ _ _ _ _) as [st2|] eqn:E0; [|discriminate]. apply IHl; [exact (Pe _ _ _ _ K0 E0)|intros y Hy; apply Hl; right; exact Hy|exact Hu].
    - apply IHl; [exact K0|intros y Hy; apply Hl; right; exact Hy|]. intros y Hy. apply in_app_iff in Hy. destruct Hy as [Hy|[<-|[]]]; [exact (Hu y Hy)|].
      apply (Hl (q, s)). left. reflexivity. }
  assert (L2 : forall ty l st st1, known st -> (forall q, In q l -> ok p (snd q)) -> loop2 (ended w t f) w t ty p l st = Some st1 -> known st1).
  { intros ty. induction l as [|(q0, s) l IHl]; intros st0 st1 K0 Hl; cbn [loop2]; [intros H; injection H as <-; exact K0|].
    destruct (List.find _ _) as [q|]; [|intros H; injection H as <-; exact K0].
    destruct (port_ended _ _ _ _ _ _ _) as [st2|] eqn:E0; [|discriminate]. apply IHl; [|intros y Hy; apply Hl; right; exact Hy].
    apply (Pe _ _ _ _) in E0; [exact E0|]. destruct K0 as (A1 & A2). split; [|exact A2]. intros r C port s1 H1 H2. cbn [l_ctx] in H1.
    rewrite pget_set_conn in H1. destruct (path_eqb p r) eqn:Er; [|exact (A1 r C port s1 H1 H2)]. apply path_eqb_eq in Er. subst r. injection H1 as <-.
    destruct (aset_in _ _ _ _ _ H2) as [(-> & ->)|H3]; [exact (Hl (q0, s) (or_introl eq_refl))|].
    destruct (pget p (x_conns (l_ctx st0))) as [C1|] eqn:E1; [exact (A1 p C1 port s1 E1 H3)|destruct H3]. }
  destruct (loop1 _ _ _ _ _ _ _ _) as [[st1 un]|] eqn:E1; [|discriminate].
  assert (L0 : known st1 /\ forall q, In q un -> ok p (snd q)); [apply (L1 (nty n) _ st [] st1 un K) with (3 := E1)|destruct L0 as (K1 & Hun)].
  { intros (q, s) Hq. cbn [snd]. destruct (pget p (x_conns (l_ctx st))) as [C|] eqn:E0; [|destruct Hq]. exact (proj1 K p C q s E0 Hq). }
  { intros q []. }
  destruct (loop2 _ _ _ _ _ _ _) as [st2|] eqn:E2; [|discriminate]. pose proof (L2 _ _ _ _ K1 Hun E2) as K2.
  set (st3 := Live _ _). assert (K3 : known st3).
  { destruct K2 as (A1 & A2). split; [|exact A2]. intros r C port s H1 H2. unfold st3 in H1. cbn [l_ctx x_conns] in H1. rewrite pget_pdel in H1.
    destruct (path_eqb p r); [discriminate|]. exact (A1 r C port s H1 H2). }
  generalize (map (fun k => p ++ [nid k]) (nsubs n)). generalize dependent st3. intros st3 K3 l. revert st3 K3. induction l as [|y l IHl]; intros st3 K3; cbn [all_ended]; [intros H; injection H as <-; exact K3|].
  destruct (ended w t f st3 y) as [st4|] eqn:E4; [|discriminate]. apply IHl. exact (IH _ _ _ K3 E4).
Qed.
End Ended.

Lemma fixedf_prune : forall g q n m, fixedf w n q = Some m -> exists m', fixedf w (prune g n) q = Some m' /\ nty m' = nty m.
Proof.
  intros g. induction q as [|i q IH]; intros n m; cbn [fixedf]; [intros H; injection H as <-; eexists; split; [reflexivity|]; destruct n; reflexivity|].
  destruct (child i (keep w n)) as [k|] eqn:K; [|discriminate]. intros H. destruct (IH k m H) as (m' & A & B). exists m'. split; [|exact B].
  assert (Z : child i (keep w (prune g n)) = Some (prune g k)); [|rewrite Z; exact A]. destruct n as [a b c s]. unfold keep in *. cbn [prune nty nsubs] in *.
  clear -K. induction s as [|k0 s IHs]; cbn [map filter] in *; [discriminate|]. assert (E0 : nty (prune g k0) = nty k0) by (destruct k0; reflexivity). rewrite E0.
  destruct (negb (w_avail w b (nty k0))); [|exact (IHs K)]. cbn [child] in *. rewrite nid_prune. destruct (Nat.eqb (nid k0) i); [injection K as <-; reflexivity|exact (IHs K)].
Qed.
Lemma fixedf_settle : forall l q p n m, fixedf w n q = Some m -> exists m', fixedf w (settle l p n) q = Some m' /\ nty m' = nty m.
Proof.
  intros l. induction q as [|i q IH]; intros p n m; cbn [fixedf]; [intros H; injection H as <-; eexists; split; [reflexivity|]; destruct n; reflexivity|].
  destruct (child i (keep w n)) as [k|] eqn:K; [|discriminate]. intros H. destruct (IH (p ++ [nid k]) k m H) as (m' & A & B). exists m'. split; [|exact B].
  assert (Z : child i (keep w (settle l p n)) = Some (settle l (p ++ [nid k]) k)); [|rewrite Z; exact A]. destruct n as [a b c s]. unfold keep in *. cbn [settle nty nsubs] in *.
  clear -K. induction s as [|k0 s IHs]; cbn [map filter] in *; [discriminate|]. rewrite nty_settle.
  destruct (negb (w_avail w b (nty k0))); [|exact (IHs K)]. cbn [child] in *. rewrite nid_settle. destruct (Nat.eqb (nid k0) i); [injection K as <-; reflexivity|exact (IHs K)].
Qed.

Theorem any : forall fuel x c r, tidy x -> load w fuel x c = Loaded r \/ load w fuel x c = Failed r ->
  (forall p m, fixed w x p m -> exists m', fixed w r p m' /\ nty m' = nty m)
  /\ (forall p m', at_ r p m' -> (exists m, at_ x p m /\ nty m = nty m') \/ (exists po, listed c p (nty m') po))
  /\ (forall p m' port s, at_ r p m' -> In (port, s) (ncn m') ->
       (exists m, at_ x p m /\ In (port, s) (ncn m)) \/ (exists ty po port', listed c p ty po /\ In (port', Some s) po)).
Proof.
  intros fuel x c r Tx H. pose proof (tidy_tidyf x Tx) as Tx'. unfold load in H.
  destruct (upd w [] x c (Ctx [] [])) as [[[n' x'] g] ok] eqn:U. destruct (upd_any _ _ _ _ _ _ _ _ Tx' U) as ([G1 G2 G3 G4] & N). cbv zeta in H.
  assert (TP : tidyf (prune g n')).
  { intros q m K. rewrite find_prune in K. destruct (find n' q) as [n2|] eqn:K2; [|discriminate]. cbn [option_map] in K. injection K as <-. rewrite subs_prune. exact (G2 q n2 K2). }
  (* the tree before connecting *)
  assert (P1 : forall q m, fixedf w x q = Some m -> exists m', fixedf w (prune g n') q = Some m' /\ nty m' = nty m).
  { intros q m K. destruct (G3 q m K) as (m1 & K1 & K2). destruct (fixedf_prune g q n' m1 K1) as (m2 & K3 & K4). exists m2. split; [exact K3|congruence]. }
  assert (P2 : forall q m', find (prune g n') q = Some m' ->
    ((exists m, find x q = Some m /\ nty m = nty m') \/ (exists po, listed c q (nty m') po))
    /\ forall port s, In (port, s) (ncn m') -> exists m, at_ x q m /\ In (port, s) (ncn m)).
  { intros q m' K. rewrite find_prune in K. destruct (find n' q) as [n2|] eqn:K2; [|discriminate]. cbn [option_map] in K. injection K as <-.
    assert (nty (prune g n2) = nty n2) as -> by (destruct n2; reflexivity).
    assert (Sub : forall y, In y (ncn (prune g n2)) -> In y (ncn n2)) by (intros y Hy; destruct n2; cbn [prune ncn] in *; apply filter_In in Hy; tauto).
    destruct (G4 q n2 K2) as [(m & F1 & F2 & F3)|(F1 & po & F2)].
    - split; [left; exists m; auto|]. intros port s Hy. exists m. split; [exact (find_at _ _ _ F1)|]. rewrite F3. exact (Sub _ Hy).
    - split; [right; eauto|]. intros port s Hy. apply Sub in Hy. rewrite F1 in Hy. destruct Hy. }
  destruct ok.
  - destruct (ended w (prune g n') fuel (Live [] x') []) as [st|] eqn:En; [|destruct H; discriminate].
    assert (r = settle (l_conns st) [] (prune g n')) as -> by (destruct H; congruence). clear H.
    assert (Tr : tidyf (settle (l_conns st) [] (prune g n'))).
    { intros q m K. rewrite find_settle in K. destruct (find (prune g n') q) as [n2|] eqn:K2; [|discriminate]. cbn [option_map] in K. injection K as <-.
      rewrite subs_settle. exact (TP q n2 K2). }
    set (old := fun p port s => exists m, at_ x p m /\ In (port, s) (ncn m)). set (okp := fun p (s : sig) => exists ty po port', listed c p ty po /\ In (port', Some s) po).
    assert (K0 : known (prune g n') old okp (Live [] x')).
    { split.
      - intros p C port s K1 K2. cbn [l_ctx] in K1. destruct (N p C port s K1 K2) as [(C0 & L1 & _)|(q & ty & po & -> & L2 & L3)]; [discriminate L1|].
        exists ty, po, port. auto.
      - intros p port s K1. unfold conns_of in K1. cbn [l_conns pget] in K1. destruct (find (prune g n') p) as [n2|] eqn:K2; [|destruct K1].
        left. exact (proj2 (P2 p n2 K2) port s K1). }
    destruct (ended_any _ old okp _ _ _ _ K0 En) as (_ & K).
    split; [|split].
    + intros p m F. destruct (P1 p m (fixed_fixedf _ _ _ _ F Tx')) as (m1 & A1 & A2). destruct (fixedf_settle (l_conns st) p [] _ m1 A1) as (m2 & A3 & A4).
      exists m2. split; [exact (fixedf_fixed _ _ _ _ A3)|congruence].
    + intros p m' A. apply at_find in A; [|exact Tr]. rewrite find_settle in A. destruct (find (prune g n') p) as [n2|] eqn:K2; [|discriminate]. cbn [option_map] in A. injection A as <-.
      rewrite nty_settle. destruct (proj1 (P2 p n2 K2)) as [(m & F1 & F2)|F]; [left; exists m; split; [exact (find_at _ _ _ F1)|exact F2]|right; exact F].
    + intros p m' port s A Hy. apply at_find in A; [|exact Tr]. rewrite find_settle in A. destruct (find (prune g n') p) as [n2|] eqn:K2; [|discriminate]. cbn [option_map app] in A. injection A as <-.
      rewrite ncn_settle in Hy. apply (K p port s). unfold conns_of. rewrite K2. exact Hy.
  - assert (r = prune g n') as -> by (destruct H; congruence). split; [|split].
    + intros p m F. destruct (P1 p m (fixed_fixedf _ _ _ _ F Tx')) as (m1 & A1 & A2). exists m1. split; [exact (fixedf_fixed _ _ _ _ A1)|exact A2].
    + intros p m' A. apply at_find in A; [|exact TP]. destruct (proj1 (P2 p m' A)) as [(m & F1 & F2)|F]; [left; exists m; split; [exact (find_at _ _ _ F1)|exact F2]|right; exact F].
    + intros p m' port s A Hy. apply at_find in A; [|exact TP]. left. exact (proj2 (P2 p m' A) port s Hy).
Qed.
End Any.
