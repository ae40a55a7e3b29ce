(** Saving and loading: the proofs. *)
From Coq Require Import List Bool Arith Lia.
From Verif Require Import Conf_Model Conf_Spec Conf_Core Conf_Upd.
Import ListNotations.

Lemma find_at : forall q n m, find n q = Some m -> at_ n q m.
Proof.
  induction q as [|i q IH]; intros n m; cbn [find]; [intros H; injection H as <-; constructor|].
  destruct (child i (nsubs n)) as [k|] eqn:K; [|discriminate]. intros H. destruct (child_in _ _ _ K) as (K1 & <-). constructor; auto.
Qed.
Lemma tidy_tidyf : forall n, tidy n -> tidyf n.
Proof. intros n H q m Hm. exact (H q m (find_at _ _ _ Hm)). Qed.
Lemma at_find : forall n q m, at_ n q m -> tidyf n -> find n q = Some m.
Proof.
  induction 1 as [n|n k p m Hk _ IH]; intros T; [reflexivity|]. cbn [find]. pose proof (child_nodup _ _ (tidyf_ids n T) Hk) as K. rewrite K.
  apply IH. exact (tidyf_child n _ _ T K).
Qed.
Lemma fixedf_fixed : forall w q n m, fixedf w n q = Some m -> fixed w n q m.
Proof.
  intros w. induction q as [|i q IH]; intros n m; cbn [fixedf]; [intros H; injection H as <-; constructor|].
  destruct (child i (keep w n)) as [k|] eqn:K; [|discriminate]. intros H. destruct (child_in _ _ _ K) as (K1 & <-). apply filter_In in K1.
  constructor; [tauto| |auto]. destruct (w_avail w (nty n) (nty k)); [destruct K1; discriminate|reflexivity].
Qed.
Lemma keep_in : forall w n k, tidyf n -> In k (nsubs n) -> w_avail w (nty n) (nty k) = false -> child (nid k) (keep w n) = Some k.
Proof.
  intros w n k T H A. apply child_nodup; [apply nodup_filter_ids; exact (tidyf_ids n T)|]. apply filter_In. rewrite A. auto.
Qed.
Lemma tidyf_in : forall n k, tidyf n -> In k (nsubs n) -> tidyf k.
Proof. intros n k T H. exact (tidyf_child n _ _ T (child_nodup _ _ (tidyf_ids n T) H)). Qed.
Lemma fixed_fixedf : forall w n q m, fixed w n q m -> tidyf n -> fixedf w n q = Some m.
Proof.
  intros w. induction 1 as [n|n k p m Hk A _ IH]; intros T; [reflexivity|]. cbn [fixedf]. rewrite (keep_in w n k T Hk A). exact (IH (tidyf_in n k T Hk)).
Qed.
Lemma keptf_kept : forall w q n t m, keptf w n t q = Some m -> kept w n t q m.
Proof.
  intros w. induction q as [|i q IH]; intros n t m; cbn [keptf]; [intros H; injection H as <-; constructor|].
  destruct (child i (nsubs t)) as [k|] eqn:K; [|discriminate]. destruct (child_in _ _ _ K) as (K1 & <-). unfold base.
  destruct (w_avail w (nty t) (nty k)) eqn:A; [intros H; apply kept_new; auto|].
  destruct (child (nid k) (keep w n)) as [b|] eqn:B; [|discriminate]. intros H. destruct (child_in _ _ _ B) as (B1 & B2). apply filter_In in B1.
  apply (kept_old w n t k b); auto; [tauto|]. destruct (w_avail w (nty n) (nty b)); [destruct B1; discriminate|reflexivity].
Qed.
Lemma kept_keptf : forall w n t q m, kept w n t q m -> tidyf n -> tidyf t -> keptf w n t q = Some m.
Proof.
  intros w. induction 1 as [n t|n t k p m Hk A _ IH|n t k k' p m Hk A Hk' E A' _ IH]; intros Tn Tt; [reflexivity| |]; cbn [keptf];
    rewrite (child_nodup _ _ (tidyf_ids t Tt) Hk); unfold base; rewrite A.
  - apply IH; [exact (tidy_fresh k)|exact (tidyf_in t k Tt Hk)].
  - rewrite <- E, (keep_in w n k' Tn Hk' A'). apply IH; [exact (tidyf_in n k' Tn Hk')|exact (tidyf_in t k Tt Hk)].
Qed.
Lemma kept_at : forall w n t q m, kept w n t q m -> at_ t q m.
Proof. intros w. induction 1 as [n t|n t k p m Hk A _ IH|n t k k' p m Hk A Hk' E A' _ IH]; constructor; auto. Qed.
Lemma fixed_at : forall w n q m, fixed w n q m -> at_ n q m.
Proof. intros w. induction 1 as [n|n k p m Hk A _ IH]; constructor; auto. Qed.
Lemma fixed_keptf : forall w q n t m, tidyf t -> fitsf w n t -> fixedf w n q = Some m -> keptf w n t q <> None.
Proof.
  intros w. induction q as [|i q IH]; intros n t m T F; cbn [fixedf keptf]; [discriminate|].
  destruct (child i (keep w n)) as [k0|] eqn:K0; [|discriminate]. intros H.
  destruct (fits_child w n t i k0 T F K0) as (k & C1 & C2 & C3 & C4). rewrite C1. unfold base. rewrite C2, (proj2 (child_in _ _ _ C1)), K0.
  exact (IH k0 k m (tidyf_child t _ _ T C1) C4 H).
Qed.
Lemma at_cases : forall w n q m, at_ n q m -> fixed w n q m \/ (exists p m0 k rest, fixed w n p m0 /\ In k (nsubs m0) /\ w_avail w (nty m0) (nty k) = true /\ q = p ++ nid k :: rest).
Proof.
  intros w. induction 1 as [n|n k p m Hk _ IH]; [left; constructor|]. destruct (w_avail w (nty n) (nty k)) eqn:A.
  - right. exists [], n, k, p. split; [constructor|]. auto.
  - destruct IH as [F|(p' & m0 & k' & rest & F & I1 & I2 & ->)]; [left; constructor; auto|]. right. exists (nid k :: p'), m0, k', rest.
    split; [constructor; auto|]. auto.
Qed.

Lemma child_map : forall (f : node -> node) i l, (forall k, nid (f k) = nid k) -> child i (map f l) = option_map f (child i l).
Proof. intros f i l H. induction l as [|k l IH]; cbn [map child option_map]; [reflexivity|]. rewrite H. destruct (Nat.eqb (nid k) i); [reflexivity|exact IH]. Qed.
Lemma nid_prune : forall g k, nid (prune g k) = nid k. Proof. intros g [i t c s]. reflexivity. Qed.
Lemma find_prune : forall g q n, find (prune g n) q = option_map (prune g) (find n q).
Proof.
  intros g. induction q as [|i q IH]; intros [ni t c s]; cbn [find]; [reflexivity|]. cbn [prune nsubs]. rewrite child_map by apply nid_prune.
  destruct (child i s) as [k|]; cbn [option_map]; [apply IH|reflexivity].
Qed.
Lemma nid_settle : forall l p k, nid (settle l p k) = nid k. Proof. intros l p [i t c s]. reflexivity. Qed.
Lemma nty_settle : forall l p k, nty (settle l p k) = nty k. Proof. intros l p [i t c s]. reflexivity. Qed.
Lemma ncn_settle : forall l p k, ncn (settle l p k) = match pget p l with Some c => c | None => ncn k end. Proof. intros l p [i t c s]. reflexivity. Qed.
Lemma find_settle : forall l q p n, find (settle l p n) q = option_map (settle l (p ++ q)) (find n q).
Proof.
  intros l. induction q as [|i q IH]; intros p [ni t c s]; cbn [find option_map]; [rewrite app_nil_r; reflexivity|]. cbn [settle nsubs].
  rewrite (child_map (fun k => settle l (p ++ [nid k]) k)) by (intros k; apply nid_settle).
  destruct (child i s) as [k|] eqn:K; cbn [option_map]; [|reflexivity]. rewrite IH. rewrite (child_id _ _ _ K), <- app_assoc. reflexivity.
Qed.
Lemma subs_settle : forall l p n, map nid (nsubs (settle l p n)) = map nid (nsubs n).
Proof. intros l p [i t c s]. cbn [settle nsubs]. rewrite map_map. apply map_ext. intros k. apply nid_settle. Qed.
Lemma subs_prune : forall g n, map nid (nsubs (prune g n)) = map nid (nsubs n).
Proof. intros g [i t c s]. cbn [prune nsubs]. rewrite map_map. apply map_ext. intros k. apply nid_prune. Qed.

Lemma aget_none : forall V k (l : list (nat * V)), aget k l = None -> ~ In k (map fst l).
Proof.
  intros V k l H K. apply in_map_iff in K. destruct K as ((k', v) & E0 & K). cbn [fst] in E0. subst k'.
  induction l as [|(a, b) l IH]; [destruct K|]. cbn [aget] in H. destruct (Nat.eqb a k) eqn:Ea; [discriminate|].
  destruct K as [K|K]; [injection K as -> _; rewrite Nat.eqb_refl in Ea; discriminate|exact (IH H K)].
Qed.
Lemma adv1_in : forall lv c q x, In x (adv1 lv c q) -> In x c \/ (x = q /\ lv (snd q) = true).
Proof.
  intros lv c q x. unfold adv1. destruct (aget (fst q) c); [auto|]. destruct (lv (snd q)) eqn:L; [|auto].
  rewrite in_app_iff. intros [H|[H|[]]]; [left; exact H|right; split; [congruence|reflexivity]].
Qed.
Lemma adv_in : forall lv l c x, In x (adv lv c l) -> In x c \/ (In x l /\ lv (snd x) = true).
Proof.
  intros lv. induction l as [|q l IH]; intros c x; [auto|]. change (adv lv c (q :: l)) with (adv lv (adv1 lv c q) l).
  intros H. destruct (IH _ _ H) as [K|(K1 & K2)]; [|right; split; [right; exact K1|exact K2]].
  destruct (adv1_in _ _ _ _ K) as [K'|(-> & K')]; [left; exact K'|right; split; [left; reflexivity|exact K']].
Qed.
Lemma adv_nodup : forall lv l c, NoDup (map fst c) -> NoDup (map fst (adv lv c l)).
Proof.
  intros lv. induction l as [|q l IH]; intros c H; [exact H|]. change (adv lv c (q :: l)) with (adv lv (adv1 lv c q) l). apply IH.
  unfold adv1. destruct (aget (fst q) c) eqn:K; [exact H|]. destruct (lv (snd q)); [|exact H].
  apply aget_none in K. rewrite map_app. cbn [map]. clear -H K. induction (map fst c) as [|a m IH]; [constructor; [intros []|constructor]|].
  inversion H as [|? ? N D']; subst. cbn [app]. constructor; [|apply IH; [exact D'|intros X; apply K; right; exact X]].
  rewrite in_app_iff. intros [X|[X|[]]]; [exact (N X)|]. apply K. left. congruence.
Qed.
(** all of [ref]'s connections that are asked for are made *)
Lemma adv_full : forall lv c l port s (ref : conns), NoDup (map fst ref) -> (forall x, In x c -> In x ref) -> (forall x, In x l -> In x ref) ->
  In (port, s) l -> lv s = true -> In (port, s) (adv lv c l).
Proof.
  intros lv c l port s ref D Hc Hl Hin L. apply in_split in Hin. destruct Hin as (l1 & l2 & ->).
  destruct (adv_has lv c l1 port s l2 L) as (s' & K). pose proof (aget_in _ _ _ _ K) as K'.
  assert (R : In (port, s') ref) by (destruct (adv_in _ _ _ _ K') as [X|(X & _)]; [exact (Hc _ X)|exact (Hl _ X)]).
  assert (R2 : In (port, s) ref) by (apply Hl; apply in_or_app; right; left; reflexivity).
  pose proof (aget_nodup _ _ _ _ D R) as Z1. pose proof (aget_nodup _ _ _ _ D R2) as Z2. assert (s' = s) as -> by congruence. exact K'.
Qed.
Lemma flat_split : forall (c : conns) P C1 port s C2,
  flat_map (fun q => match aget q c with Some s => [(q, s)] | None => [] end) P = C1 ++ (port, s) :: C2 ->
  exists before after, P = before ++ port :: after /\ C1 = flat_map (fun q => match aget q c with Some s => [(q, s)] | None => [] end) before.
Proof.
  intros c. induction P as [|q P IH]; intros C1 port s C2; cbn [flat_map]; [destruct C1; discriminate|].
  destruct (aget q c) as [r|] eqn:K.
  - destruct C1 as [|d C1]; cbn [app]; intros H.
    + injection H as -> -> _. exists [], P. auto.
    + injection H as <- H. destruct (IH _ _ _ _ H) as (b & a & -> & ->). exists (q :: b), a. split; [reflexivity|]. cbn [flat_map]. rewrite K. reflexivity.
  - intros H. destruct (IH _ _ _ _ H) as (b & a & -> & ->). exists (q :: b), a. split; [reflexivity|]. cbn [flat_map]. rewrite K. reflexivity.
Qed.
Lemma ported_in : forall w m port s, In (port, s) (ported w m) <-> In port (w_ports w (nty m) (ncn m)) /\ aget port (ncn m) = Some s.
Proof.
  intros w m port s. unfold ported. rewrite in_flat_map. split.
  - intros (q & H1 & H2). destruct (aget q (ncn m)) as [r|] eqn:K; [|destruct H2]. destruct H2 as [H2|[]]. injection H2 as -> ->. auto.
  - intros (H1 & H2). exists port. rewrite H2. split; [exact H1|left; reflexivity].
Qed.
Lemma ported_nodup : forall w m, NoDup (w_ports w (nty m) (ncn m)) -> NoDup (map fst (ported w m)).
Proof.
  intros w m. unfold ported. induction (w_ports w (nty m) (ncn m)) as [|q P IH]; cbn [flat_map map]; [auto|]. intros D. inversion D as [|? ? N D']; subst.
  destruct (aget q (ncn m)) as [r|]; [|exact (IH D')]. cbn [app map fst]. constructor; [|exact (IH D')]. intros K. apply N.
  apply in_map_iff in K. destruct K as ((q', r') & E0 & K). cbn [fst] in E0. subst q'. apply in_flat_map in K. destruct K as (q2 & K1 & K2).
  destruct (aget q2 (ncn m)); [|destruct K2]. destruct K2 as [K2|[]]. injection K2 as -> _. exact K1.
Qed.
Lemma nodup_filter_fst : forall (f : nat * sig -> bool) l, NoDup (map fst l) -> NoDup (map fst (filter f l)).
Proof.
  intros f. induction l as [|k l IH]; cbn [map filter]; [auto|]. intros D. inversion D as [|? ? N D']; subst. destruct (f k); [|exact (IH D')].
  cbn [map]. constructor; [|exact (IH D')]. intros K. apply N. apply in_map_iff in K. destruct K as (k' & E0 & K). apply filter_In in K.
  apply in_map_iff. exists k'. tauto.
Qed.
Lemma prefix_yes : forall (r q : path), prefix_of r (r ++ q) = true.
Proof. intros r q. unfold prefix_of. rewrite firstn_app, Nat.sub_diag, firstn_all. cbn [firstn]. rewrite app_nil_r. apply path_eqb_refl. Qed.

Section Load.
Variables (w : world) (t X : node).
Hypothesis Tt : tidy t.
Hypothesis TX : tidy X.
Hypothesis So : sound w t.
Hypothesis Ac : acyclic t.
Hypothesis Fi : fits w X t.
Hypothesis Fr : ports_free w X t.
Let lv (s : sig) : bool := match keptf w X t (fst s) with Some _ => true | None => false end.
Hypothesis G1 : forall q m C1 port s C2 c, keptf w X t q = Some m -> ported w m = C1 ++ (port, s) :: C2 ->
  NoDup (map fst c) -> (forall y, In y c -> In y (ncn m)) -> (forall y, In y C1 -> lv (snd y) = true -> In y c) ->
  In port (w_ports w (nty m) c) /\ (~ In port (map fst c) -> lv s = true -> w_takes w (nty m) c port s = true).
Hypothesis G2 : forall q m port s ms c, keptf w X t q = Some m -> In (port, s) (ncn m) -> keptf w X t (fst s) = Some ms ->
  NoDup (map fst c) -> (forall y, In y c -> In y (ncn ms)) -> (forall y, In y (ncn ms) -> lv (snd y) = true -> In y c) ->
  In (snd s) (w_sigs w (nty ms) c).
Hypothesis G3 : forall q m m0 y, keptf w X t q = Some m -> fixedf w X q = Some m0 -> In y (ncn m0) -> replaced w X (snd y) \/ lv (snd y) = true.

Lemma fitsf_of : fitsf w X t.
Proof.
  intros q m H. destruct (Fi q m (fixedf_fixed _ _ _ _ H)) as (m' & F1 & F2). exists m'. split; [|exact F2].
  exact (fixed_fixedf _ _ _ _ F1 (tidy_tidyf t Tt)).
Qed.
Lemma keptf_at : forall q m, keptf w X t q = Some m -> at_ t q m.
Proof. intros q m H. exact (kept_at _ _ _ _ _ (keptf_kept _ _ _ _ _ H)). Qed.

Theorem loads : exists n0 r, (forall fuel, n0 <= fuel -> load w fuel X (save w t) = Loaded r) /\ reduced w X t r.
Proof.
  pose proof (tidy_tidyf t Tt) as Tt'. pose proof (tidy_tidyf X TX) as TX'.
  destruct (upd_ok w t [] X (Ctx [] []) Tt' TX' fitsf_of) as (n' & x & g & U & O & _).
  { intros q m k K1 K2 K3. cbn [app]. exact (creatable w t So q m k (find_at _ _ _ K1) K2 K3). }
  { intros q m K. exact (proj2 (ports_once w t So q m (find_at _ _ _ K))). }
  { intros q. reflexivity. }
  destruct O as [O1 O2 O3 O4 O5 O6 O7]. cbn [app] in O4, O5, O6.
  set (T := prune g n').
  set (c0 := fun q => filter (fun y => negb (was_removed g (snd y))) (match fixedf w X q with Some m0 => ncn m0 | None => [] end)).
  set (goal := fun q => match keptf w X t q with Some m => adv lv (c0 q) (ported w m) | None => [] end).
  assert (FT : forall q n, find T q = Some n -> exists m, keptf w X t q = Some m /\ nty n = nty m /\ ncn n = c0 q).
  { intros q n H. unfold T in H. rewrite find_prune in H. destruct (find n' q) as [m'|] eqn:K; [|discriminate]. cbn [option_map] in H. injection H as <-.
    specialize (O2 q). rewrite K in O2. destruct (keptf w X t q) as [m|]; [|destruct O2]. exists m. split; [reflexivity|].
    pose proof (O3 q m' K) as Z. unfold c0. destruct m' as [i ty c s]. cbn [prune nty ncn] in *. split; [exact O2|]. rewrite Z. reflexivity. }
  assert (TF : forall q m, keptf w X t q = Some m -> exists n, find T q = Some n /\ nty n = nty m).
  { intros q m H. specialize (O2 q). rewrite H in O2. unfold T. rewrite find_prune. destruct (find n' q) as [m'|]; [|destruct O2].
    exists (prune g m'). split; [reflexivity|]. destruct m'. exact O2. }
  (* facts about the connections *)
  assert (Nm : forall q m, keptf w X t q = Some m -> NoDup (map fst (ncn m)) /\ NoDup (w_ports w (nty m) (ncn m))).
  { intros q m H. exact (ports_once w t So q m (keptf_at q m H)). }
  assert (Pin : forall q m port s, keptf w X t q = Some m -> (In (port, s) (ported w m) <-> In (port, s) (ncn m))).
  { intros q m port s H. rewrite ported_in. split; [intros (_ & K); exact (aget_in _ _ _ _ K)|]. intros K. split; [|exact (aget_nodup _ _ _ _ (proj1 (Nm q m H)) K)].
    exact (ports_there w t So q m port s (keptf_at q m H) K). }
  assert (Gone : forall s, replaced w X s -> was_removed g s = true).
  { intros s (p & m & k & rest & K1 & K2 & K3 & K4). unfold was_removed. apply existsb_exists. exists (p ++ [nid k]). split.
    - exact (O6 p m k (fixed_fixedf _ _ _ _ K1 TX') K2 K3).
    - rewrite K4. replace (p ++ nid k :: rest) with ((p ++ [nid k]) ++ rest) by (rewrite <- app_assoc; reflexivity). apply prefix_yes. }
  assert (C0 : forall q m, keptf w X t q = Some m -> NoDup (map fst (c0 q)) /\ (forall y, In y (c0 q) -> In y (ncn m) /\ lv (snd y) = true)).
  { intros q m H. unfold c0. destruct (fixedf w X q) as [m0|] eqn:K; [|split; [constructor|intros y []]].
    destruct (Fr q m0 m (fixedf_fixed _ _ _ _ K) (keptf_at q m H)) as (D & Sub). split; [apply nodup_filter_fst; exact D|].
    intros (port, s) Hy. apply filter_In in Hy. destruct Hy as (Hy & Nr). cbn [snd] in *.
    assert (~ replaced w X s) by (intros R; rewrite (Gone s R) in Nr; discriminate).
    split; [destruct (Sub port s Hy); [assumption|contradiction]|]. destruct (G3 q m m0 (port, s) H K Hy); [contradiction|assumption]. }
  assert (Adv : forall q m l, keptf w X t q = Some m -> (forall y, In y l -> In y (ported w m)) ->
     NoDup (map fst (adv lv (c0 q) l)) /\ (forall y, In y (adv lv (c0 q) l) -> In y (ncn m) /\ lv (snd y) = true)
     /\ (forall y, In y l -> lv (snd y) = true -> In y (adv lv (c0 q) l))).
  { intros q m l H Hl. destruct (C0 q m H) as (D & Sub).
    assert (Hl' : forall y, In y l -> In y (ncn m)) by (intros (port, s) Hy; apply (Pin q m port s H); exact (Hl _ Hy)).
    split; [exact (adv_nodup _ _ _ D)|]. split.
    - intros y Hy. destruct (adv_in _ _ _ _ Hy) as [K|(K1 & K2)]; [exact (Sub y K)|]. split; [exact (Hl' y K1)|exact K2].
    - intros (port, s) Hy L. apply (adv_full lv _ _ port s (ncn m) (proj1 (Nm q m H))); auto. intros y Hy'. exact (proj1 (Sub y Hy')). }
  assert (Go : forall q m, keptf w X t q = Some m -> goal q = adv lv (c0 q) (ported w m)) by (intros q m H; unfold goal; rewrite H; reflexivity).
  assert (Entk : forall q C, pget q (x_conns x) = Some C -> exists m, keptf w X t q = Some m /\ C = ported w m).
  { intros q C H. rewrite (O4 q) in H. destruct (keptf w X t q) as [m|]; [|discriminate]. exists m. split; [reflexivity|].
    unfold nonempty in H. destruct (ported w m); [discriminate|congruence]. }
  destruct Ac as (rank & Hr).
  destruct (core w T x lv goal rank) as (st & f0 & F & D).
  - intros p n E0 Hn. destruct (FT p n Hn) as (m & K & _ & Ec). rewrite (Go p m K), Ec. unfold ent in E0. rewrite (O4 p), K in E0.
    unfold nonempty in E0. destruct (ported w m); [reflexivity|discriminate].
  - intros p n C E0 Hn. destruct (FT p n Hn) as (m & K & _ & Ec). destruct (Entk p C E0) as (m2 & K2 & ->). rewrite (Go p m2 K2), Ec. reflexivity.
  - intros p C E0. destruct (Entk p C E0) as (m2 & K2 & ->). exact (ported_nodup w m2 (proj2 (Nm p m2 K2))).
  - intros p n C C1 port s C2 E0 Hn EC. destruct (FT p n Hn) as (m & K & Ety & Ec). destruct (Entk p C E0) as (m2 & K2 & Ep). assert (m2 = m) as -> by congruence.
    rewrite Ety, Ec, (Go p m K). rewrite Ep in EC.
    assert (HC1 : forall y, In y C1 -> In y (ported w m)) by (intros y Hy; rewrite EC; apply in_or_app; left; exact Hy).
    split; [|split].
    + intros D1 D2 ED. destruct (Adv p m (C1 ++ D1) K) as (B1 & B2 & B3).
      { intros y Hy. rewrite EC. apply in_app_iff in Hy. apply in_or_app. destruct Hy as [Hy|Hy]; [left; exact Hy|right; rewrite ED; apply in_or_app; left; exact Hy]. }
      apply (G1 p m C1 port s C2 _ K EC B1); [intros y Hy; exact (proj1 (B2 y Hy))|]. intros y Hy L. apply B3; [apply in_or_app; left; exact Hy|exact L].
    + intros An L. destruct (Adv p m C1 K HC1) as (B1 & B2 & B3). apply (G1 p m C1 port s C2 _ K EC B1); [intros y Hy; exact (proj1 (B2 y Hy))|exact B3|exact (aget_none _ _ _ An)|exact L].
    + intros s' Hs. destruct (Adv p m (ported w m) K (fun y H => H)) as (B1 & B2 & B3). destruct (B2 _ (aget_in _ _ _ _ Hs)) as (R1 & R2). cbn [snd] in R2.
      assert (R3 : In (port, s) (ncn m)) by (apply (Pin p m port s K); rewrite EC; apply in_or_app; right; left; reflexivity).
      pose proof (aget_nodup _ _ _ _ (proj1 (Nm p m K)) R1). pose proof (aget_nodup _ _ _ _ (proj1 (Nm p m K)) R3). assert (s' = s) as -> by congruence. auto.
  - intros p C port s E0 Hin L. destruct (Entk p C E0) as (m & K & ->). apply (Pin p m port s K) in Hin. unfold lv in L.
    destruct (keptf w X t (fst s)) as [ms|] eqn:Ks; [|discriminate]. destruct (TF _ _ Ks) as (n & Hn & Ety). split.
    + exists n. split; [exact Hn|]. rewrite Ety, (Go _ _ Ks). destruct (Adv (fst s) ms (ported w ms) Ks (fun y H => H)) as (B1 & B2 & B3).
      apply (G2 p m port s ms _ K Hin Ks B1); [intros y Hy; exact (proj1 (B2 y Hy))|]. intros (po, si) Hy. apply B3. apply (Pin _ _ po si Ks). exact Hy.
    + intros _. rewrite (surjective_pairing s). apply (O5 (fst s) ms (snd s) Ks).
      apply (G2 p m port s ms _ K Hin Ks (proj1 (Nm _ _ Ks))); auto.
  - intros p C port s n E0 Hin L Hn. exfalso. destruct (FT _ _ Hn) as (ms & Ks & _). unfold lv in L. rewrite Ks in L. discriminate.
  - intros p C port s E0 Hin _. destruct (Entk p C E0) as (m & K & ->). apply (Pin p m port s K) in Hin. exact (Hr p m port s (keptf_at p m K) Hin).
  - set (r := settle (l_conns st) [] T).
    assert (Tr : tidyf r).
    { intros q m H. unfold r in H. rewrite find_settle in H. destruct (find T q) as [n|] eqn:K; [|discriminate]. cbn [option_map] in H. injection H as <-.
      rewrite subs_settle. unfold T in K. rewrite find_prune in K. destruct (find n' q) as [n2|] eqn:K2; [|discriminate]. cbn [option_map] in K. injection K as <-.
      rewrite subs_prune. exact (O7 q n2 K2). }
    exists f0, r. split.
    + intros fuel Hf. unfold load. rewrite U. fold T. rewrite (F fuel Hf). reflexivity.
    + split.
      * intros p m Hk. pose proof (kept_keptf _ _ _ _ _ Hk TX' Tt') as K. destruct (TF p m K) as (n & Hn & Ety).
        exists (settle (l_conns st) p n). assert (Ec : ncn (settle (l_conns st) p n) = goal p).
        { rewrite ncn_settle. pose proof (D p n Hn) as Z. unfold conns_of in Z. rewrite Hn in Z. exact Z. }
        split; [apply find_at; unfold r; rewrite find_settle, Hn; reflexivity|]. split; [rewrite nty_settle; exact Ety|]. rewrite Ec, (Go p m K).
        destruct (Adv p m (ported w m) K (fun y H => H)) as (B1 & B2 & B3). split; [exact B1|]. intros port s. split.
        -- intros Hy. destruct (B2 _ Hy) as (R1 & R2). split; [exact R1|]. cbn [snd] in R2. unfold lv in R2.
           destruct (keptf w X t (fst s)) as [ms|] eqn:Ks; [|discriminate]. exists ms. exact (keptf_kept _ _ _ _ _ Ks).
        -- intros (Hy & ms & Ks). apply B3; [apply (Pin p m port s K); exact Hy|]. cbn [snd]. unfold lv. rewrite (kept_keptf _ _ _ _ _ Ks TX' Tt'). reflexivity.
      * intros p m' H. apply at_find in H; [|exact Tr]. unfold r in H. rewrite find_settle in H. destruct (find T p) as [n|] eqn:K; [|discriminate].
        destruct (FT p n K) as (m & Km & _). exists m. exact (keptf_kept _ _ _ _ _ Km).
Qed.
End Load.

Lemma reduced_same : forall w X t r, sound w t -> provided w X t -> reduced w X t r -> same r t.
Proof.
  intros w X t r So Pr (R1 & R2). split.
  - intros p m H. destruct (R1 p m (Pr p m H)) as (m' & K1 & K2 & K3 & K4). exists m'. split; [exact K1|]. split; [exact K2|]. split; [exact K3|].
    intros (port, s). rewrite (K4 port s). split; [tauto|]. intros Hy. split; [exact Hy|]. destruct s as (q, n).
    destruct (signals_there w t So p m port q n H Hy) as (m2 & K & _). exists m2. cbn [fst]. exact (Pr q m2 K).
  - intros p m' H. destruct (R2 p m' H) as (m & K). exists m. exact (kept_at _ _ _ _ _ K).
Qed.

Theorem roundtrip : forall w t X, tidy t -> tidy X -> sound w t -> regrows w t -> acyclic t -> fits w X t -> provided w X t -> ports_free w X t ->
  exists n0 r, (forall fuel, n0 <= fuel -> load w fuel X (save w t) = Loaded r) /\ same r t.
Proof.
  intros w t X Tt TX So Re Ac Fi Pr Fr. pose proof (tidy_tidyf t Tt) as Tt'. pose proof (tidy_tidyf X TX) as TX'.
  assert (Kp : forall q m, at_ t q m -> keptf w X t q = Some m) by (intros q m H; exact (kept_keptf _ _ _ _ _ (Pr q m H) TX' Tt')).
  assert (Ka : forall q m, keptf w X t q = Some m -> at_ t q m) by (intros q m H; exact (kept_at _ _ _ _ _ (keptf_kept _ _ _ _ _ H))).
  assert (Lv : forall q m y, at_ t q m -> In y (ncn m) -> match keptf w X t (fst (snd y)) with Some _ => true | None => false end = true).
  { intros q m (port, (q', n)) H Hy. destruct (signals_there w t So q m port q' n H Hy) as (m' & K & _). cbn [snd fst]. rewrite (Kp _ _ K). reflexivity. }
  destruct (loads w t X Tt TX So Ac Fi Fr) as (n0 & r & L & R).
  - intros q m C1 port s C2 c K EC Dc Sub Have. pose proof (Ka q m K) as Ha.
    assert (Hin : In (port, s) (ported w m)) by (rewrite EC; apply in_or_app; right; left; reflexivity). apply ported_in in Hin. destruct Hin as (_ & Hin).
    apply aget_in in Hin. destruct (flat_split _ _ _ _ _ _ EC) as (before & after & Ep & E1).
    destruct (Re q m before port after s c Ha Ep Hin Dc Sub) as (R1 & R2).
    { intros p r Hp Hr. assert (In (p, r) C1).
      { rewrite E1. apply in_flat_map. exists p. split; [exact Hp|]. rewrite (aget_nodup _ _ _ _ (proj1 (ports_once w t So q m Ha)) Hr). left. reflexivity. }
      apply Have; [assumption|exact (Lv q m (p, r) Ha Hr)]. }
    split; [exact R1|]. intros N _. exact (R2 N).
  - intros q m port s ms c K Hin Ks Dc Sub Have. destruct s as (q', n). destruct (signals_there w t So q m port q' n (Ka q m K) Hin) as (m' & K' & Sg).
    cbn [fst snd] in *. rewrite (Kp _ _ K') in Ks. injection Ks as <-. apply Sg. split; [exact Dc|]. intros y. split; [apply Sub|].
    intros Hy. apply Have; [exact Hy|]. exact (Lv q' m' y K' Hy).
  - intros q m m0 y K F Hy. destruct y as (port, s). destruct (Fr q m0 m (fixedf_fixed _ _ _ _ F) (Ka q m K)) as (_ & Sub).
    destruct (Sub port s Hy) as [A|A]; [right|left; exact A]. exact (Lv q m (port, s) (Ka q m K) A).
  - exists n0, r. split; [exact L|]. exact (reduced_same w X t r So Pr R).
Qed.

Theorem missing : forall w t X, tidy t -> tidy X -> sound w t -> plain w -> acyclic t -> rooted X -> fits w X t -> ports_free w X t ->
  exists n0 r, (forall fuel, n0 <= fuel -> load w fuel X (save w t) = Loaded r) /\ reduced w X t r.
Proof.
  intros w t X Tt TX So (P1 & P2 & P3) Ac Ro Fi Fr. pose proof (tidy_tidyf t Tt) as Tt'. pose proof (tidy_tidyf X TX) as TX'.
  assert (Ka : forall q m, keptf w X t q = Some m -> at_ t q m) by (intros q m H; exact (kept_at _ _ _ _ _ (keptf_kept _ _ _ _ _ H))).
  apply (loads w t X Tt TX So Ac Fi Fr).
  - intros q m C1 port s C2 c K EC Dc Sub Have. split; [|intros _ _; apply P3].
    assert (Hin : In (port, s) (ported w m)) by (rewrite EC; apply in_or_app; right; left; reflexivity). apply ported_in in Hin. destruct Hin as (Hin & _).
    rewrite P1 in Hin |- *. exact Hin.
  - intros q m port s ms c K Hin Ks Dc Sub Have. destruct s as (q', n). destruct (signals_there w t So q m port q' n (Ka q m K) Hin) as (m' & K' & Sg).
    cbn [fst snd] in *. pose proof (at_find _ _ _ (Ka _ _ Ks) Tt') as Z1. pose proof (at_find _ _ _ K' Tt') as Z2. assert (m' = ms) as -> by congruence.
    rewrite P2. rewrite <- (P2 _ (ncn ms)). apply Sg. split; [exact (proj1 (ports_once w t So _ _ K'))|tauto].
  - intros q m m0 y K F Hy. destruct y as (port, s). cbn [snd]. destruct (Ro q m0 port s) as (m' & A); [|exact Hy|].
    { exact (fixed_at _ _ _ _ (fixedf_fixed _ _ _ _ F)). }
    destruct (at_cases w X (fst s) m' A) as [B|(p & m1 & k & rest & B1 & B2 & B3 & B4)].
    + right. destruct (keptf w X t (fst s)) eqn:Z; [reflexivity|]. exfalso.
      apply (fixed_keptf w (fst s) X t m' Tt' (fitsf_of w t X Tt Fi) (fixed_fixedf _ _ _ _ B TX')). exact Z.
    + left. exists p, m1, k, rest. auto.
Qed.
