(** The second half of loading: all connections are made, in whichever order. *)
From Coq Require Import List Bool Arith Lia.
From Verif Require Import Conf_Model.
Import ListNotations.

Lemma path_eqb_eq : forall p q, path_eqb p q = true <-> p = q.
Proof. intros p q. unfold path_eqb. destruct (list_eq_dec Nat.eq_dec p q); split; congruence. Qed.
Lemma path_eqb_refl : forall p, path_eqb p p = true. Proof. intros p. apply path_eqb_eq. reflexivity. Qed.
Lemma sig_eqb_eq : forall s r, sig_eqb s r = true <-> s = r.
Proof.
  intros [p n] [q m]. unfold sig_eqb. cbn [fst snd]. rewrite andb_true_iff, path_eqb_eq, Nat.eqb_eq. split; [intros (-> & ->); reflexivity|intros E; injection E; auto].
Qed.
Lemma pget_pset : forall V p q (v : V) l, pget q (pset p v l) = if path_eqb p q then Some v else pget q l.
Proof.
  intros V p q v. induction l as [|[p' v'] l IH]; cbn [pset pget].
  - reflexivity.
  - destruct (path_eqb p' p) eqn:E; cbn [pget].
    + apply path_eqb_eq in E. subst p'. destruct (path_eqb p q); reflexivity.
    + destruct (path_eqb p' q) eqn:E2; [|exact IH]. apply path_eqb_eq in E2. subst p'.
      destruct (path_eqb p q) eqn:E3; [|reflexivity]. apply path_eqb_eq in E3. subst q. rewrite path_eqb_refl in E. discriminate.
Qed.
Lemma pget_pdel : forall V p q (l : list (path * V)), pget q (pdel p l) = if path_eqb p q then None else pget q l.
Proof.
  intros V p q. induction l as [|[p' v'] l IH]; cbn [pdel filter pget fst].
  - destruct (path_eqb p q); reflexivity.
  - destruct (path_eqb p' p) eqn:E; cbn [negb].
    + unfold pdel in IH. rewrite IH. apply path_eqb_eq in E. subst p'. destruct (path_eqb p q); reflexivity.
    + cbn [pget]. destruct (path_eqb p' q) eqn:E2; [|exact IH]. apply path_eqb_eq in E2. subst p'.
      destruct (path_eqb p q) eqn:E3; [|reflexivity]. apply path_eqb_eq in E3. subst q. rewrite path_eqb_refl in E. discriminate.
Qed.
Lemma pdel_le : forall V p (l : list (path * V)), length (pdel p l) <= length l.
Proof. intros V p. unfold pdel. induction l as [|x l IH]; cbn [filter length]; [lia|]. destruct (negb _); cbn [length]; lia. Qed.
Lemma pdel_lt : forall V p (l : list (path * V)), pget p l <> None -> length (pdel p l) < length l.
Proof.
  intros V p. induction l as [|[p' v'] l IH]; cbn [pget pdel filter fst length]; [congruence|].
  destruct (path_eqb p' p) eqn:E; cbn [negb].
  - intros _. pose proof (pdel_le V p l) as K. unfold pdel in K. lia.
  - intros H. cbn [length]. specialize (IH H). unfold pdel in IH. lia.
Qed.
Lemma aget_aset : forall V k q (v : V) l, aget q (aset k v l) = if Nat.eqb k q then Some v else aget q l.
Proof.
  intros V k q v. induction l as [|[k' v'] l IH]; cbn [aset aget]; [reflexivity|].
  destruct (Nat.eqb k' k) eqn:E; cbn [aget].
  - apply Nat.eqb_eq in E. subst k'. destruct (Nat.eqb k q); reflexivity.
  - destruct (Nat.eqb k' q) eqn:E2; [|exact IH]. apply Nat.eqb_eq in E2. subst k'. apply Nat.eqb_neq in E.
    destruct (Nat.eqb k q) eqn:E3; [apply Nat.eqb_eq in E3; congruence|reflexivity].
Qed.
Lemma aset_new : forall V k (v : V) l, aget k l = None -> aset k v l = l ++ [(k, v)].
Proof.
  intros V k v. induction l as [|[k' v'] l IH]; cbn [aget aset app]; [reflexivity|].
  destruct (Nat.eqb k' k); [discriminate|]. intros H. rewrite (IH H). reflexivity.
Qed.
Lemma aset_same : forall V k (v : V) l, aget k l = Some v -> aset k v l = l.
Proof.
  intros V k v. induction l as [|[k' v'] l IH]; cbn [aget aset]; [discriminate|].
  destruct (Nat.eqb k' k) eqn:E; [|intros H; rewrite (IH H); reflexivity]. intros H. injection H as ->. apply Nat.eqb_eq in E. subst. reflexivity.
Qed.
Lemma existsb_nat : forall n l, existsb (Nat.eqb n) l = true <-> In n l.
Proof.
  intros n l. rewrite existsb_exists. split; [intros (x & I & E); apply Nat.eqb_eq in E; subst; exact I|].
  intros I. exists n. split; [exact I|apply Nat.eqb_refl].
Qed.
Lemma existsb_sig : forall s l, existsb (sig_eqb s) l = true <-> In s l.
Proof.
  intros s l. rewrite existsb_exists. split; [intros (x & I & E); apply sig_eqb_eq in E; subst; exact I|].
  intros I. exists s. split; [exact I|apply sig_eqb_eq; reflexivity].
Qed.

Lemma find_app : forall n p q, find n (p ++ q) = match find n p with Some m => find m q | None => None end.
Proof.
  intros n p. revert n. induction p as [|i p IH]; intros n q; cbn [find app]; [reflexivity|].
  destruct (child i (nsubs n)); [apply IH|reflexivity].
Qed.

Section NodeInd.
Variable P : node -> Prop.
Hypothesis H : forall i t c subs, Forall P subs -> P (Node i t c subs).
Fixpoint node_rec' (n : node) : P n :=
  match n with
  | Node i t c subs => H i t c subs ((fix go l : Forall P l :=
      match l with [] => Forall_nil P | k :: r => Forall_cons k (node_rec' k) (go r) end) subs)
  end.
End NodeInd.

Section Core.
Variables (w : world) (t : node) (x : ctx).
Variable lv : sig -> bool.
Variable goal : path -> conns.
Variable rank : path -> nat.

Definition ent (p : path) : option conns := pget p (x_conns x).
(** the ports of [p] after the connections [l] were dealt with *)
Definition adv1 (c : conns) (q : nat * sig) : conns :=
  match aget (fst q) c with Some _ => c | None => if lv (snd q) then c ++ [q] else c end.
Definition adv (c : conns) (l : conns) : conns := fold_left adv1 l c.

Hypothesis Hent : forall p, ent p <> None -> exists n, find t p = Some n.
Hypothesis Hnone : forall p n, ent p = None -> find t p = Some n -> goal p = ncn n.
Hypothesis Hgoal : forall p n C, ent p = Some C -> find t p = Some n -> goal p = adv (ncn n) C.
Hypothesis Hkeys : forall p C, ent p = Some C -> NoDup (map fst C).
Hypothesis Hport : forall p n C C1 port s C2, ent p = Some C -> find t p = Some n -> C = C1 ++ (port, s) :: C2 ->
  (forall D1 D2, (port, s) :: C2 = D1 ++ D2 -> In port (w_ports w (nty n) (adv (ncn n) (C1 ++ D1))))
  /\ (aget port (adv (ncn n) C1) = None -> lv s = true -> w_takes w (nty n) (adv (ncn n) C1) port s = true)
  /\ (forall s', aget port (goal p) = Some s' -> lv s = true /\ s' = s).
Hypothesis Hlive : forall p C port s, ent p = Some C -> In (port, s) C -> lv s = true ->
  (exists n, find t (fst s) = Some n /\ In (snd s) (w_sigs w (nty n) (goal (fst s)))) /\ (ent (fst s) <> None -> In s (x_deps x)).
Hypothesis Hdead : forall p C port s n, ent p = Some C -> In (port, s) C -> lv s = false -> find t (fst s) = Some n ->
  ~ In (snd s) (w_sigs w (nty n) (goal (fst s)))
  /\ forall C' C1 C2, ent (fst s) = Some C' -> C' = C1 ++ C2 -> ~ In (snd s) (w_sigs w (nty n) (adv (ncn n) C1)).
Hypothesis Hrank : forall p C port s, ent p = Some C -> In (port, s) C -> ent (fst s) <> None -> rank (fst s) < rank p.

Definition E (st : live) := x_conns (l_ctx st).
Definition done (st : live) (p : path) : Prop := pget p (E st) = None.
(** [p] has dealt with [C1] of its connections *)
Definition stage (st : live) (p : path) (n : node) (C1 : conns) : Prop :=
  exists C C2, ent p = Some C /\ C = C1 ++ C2 /\ pget p (E st) = Some C /\ conns_of t st p = adv (ncn n) C1.
Record Inv (st : live) : Prop := {
  I_node : forall p n, find t p = Some n -> (done st p /\ conns_of t st p = goal p) \/ (exists C1, stage st p n C1);
  I_ent : forall p, pget p (E st) <> None -> ent p <> None;
  I_dep : forall s, In s (x_deps x) -> In s (x_deps (l_ctx st)) \/ done st (fst s) }.
Definition fewer (e e' : list (path * conns)) : Prop := exists g, e' = filter g e.
Definition moves_but (P : path -> Prop) (st st' : live) : Prop :=
  fewer (E st) (E st')
  /\ forall p, ~ P p -> (pget p (E st') = pget p (E st) /\ conns_of t st' p = conns_of t st p) \/ done st' p.
Definition moves := moves_but (fun _ => False).
Lemma fewer_refl : forall e, fewer e e.
Proof. intros e. exists (fun _ => true). induction e as [|y e IH]; cbn [filter]; [reflexivity|]. rewrite <- IH. reflexivity. Qed.
Lemma fewer_trans : forall a b c, fewer a b -> fewer b c -> fewer a c.
Proof.
  intros a b c (g & ->) (h & ->). exists (fun y => g y && h y). induction a as [|y a IH]; cbn [filter]; [reflexivity|].
  destruct (g y); cbn [andb filter]; [destruct (h y); congruence|exact IH].
Qed.
Lemma fewer_le : forall a b, fewer a b -> length b <= length a.
Proof. intros a b (g & ->). induction a as [|y a IH]; cbn [filter length]; [lia|]. destruct (g y); cbn [length]; lia. Qed.
Lemma fewer_lt : forall a b p, fewer a b -> pget p a <> None -> pget p b = None -> length b < length a.
Proof.
  intros a b p (g & ->). induction a as [|[p' v] a IH]; cbn [pget filter]; [congruence|].
  destruct (path_eqb p' p) eqn:E1.
  - intros _. destruct (g (p', v)); cbn [pget]; [rewrite E1; discriminate|]. intros _. cbn [length].
    pose proof (fewer_le a (filter g a) ltac:(exists g; reflexivity)). lia.
  - intros H1. destruct (g (p', v)); cbn [pget length]; [rewrite E1|]; intros H2; specialize (IH H1 H2); lia.
Qed.
Lemma fewer_none : forall a b p, fewer a b -> pget p a = None -> pget p b = None.
Proof.
  intros a b p (g & ->). induction a as [|[p' v] a IH]; cbn [pget filter]; [reflexivity|].
  destruct (path_eqb p' p) eqn:E1; [discriminate|]. intros H1. destruct (g (p', v)); cbn [pget]; [rewrite E1|]; exact (IH H1).
Qed.
Lemma moves_refl : forall P st, moves_but P st st.
Proof. intros P st. split; [apply fewer_refl|]. intros p _. left. auto. Qed.
Lemma moves_trans : forall P a b c, moves_but P a b -> moves_but P b c -> moves_but P a c.
Proof.
  intros P a b c (L1 & M1) (L2 & M2). split; [exact (fewer_trans _ _ _ L1 L2)|]. intros p Np. destruct (M2 p Np) as [(A & B)|D]; [|right; exact D].
  destruct (M1 p Np) as [(A' & B')|D]; [left; split; congruence|]. right. unfold done in *. congruence.
Qed.
Lemma moves_weak : forall (P Q : path -> Prop) a b, (forall p, P p -> Q p) -> moves_but P a b -> moves_but Q a b.
Proof. intros P Q a b H (L & M). split; [exact L|]. intros p N. apply M. intros K. exact (N (H p K)). Qed.
Lemma moves_done : forall P a b p, moves_but P a b -> done a p -> done b p.
Proof. intros P a b p (M & _) D. exact (fewer_none _ _ _ M D). Qed.
Lemma moves_len : forall P a b, moves_but P a b -> length (E b) <= length (E a).
Proof. intros P a b (M & _). exact (fewer_le _ _ M). Qed.

(** [ended] terminates and deals with everything below [p]. *)
Definition good (st : live) (p : path) : Prop :=
  exists st' f0, (forall f, f0 <= f -> ended w t f st p = Some st') /\ Inv st' /\ moves st st'
    /\ (forall q n, find t (p ++ q) = Some n -> done st' (p ++ q)).

Lemma exists_sig_eq : forall st s n, find t (fst s) = Some n ->
  exists_sig w t st s = existsb (Nat.eqb (snd s)) (w_sigs w (nty n) (conns_of t st (fst s))).
Proof. intros st s n H. unfold exists_sig. rewrite H. reflexivity. Qed.

(** the signal is found exactly when it is to be *)
Lemma exists_live : forall p C port s st, Inv st -> ent p = Some C -> In (port, s) C -> lv s = true -> done st (fst s) -> exists_sig w t st s = true.
Proof.
  intros p C port s st HI He Hin Hl Hd. destruct (Hlive p C port s He Hin Hl) as ((n & Hn & Hs) & _).
  rewrite (exists_sig_eq st s n Hn). apply existsb_nat.
  destruct (I_node st HI (fst s) n Hn) as [(_ & ->)|(C1 & C' & C2 & _ & _ & K & _)]; [exact Hs|unfold done in Hd; congruence].
Qed.
Lemma exists_dead : forall p C port s st, Inv st -> ent p = Some C -> In (port, s) C -> lv s = false -> exists_sig w t st s = false.
Proof.
  intros p C port s st HI He Hin Hl. unfold exists_sig. destruct (find t (fst s)) as [n|] eqn:Hn; [|reflexivity].
  destruct (Hdead p C port s n He Hin Hl Hn) as (D1 & D2).
  destruct (existsb _ _) eqn:X; [|reflexivity]. exfalso. apply existsb_nat in X.
  destruct (I_node st HI (fst s) n Hn) as [(_ & Y)|(C1 & C' & C2 & Y1 & Y2 & _ & Y4)].
  - rewrite Y in X. exact (D1 X).
  - rewrite Y4 in X. exact (D2 C' C1 C2 Y1 Y2 X).
Qed.

(** One port of a component that has dealt with the ports before it, unless it was
    dealt with from within. *)
Definition mid (st : live) (p : path) (n : node) (C1 : conns) : Prop := done st p \/ exists D, stage st p n (C1 ++ D).

Lemma aget_in : forall V k (v : V) l, aget k l = Some v -> In (k, v) l.
Proof.
  intros V k v. induction l as [|[k' v'] l IH]; cbn [aget]; [discriminate|].
  destruct (Nat.eqb k' k) eqn:E0; [|intros H; right; exact (IH H)]. intros H. injection H as ->. apply Nat.eqb_eq in E0. subst. left. reflexivity.
Qed.
Lemma aget_nodup : forall V k (v : V) l, NoDup (map fst l) -> In (k, v) l -> aget k l = Some v.
Proof.
  intros V k v. induction l as [|[k' v'] l IH]; cbn [aget map fst]; [intros _ []|]. intros D [K|K].
  - injection K as -> ->. rewrite Nat.eqb_refl. reflexivity.
  - inversion D as [|? ? N D']; subst. destruct (Nat.eqb k' k) eqn:E0; [|exact (IH D' K)]. apply Nat.eqb_eq in E0. subst k'.
    exfalso. apply N. change k with (fst (k, v)). apply in_map. exact K.
Qed.
Lemma adv_app : forall c a b, adv c (a ++ b) = adv (adv c a) b.
Proof. intros c a b. unfold adv. apply fold_left_app. Qed.
Lemma adv_keeps : forall l c port s, aget port c = Some s -> aget port (adv c l) = Some s.
Proof.
  assert (A : forall c d port (s : sig), aget port c = Some s -> aget port (c ++ d) = Some s).
  { induction c as [|[k v] c IH]; cbn [aget app]; [discriminate|]. intros d port s. destruct (Nat.eqb k port); [auto|apply IH]. }
  induction l as [|q l IH]; intros c port s H; cbn [adv fold_left]; [exact H|]. apply IH. unfold adv1.
  destruct (aget (fst q) c); [exact H|]. destruct (lv (snd q)); [apply A|]; exact H.
Qed.
Lemma aget_last : forall c port (s : sig), aget port c = None -> aget port (c ++ [(port, s)]) = Some s.
Proof.
  induction c as [|[k v] c IH]; cbn [aget app]; intros port s; [rewrite Nat.eqb_refl; reflexivity|].
  destruct (Nat.eqb k port); [discriminate|apply IH].
Qed.
Lemma adv_has : forall c C1 port s C2, lv s = true -> exists s', aget port (adv c (C1 ++ (port, s) :: C2)) = Some s'.
Proof.
  intros c C1 port s C2 Hl. rewrite adv_app. cbn [adv fold_left].
  destruct (aget port (adv c C1)) as [s'|] eqn:K.
  - exists s'. apply adv_keeps. unfold adv1. cbn [fst]. rewrite K. exact K.
  - exists s. apply adv_keeps. unfold adv1. cbn [fst snd]. rewrite K, Hl. apply aget_last. exact K.
Qed.
Lemma conns_pset : forall st p c q, conns_of t (Live (pset p c (l_conns st)) (l_ctx st)) q = if path_eqb p q then c else conns_of t st q.
Proof. intros st p c q. unfold conns_of. cbn [l_conns]. rewrite pget_pset. destruct (path_eqb p q); reflexivity. Qed.

Lemma connect_ok : forall st p n C C1 port s C2, Inv st -> ent p = Some C -> find t p = Some n -> C = C1 ++ (port, s) :: C2 -> lv s = true ->
  (done st p \/ stage st p n C1) -> (stage st p n C1 -> aget port (adv (ncn n) C1) = None) ->
  let st' := connect w t st (nty n) p port s in
  Inv st' /\ moves_but (eq p) st st' /\ mid st' p n (C1 ++ [(port, s)]).
Proof.
  intros st p n C C1 port s C2 HI He Hn EC Hl HM HA st'.
  destruct (Hport p n C C1 port s C2 He Hn EC) as (P1 & P3 & P4).
  assert (Ho : forall c q, (p = q -> c = conns_of t st q) -> conns_of t (Live (pset p c (l_conns st)) (l_ctx st)) q = conns_of t st q).
  { intros c q Hq. rewrite conns_pset. destruct (path_eqb p q) eqn:K; [|reflexivity]. apply path_eqb_eq in K. exact (Hq K). }
  destruct HM as [D|St].
  - assert (G : conns_of t st p = goal p).
    { destruct (I_node st HI p n Hn) as [(_ & G)|(D1 & C' & C2' & _ & _ & K & _)]; [exact G|unfold done in D; congruence]. }
    assert (K : aget port (goal p) = Some s).
    { destruct (adv_has (ncn n) C1 port s C2 Hl) as (s' & K). rewrite <- EC, <- (Hgoal p n C He Hn) in K.
      rewrite K. f_equal. exact (proj2 (P4 s' K)). }
    assert (Same : E st' = E st /\ x_deps (l_ctx st') = x_deps (l_ctx st) /\ forall q, conns_of t st' q = conns_of t st q).
    { unfold st', connect. rewrite G. destruct (w_takes w (nty n) (goal p) port s); [|auto]. split; [reflexivity|]. split; [reflexivity|].
      intros q. apply Ho. intros <-. rewrite (aset_same _ _ _ _ K). symmetry. exact G. }
    destruct Same as (S1 & S2 & S3). split; [|split].
    + split.
      * intros q m Hm. unfold done, stage. rewrite S1, S3. exact (I_node st HI q m Hm).
      * intros q. rewrite S1. apply (I_ent st HI).
      * intros r. unfold done. rewrite S1, S2. apply (I_dep st HI).
    + split; [rewrite S1; apply fewer_refl|]. intros q _. left. rewrite S1, S3. auto.
    + left. unfold done. rewrite S1. exact D.
  - specialize (HA St). destruct St as (C' & C2' & Q1 & Q2 & Q3 & Q4). assert (C' = C) as -> by congruence.
    assert (Es : st' = Live (pset p (adv (ncn n) (C1 ++ [(port, s)])) (l_conns st)) (l_ctx st)).
    { unfold st', connect. rewrite Q4, (P3 HA Hl), (aset_new _ _ _ _ HA), adv_app. cbn [adv fold_left]. unfold adv1. cbn [fst snd]. rewrite HA, Hl. reflexivity. }
    assert (Sg : stage st' p n (C1 ++ [(port, s)])).
    { exists C, C2. split; [exact He|]. split; [rewrite EC, <- app_assoc; reflexivity|]. rewrite Es. split; [exact Q3|].
      rewrite conns_pset, path_eqb_refl. reflexivity. }
    split; [|split; [|right; exists []; rewrite app_nil_r; exact Sg]].
    + split.
      * intros q m Hm. destruct (path_eqb p q) eqn:K.
        -- apply path_eqb_eq in K. subst q. right. exists (C1 ++ [(port, s)]). assert (m = n) as -> by congruence. exact Sg.
        -- destruct (I_node st HI q m Hm) as [(A & B)|(D1 & F & F2 & A1 & A2 & A3 & A4)].
           ++ left. rewrite Es. split; [exact A|]. rewrite conns_pset, K. exact B.
           ++ right. exists D1, F, F2. rewrite Es. split; [exact A1|]. split; [exact A2|]. split; [exact A3|]. rewrite conns_pset, K. exact A4.
      * intros q. rewrite Es. apply (I_ent st HI).
      * intros r. rewrite Es. apply (I_dep st HI).
    + split; [rewrite Es; apply fewer_refl|]. intros q Nq. left. rewrite Es. split; [reflexivity|]. rewrite conns_pset.
      destruct (path_eqb p q) eqn:K; [|reflexivity]. apply path_eqb_eq in K. congruence.
Qed.

Lemma stage_skip : forall st p n C1 port s C C2, stage st p n C1 -> ent p = Some C -> C = C1 ++ (port, s) :: C2 ->
  adv1 (adv (ncn n) C1) (port, s) = adv (ncn n) C1 -> stage st p n (C1 ++ [(port, s)]).
Proof.
  intros st p n C1 port s C C2 (C' & C2' & Q1 & Q2 & Q3 & Q4) He EC K. assert (C' = C) as -> by congruence.
  exists C, C2. split; [exact He|]. split; [rewrite EC, <- app_assoc; reflexivity|]. split; [exact Q3|].
  rewrite adv_app. cbn [adv fold_left]. fold (adv (ncn n) C1). rewrite K. exact Q4.
Qed.

Lemma stage_next : forall st p n C1 d D C port s C2, stage st p n (C1 ++ d :: D) -> ent p = Some C -> C = C1 ++ (port, s) :: C2 ->
  C1 ++ d :: D = C1 ++ [(port, s)] ++ D.
Proof.
  intros st p n C1 d D C port s C2 (C' & C2' & Q1 & Q2 & _) He EC. assert (C' = C) as -> by congruence.
  rewrite EC, <- app_assoc in Q2. apply app_inv_head in Q2. cbn [app] in Q2. injection Q2 as <- _. reflexivity.
Qed.
Lemma stage_lt : forall st p n C1 d D C port s C2, stage st p n (C1 ++ d :: D) -> ent p = Some C -> C = C1 ++ (port, s) :: C2 ->
  lv s = true -> aget port (adv (ncn n) (C1 ++ d :: D)) = None -> False.
Proof.
  intros st p n C1 d D C port s C2 St He EC Hl EA. rewrite (stage_next st p n C1 d D C port s C2 St He EC) in EA. cbn [app] in EA.
  destruct (adv_has (ncn n) C1 port s D Hl) as (s' & K). congruence.
Qed.
Lemma stage_dead : forall st p n C1 D C port s C2, stage st p n (C1 ++ D) -> ent p = Some C -> C = C1 ++ (port, s) :: C2 ->
  lv s = false -> aget port (adv (ncn n) (C1 ++ D)) = None -> exists D', stage st p n ((C1 ++ [(port, s)]) ++ D').
Proof.
  intros st p n C1 D C port s C2 St He EC Hl EA. destruct D as [|d D].
  - rewrite app_nil_r in *. exists []. rewrite app_nil_r. apply (stage_skip st p n C1 port s C C2 St He EC).
    unfold adv1. cbn [fst snd]. rewrite EA, Hl. reflexivity.
  - rewrite (stage_next st p n C1 d D C port s C2 St He EC) in St. exists D. rewrite <- app_assoc. exact St.
Qed.

Lemma port_step : forall N st p n C C1 port s C2, Inv st -> ent p = Some C -> find t p = Some n -> C = C1 ++ (port, s) :: C2 ->
  length (E st) <= N -> mid st p n C1 ->
  (forall st' q, Inv st' -> length (E st') <= N -> pget q (E st') <> None -> rank q < rank p -> (exists n, find t q = Some n) -> good st' q) ->
  exists st' f0, (forall f, f0 <= f -> port_ended (ended w t f) w t (nty n) st p port = Some st') /\ Inv st' /\ moves_but (eq p) st st'
    /\ mid st' p n (C1 ++ [(port, s)]).
Proof.
  intros N st p n C C1 port s C2 HI He Hn EC HN HM IH. unfold port_ended.
  assert (Hin : In (port, s) C) by (rewrite EC; apply in_or_app; right; left; reflexivity).
  destruct (aget port (conns_of t st p)) as [s0|] eqn:EA.
  { exists st, 0. split; [reflexivity|]. split; [exact HI|]. split; [apply moves_refl|].
    destruct HM as [D|(D & St)]; [left; exact D|right].
    destruct D as [|d D]; [rewrite app_nil_r in St|rewrite (stage_next st p n C1 d D C port s C2 St He EC) in St; exists D; rewrite <- app_assoc; exact St].
    exists []. rewrite app_nil_r. apply (stage_skip st p n C1 port s C C2 St He EC).
    destruct St as (_ & _ & _ & _ & _ & Q4). rewrite Q4 in EA. unfold adv1. cbn [fst]. rewrite EA. reflexivity. }
  unfold get_signal. fold (E st). destruct HM as [D|(D & St)].
  { unfold done in D. rewrite D. exists st, 0. split; [reflexivity|]. split; [exact HI|]. split; [apply moves_refl|left; exact D]. }
  pose proof St as (C' & C2' & Q1 & Q2 & Q3 & Q4). assert (C' = C) as -> by congruence.
  rewrite Q3, (aget_nodup _ _ _ _ (Hkeys p C He) Hin). rewrite Q4 in EA.
  destruct (existsb (sig_eqb s) (x_deps (l_ctx st)) && match pget (fst s) (E st) with Some _ => true | None => false end
            && match find t (fst s) with Some _ => true | None => false end) eqn:W.
  - apply andb_prop in W. destruct W as (W & W3). apply andb_prop in W. destruct W as (W1 & W2).
    destruct (pget (fst s) (E st)) as [cs|] eqn:W4; [|discriminate]. destruct (find t (fst s)) as [ns|] eqn:W5; [|discriminate].
    assert (Ne : pget (fst s) (E st) <> None) by congruence.
    assert (Nr : rank (fst s) < rank p) by exact (Hrank p C port s He Hin (I_ent st HI _ Ne)).
    destruct (IH st (fst s) HI HN Ne Nr ltac:(eauto)) as (st1 & f0 & F & HI1 & M1 & D1).
    specialize (D1 [] ns). rewrite app_nil_r in D1. specialize (D1 W5).
    set (st2 := Live (l_conns st1) (Ctx (x_conns (l_ctx st1)) (filter (fun r => negb (sig_eqb s r)) (x_deps (l_ctx st1))))).
    assert (HI2 : Inv st2).
    { split; [exact (I_node st1 HI1)|exact (I_ent st1 HI1)|]. intros r Hr. destruct (I_dep st1 HI1 r Hr) as [K|K]; [|right; exact K].
      destruct (sig_eqb s r) eqn:Q; [apply sig_eqb_eq in Q; subst r; right; exact D1|].
      left. cbn [st2 l_ctx x_deps]. apply filter_In. split; [exact K|]. rewrite Q. reflexivity. }
    assert (M2 : moves_but (eq p) st st2).
    { assert (K : moves_but (eq p) st st1) by (apply (moves_weak (fun _ => False)); [intros ? []|exact M1]). exact K. }
    assert (Mid2 : done st2 p \/ stage st2 p n (C1 ++ D)).
    { destruct M1 as (_ & M1). destruct (M1 p ltac:(auto)) as [(A & B)|Dp]; [|left; exact Dp].
      right. exists C, C2'. split; [exact He|]. split; [exact Q2|]. split; [change (pget p (E st1) = Some C); rewrite A; exact Q3|].
      change (conns_of t st1 p = adv (ncn n) (C1 ++ D)). rewrite B. exact Q4. }
    destruct (lv s) eqn:Hl.
    + assert (X : exists_sig w t st2 s = true) by (apply (exists_live p C port s st2 HI2 He Hin Hl); exact D1).
      assert (D = []) as -> by (destruct D as [|d D]; [reflexivity|exfalso; exact (stage_lt st p n C1 d D C port s C2 St He EC Hl EA)]).
      rewrite app_nil_r in *.
      destruct (connect_ok st2 p n C C1 port s C2 HI2 He Hn EC Hl Mid2 (fun _ => EA)) as (HI3 & M3 & Mid3).
      exists (connect w t st2 (nty n) p port s), f0. split; [|split; [exact HI3|]; split; [exact (moves_trans _ _ _ _ M2 M3)|exact Mid3]].
      intros f Hf. rewrite (F f Hf). fold st2. rewrite X. reflexivity.
    + assert (X : exists_sig w t st2 s = false) by exact (exists_dead p C port s st2 HI2 He Hin Hl).
      exists st2, f0. split; [|split; [exact HI2|]; split; [exact M2|]].
      * intros f Hf. rewrite (F f Hf). fold st2. rewrite X. reflexivity.
      * destruct Mid2 as [Dp|St2]; [left; exact Dp|right]. exact (stage_dead st2 p n C1 D C port s C2 St2 He EC Hl EA).
  - destruct (lv s) eqn:Hl.
    + assert (D1 : done st (fst s)).
      { destruct (Hlive p C port s He Hin Hl) as ((ns & Hns & _) & Hdep). unfold done. destruct (pget (fst s) (E st)) as [cs|] eqn:W4; [|reflexivity].
        exfalso. assert (Ne : pget (fst s) (E st) <> None) by congruence. specialize (Hdep (I_ent st HI _ Ne)).
        destruct (I_dep st HI s Hdep) as [K|K]; [|unfold done in K; congruence].
        apply existsb_sig in K. rewrite K, Hns in W. discriminate. }
      assert (X : exists_sig w t st s = true) by (apply (exists_live p C port s st HI He Hin Hl); exact D1).
      assert (D = []) as -> by (destruct D as [|d D]; [reflexivity|exfalso; exact (stage_lt st p n C1 d D C port s C2 St He EC Hl EA)]).
      rewrite app_nil_r in *.
      destruct (connect_ok st p n C C1 port s C2 HI He Hn EC Hl (or_intror St) (fun _ => EA)) as (HI3 & M3 & Mid3).
      exists (connect w t st (nty n) p port s), 0. split; [|split; [exact HI3|]; split; [exact M3|exact Mid3]].
      intros f Hf. rewrite X. reflexivity.
    + assert (X : exists_sig w t st s = false) by exact (exists_dead p C port s st HI He Hin Hl).
      exists st, 0. split; [|split; [exact HI|]; split; [apply moves_refl|]].
      * intros f Hf. rewrite X. reflexivity.
      * right. exact (stage_dead st p n C1 D C port s C2 St He EC Hl EA).
Qed.

Lemma loop_step : forall N p n C, ent p = Some C -> find t p = Some n ->
  (forall st' q, Inv st' -> length (E st') <= N -> pget q (E st') <> None -> rank q < rank p -> (exists n, find t q = Some n) -> good st' q) ->
  forall C2 C1 st, Inv st -> C = C1 ++ C2 -> length (E st) <= N -> mid st p n C1 ->
  exists st' f0, (forall f, f0 <= f -> loop1 (ended w t f) w t (nty n) p C2 st [] = Some (st', [])) /\ Inv st' /\ moves_but (eq p) st st'
    /\ mid st' p n C.
Proof.
  intros N p n C He Hn IH. induction C2 as [|[port s] C2 IHl]; intros C1 st HI EC HN HM.
  - exists st, 0. split; [reflexivity|]. split; [exact HI|]. split; [apply moves_refl|]. rewrite EC, app_nil_r. exact HM.
  - cbn [loop1]. destruct (port_step N st p n C C1 port s C2 HI He Hn EC HN HM IH) as (st1 & f1 & F1 & HI1 & M1 & Mid1).
    destruct (IHl (C1 ++ [(port, s)]) st1 HI1 ltac:(rewrite EC, <- app_assoc; reflexivity) ltac:(pose proof (moves_len _ _ _ M1); lia) Mid1)
      as (st2 & f2 & F2 & HI2 & M2 & Mid2).
    exists st2, (Nat.max f1 f2). split; [|split; [exact HI2|]; split; [exact (moves_trans _ _ _ _ M1 M2)|exact Mid2]].
    intros f Hf. destruct (Hport p n C C1 port s C2 He Hn EC) as (P1 & _).
    assert (X : existsb (Nat.eqb port) (w_ports w (nty n) (conns_of t st p)) = true).
    { apply existsb_nat. destruct HM as [D|(D & (C' & C2' & Q1 & Q2 & _ & Q4))].
      - destruct (I_node st HI p n Hn) as [(_ & G)|(D1 & C' & C2' & _ & _ & K & _)]; [|unfold done in D; congruence].
        rewrite G, (Hgoal p n C He Hn), EC. apply (P1 ((port, s) :: C2) []). rewrite app_nil_r. reflexivity.
      - rewrite Q4. apply (P1 D C2'). assert (C' = C) as -> by congruence. rewrite EC, <- app_assoc in Q2. apply app_inv_head in Q2. exact Q2. }
    rewrite X, (F1 f ltac:(lia)). apply F2. lia.
Qed.

Lemma all_step : forall N kids, (forall st kid, Inv st -> length (E st) <= N -> In kid kids -> good st kid) ->
  forall st, Inv st -> length (E st) <= N ->
  exists st' f0, (forall f, f0 <= f -> all_ended (ended w t f) kids st = Some st') /\ Inv st' /\ moves st st'
    /\ (forall kid q n, In kid kids -> find t (kid ++ q) = Some n -> done st' (kid ++ q)).
Proof.
  intros N kids. induction kids as [|kid kids IH]; intros G st HI HN.
  - exists st, 0. split; [reflexivity|]. split; [exact HI|]. split; [apply moves_refl|]. intros kid q n [].
  - destruct (G st kid HI HN ltac:(left; reflexivity)) as (st1 & f1 & F1 & HI1 & M1 & D1).
    destruct (IH ltac:(intros st' k' A B K; apply G; [exact A|exact B|right; exact K]) st1 HI1 ltac:(pose proof (moves_len _ _ _ M1); lia)) as (st2 & f2 & F2 & HI2 & M2 & D2).
    exists st2, (Nat.max f1 f2). split; [|split; [exact HI2|]; split; [exact (moves_trans _ _ _ _ M1 M2)|]].
    + intros f Hf. cbn [all_ended]. rewrite (F1 f ltac:(lia)). apply F2. lia.
    + intros k' q n [<-|K] Q; [|exact (D2 k' q n K Q)]. exact (moves_done _ _ _ _ M2 (D1 q n Q)).
Qed.

Lemma child_in : forall i l k, child i l = Some k -> In k l /\ nid k = i.
Proof.
  induction l as [|n l IH]; cbn [child]; [discriminate|]. intros k. destruct (Nat.eqb (nid n) i) eqn:K.
  - intros H. injection H as ->. apply Nat.eqb_eq in K. split; [left; reflexivity|exact K].
  - intros H. destruct (IH k H). split; [right; assumption|assumption].
Qed.
Lemma child_some : forall l k, In k l -> exists k', child (nid k) l = Some k'.
Proof.
  induction l as [|n l IH]; cbn [child]; [intros k []|]. intros k [->|K]; [rewrite Nat.eqb_refl; eauto|]. destruct (Nat.eqb (nid n) (nid k)); eauto.
Qed.

(** the end of [ended]: nothing is waiting at [p] any more *)
Definition cleared (st : live) (p : path) : live :=
  Live (l_conns st) (Ctx (pdel p (x_conns (l_ctx st))) (x_deps (l_ctx st))).
Lemma cleared_ok : forall st p n, Inv st -> find t p = Some n -> conns_of t st p = goal p ->
  Inv (cleared st p) /\ moves st (cleared st p) /\ done (cleared st p) p.
Proof.
  intros st p n HI Hn G.
  assert (Dp : done (cleared st p) p) by (unfold done, E, cleared; cbn [l_ctx x_conns]; rewrite pget_pdel, path_eqb_refl; reflexivity).
  assert (O : forall q, q <> p -> pget q (E (cleared st p)) = pget q (E st)).
  { intros q Nq. unfold E, cleared. cbn [l_ctx x_conns]. rewrite pget_pdel. destruct (path_eqb p q) eqn:K; [apply path_eqb_eq in K; congruence|reflexivity]. }
  split; [|split; [|exact Dp]].
  - split.
    + intros q m Hm. destruct (path_eqb p q) eqn:K.
      * apply path_eqb_eq in K. subst q. left. split; [exact Dp|exact G].
      * assert (Nq : q <> p) by (intros ->; rewrite path_eqb_refl in K; discriminate).
        unfold done, stage. rewrite (O q Nq). exact (I_node st HI q m Hm).
    + intros q Hq. apply (I_ent st HI). destruct (path_eqb p q) eqn:K.
      * apply path_eqb_eq in K. subst q. unfold done in Dp. congruence.
      * rewrite <- (O q); [exact Hq|]. intros ->. rewrite path_eqb_refl in K. discriminate.
    + intros s Hs. destruct (I_dep st HI s Hs) as [K|K]; [left; exact K|]. right. unfold done in *.
      destruct (path_eqb p (fst s)) eqn:Q; [apply path_eqb_eq in Q; rewrite <- Q; exact Dp|]. rewrite O; [exact K|].
      intros Z. rewrite Z, path_eqb_refl in Q. discriminate.
  - split; [exists (fun y => negb (path_eqb (fst y) p)); reflexivity|]. intros q _. destruct (path_eqb p q) eqn:K.
    + apply path_eqb_eq in K. subst q. right. exact Dp.
    + left. rewrite O; [auto|]. intros ->. rewrite path_eqb_refl in K. discriminate.
Qed.

Fixpoint size (n : node) : nat := let (_, _, _, subs) := n in S (fold_right (fun k a => size k + a) 0 subs).
Lemma size_sub : forall n k, In k (nsubs n) -> size k < size n.
Proof.
  intros [i ty c subs] k. cbn [nsubs size]. induction subs as [|k' subs IH]; [intros []|]. cbn [fold_right]. intros [->|K]; [lia|]. specialize (IH K). lia.
Qed.

(** what remains of [ended] when the ports of [p] are through *)
Lemma rest_good : forall N st st1 p n f1, Inv st -> find t p = Some n -> Inv st1 -> moves st (cleared st1 p) -> conns_of t st1 p = goal p ->
  (forall f, f1 <= f -> ended w t (S f) st p = all_ended (ended w t f) (map (fun k => p ++ [nid k]) (nsubs n)) (cleared st1 p)) ->
  length (E (cleared st1 p)) <= N ->
  (forall st' k, Inv st' -> length (E st') <= N -> In k (nsubs n) -> good st' (p ++ [nid k])) -> good st p.
Proof.
  intros N st st1 p n f1 HI Hn HI1 M Hg F HN IH.
  destruct (cleared_ok st1 p n HI1 Hn Hg) as (HI2 & _ & D2).
  destruct (all_step N (map (fun k => p ++ [nid k]) (nsubs n))) with (st := cleared st1 p) as (st3 & f3 & F3 & HI3 & M3 & D3).
  { intros st' kid A B K. apply in_map_iff in K. destruct K as (k & <- & K). exact (IH st' k A B K). }
  { exact HI2. } { exact HN. }
  exists st3, (S (Nat.max f1 f3)). split; [|split; [exact HI3|]; split; [exact (moves_trans _ _ _ _ M M3)|]].
  - intros f Hf. destruct f as [|f]; [lia|]. rewrite (F f ltac:(lia)). apply F3. lia.
  - intros q m Hm. destruct q as [|i q].
    + rewrite app_nil_r. exact (moves_done _ _ _ _ M3 D2).
    + pose proof Hm as Hm'. rewrite find_app, Hn in Hm'. cbn [find] in Hm'. destruct (child i (nsubs n)) as [k|] eqn:K; [|discriminate].
      destruct (child_in _ _ _ K) as (K1 & K2). replace (p ++ i :: q) with ((p ++ [i]) ++ q) in * by (rewrite <- app_assoc; reflexivity).
      apply (D3 (p ++ [i]) q m); [|exact Hm]. apply in_map_iff. exists k. rewrite K2. auto.
Qed.

Theorem all_good : forall N st p, Inv st -> length (E st) <= N -> (exists n, find t p = Some n) -> good st p.
Proof.
  induction N as [|N IHN].
  - assert (B : forall h n st p, size n <= h -> Inv st -> length (E st) <= 0 -> find t p = Some n -> good st p).
    { induction h as [|h IH]; intros n st p Hs HI HN Hn; [destruct n; cbn in Hs; lia|].
      assert (EE : E st = []) by (destruct (E st); [reflexivity|cbn in HN; lia]).
      assert (Dp : done st p) by (unfold done; rewrite EE; reflexivity).
      assert (G : conns_of t st p = goal p) by (destruct (I_node st HI p n Hn) as [(_ & G)|(C1 & C & C2 & _ & _ & K & _)]; [exact G|unfold done in Dp; congruence]).
      destruct (cleared_ok st p n HI Hn G) as (HI2 & M2 & _).
      apply (rest_good 0 st st p n 0 HI Hn HI M2 G).
      - intros f _. cbn [ended]. rewrite Hn. fold (E st). unfold done in Dp. rewrite Dp. cbn [loop1 loop2]. reflexivity.
      - pose proof (moves_len _ _ _ M2). lia.
      - intros st' k HI' HN' K. destruct (child_some _ _ K) as (k' & K'). destruct (child_in _ _ _ K') as (K1 & _).
        apply (IH k'); [pose proof (size_sub n k' K1); lia|exact HI'|exact HN'|]. rewrite find_app, Hn. cbn [find]. rewrite K'. reflexivity. }
    intros st p HI HN (n & Hn). exact (B (size n) n st p (le_n _) HI HN Hn).
  - assert (A : forall r p st, rank p < r -> Inv st -> length (E st) <= S N -> pget p (E st) <> None -> (exists n, find t p = Some n) -> good st p).
    { induction r as [|r IHr]; intros p st Hr HI HN Hp (n & Hn); [lia|].
      destruct (I_node st HI p n Hn) as [(D & _)|(C1 & St)]; [unfold done in D; congruence|].
      destruct St as (C & C2 & Q1 & Q2 & Q3 & Q4).
      assert (IH' : forall st' q, Inv st' -> length (E st') <= S N -> pget q (E st') <> None -> rank q < rank p -> (exists n, find t q = Some n) -> good st' q).
      { intros st' q A1 A2 A3 A4 A5. apply (IHr q st'); [lia|exact A1|exact A2|exact A3|exact A5]. }
      destruct (loop_step (S N) p n C Q1 Hn IH' C [] st HI eq_refl HN ltac:(right; exists C1; exists C, C2; auto)) as (st1 & f1 & F1 & HI1 & M1 & Mid1).
      assert (G : conns_of t st1 p = goal p).
      { destruct Mid1 as [D|(D & (C' & C2' & R1 & R2 & R3 & R4))].
        - destruct (I_node st1 HI1 p n Hn) as [(_ & G)|(D1 & C' & C2' & _ & _ & K & _)]; [exact G|unfold done in D; congruence].
        - assert (C' = C) as -> by congruence. assert (D = []) as ->.
          { apply (f_equal (@length _)) in R2. rewrite !app_length in R2. destruct D; [reflexivity|cbn [length] in R2; lia]. }
          rewrite R4, app_nil_r. symmetry. exact (Hgoal p n C Q1 Hn). }
      destruct (cleared_ok st1 p n HI1 Hn G) as (HI2 & M2 & D2).
      assert (M : moves st (cleared st1 p)).
      { split; [exact (fewer_trans _ _ _ (proj1 M1) (proj1 M2))|]. intros q _. destruct (path_eqb p q) eqn:K.
        - apply path_eqb_eq in K. subst q. right. exact D2.
        - assert (Nq : p <> q) by (intros ->; rewrite path_eqb_refl in K; discriminate).
          destruct (proj2 M2 q ltac:(auto)) as [(A1 & A2)|A]; [|right; exact A]. destruct (proj2 M1 q Nq) as [(B1 & B2)|B]; [left; split; congruence|].
          right. unfold done in *. congruence. }
      apply (rest_good N st st1 p n f1 HI Hn HI1 M G).
      - intros f Hf. cbn [ended]. rewrite Hn. fold (E st). rewrite Q3, (F1 f Hf). reflexivity.
      - pose proof (fewer_lt _ _ p (proj1 M) Hp D2). lia.
      - intros st' k HI' HN' K. apply IHN; [exact HI'|exact HN'|]. destruct (child_some _ _ K) as (k' & K'). exists k'.
        rewrite find_app, Hn. cbn [find]. rewrite K'. reflexivity. }
    assert (B : forall h n st p, size n <= h -> Inv st -> length (E st) <= S N -> find t p = Some n -> good st p).
    { induction h as [|h IH]; intros n st p Hs HI HN Hn; [destruct n; cbn in Hs; lia|].
      destruct (pget p (E st)) as [C|] eqn:Hp; [apply (A (S (rank p)) p st); [lia|exact HI|exact HN|congruence|eauto]|].
      assert (G : conns_of t st p = goal p) by (destruct (I_node st HI p n Hn) as [(_ & G)|(C1 & C & C2 & _ & _ & K & _)]; [exact G|congruence]).
      destruct (cleared_ok st p n HI Hn G) as (HI2 & M2 & _).
      apply (rest_good (S N) st st p n 0 HI Hn HI M2 G).
      - intros f _. cbn [ended]. rewrite Hn. fold (E st). rewrite Hp. cbn [loop1 loop2]. reflexivity.
      - pose proof (moves_len _ _ _ M2). lia.
      - intros st' k HI' HN' K. destruct (child_some _ _ K) as (k' & K'). destruct (child_in _ _ _ K') as (K1 & _).
        apply (IH k'); [pose proof (size_sub n k' K1); lia|exact HI'|exact HN'|]. rewrite find_app, Hn. cbn [find]. rewrite K'. reflexivity. }
    intros st p HI HN (n & Hn). exact (B (size n) n st p (le_n _) HI HN Hn).
Qed.

(** All connections that can be made are made. *)
Theorem core : exists st f0, (forall f, f0 <= f -> ended w t f (Live [] x) [] = Some st)
  /\ forall p n, find t p = Some n -> conns_of t st p = goal p.
Proof.
  assert (HI : Inv (Live [] x)).
  { split.
    - intros p n Hn. unfold done, stage, E. cbn [l_ctx]. fold (ent p). unfold conns_of. cbn [l_conns pget]. rewrite Hn.
      destruct (ent p) as [C|] eqn:He; [right|left; split; [reflexivity|symmetry; exact (Hnone p n He Hn)]].
      exists [], C, C. auto.
    - intros p H. exact H.
    - intros s H. left. exact H. }
  destruct (all_good (length (E (Live [] x))) (Live [] x) [] HI (le_n _) ltac:(cbn [find]; eauto)) as (st & f0 & F & HI' & _ & D).
  exists st, f0. split; [exact F|]. intros p n Hn. specialize (D p n Hn). cbn [app] in D.
  destruct (I_node st HI' p n Hn) as [(_ & G)|(C1 & C & C2 & _ & _ & K & _)]; [exact G|unfold done in D; congruence].
Qed.
End Core.
