From Verif Require Import Base Lock_Model Lock_Spec.

Lemma dev_ind2 : forall (P : dev -> Prop), (forall lk ch, Forall P ch -> P (Dev lk ch)) -> forall t, P t.
Proof. intros P H. fix IH 1. intros [lk ch]. apply H. induction ch as [|c ch IHc]; constructor; [apply IH|exact IHc]. Qed.

(** Pointwise relation between two trees of the same shape. *)
Inductive Rel (R : lockst -> lockst -> Prop) : dev -> dev -> Prop :=
  | rel_node : forall lk lk' ch ch', R lk lk' -> Forall2 (Rel R) ch ch' -> Rel R (Dev lk ch) (Dev lk' ch').

Lemma Forall2_imp_in : forall {A B} (P Q : A -> B -> Prop) l l', Forall (fun a => forall b, P a b -> Q a b) l -> Forall2 P l l' -> Forall2 Q l l'.
Proof. intros A B P Q l l' H F. induction F; constructor; inversion H; subst; auto. Qed.

Lemma Rel_refl : forall (R : lockst -> lockst -> Prop), (forall l, R l l) -> forall t, Rel R t t.
Proof.
  intros R HR. induction t as [lk ch IH] using dev_ind2. constructor; [apply HR|]. induction IH; constructor; auto.
Qed.
Lemma Forall2_refl_rel : forall (R : lockst -> lockst -> Prop), (forall l, R l l) -> forall l, Forall2 (Rel R) l l.
Proof. intros R HR. induction l; constructor; auto. apply Rel_refl. exact HR. Qed.
Lemma Rel_trans : forall (R : lockst -> lockst -> Prop), (forall a b c, R a b -> R b c -> R a c) -> forall t1 t2 t3, Rel R t1 t2 -> Rel R t2 t3 -> Rel R t1 t3.
Proof.
  intros R HR. induction t1 as [lk ch IH] using dev_ind2. intros t2 t3 H1 H2. inversion H1 as [? ? ? ? Ra Fa]; subst. inversion H2 as [? ? ? ? Rb Fb]; subst. constructor; [eauto|].
  clear - IH Fa Fb. match type of Fb with Forall2 _ _ ?c => revert c Fb end. revert IH. induction Fa; intros IH c3 Fb; inversion Fb; subst; constructor; inversion IH; subst; eauto.
Qed.
Lemma Forall2_trans_rel : forall (R : lockst -> lockst -> Prop), (forall a b c, R a b -> R b c -> R a c) -> forall l1 l2 l3, Forall2 (Rel R) l1 l2 -> Forall2 (Rel R) l2 l3 -> Forall2 (Rel R) l1 l3.
Proof.
  intros R HR l1 l2 l3 H1. revert l3. induction H1; intros l3 H2; inversion H2; subst; constructor; eauto. eapply Rel_trans; eauto.
Qed.

Lemma until_fail_rel : forall (R : lockst -> lockst -> Prop) f, (forall l, R l l) -> (forall c, Rel R c (fst (f c))) -> forall cs, Forall2 (Rel R) cs (fst (fst (until_fail f cs))).
Proof.
  intros R f HR Hf. induction cs as [|c cs IH]; cbn [until_fail]; [constructor|]. specialize (Hf c). destruct (f c) as [c' ok].
  destruct ok; cbn [fst] in *.
  - destruct (until_fail f cs) as [[r' ok'] n]. cbn [fst] in *. constructor; auto.
  - constructor; [exact Hf|]. apply Forall2_refl_rel. exact HR.
Qed.
Lemma revert_rel : forall (R : lockst -> lockst -> Prop) f, (forall l, R l l) -> (forall c, Rel R c (fst (f c))) -> forall cs n sts b, Forall2 (Rel R) cs (fst (revert n sts b f cs)).
Proof.
  intros R f HR Hf. induction cs as [|c cs IH]; intros n sts b.
  - destruct n, sts; cbn [revert fst]; constructor.
  - destruct n as [|n], sts as [|s sts]; cbn [revert]; try (apply Forall2_refl_rel; exact HR).
    destruct (Bool.eqb s b).
    + specialize (Hf c). destruct (f c) as [c' ok]. destruct ok; cbn [fst] in *.
      * specialize (IH n sts b). destruct (revert n sts b f cs). constructor; auto.
      * constructor; [exact Hf|apply Forall2_refl_rel; exact HR].
    + specialize (IH n sts b). destruct (revert n sts b f cs). constructor; [apply Rel_refl; exact HR|exact IH].
Qed.

Lemma lockD_S : forall val n u lk ch, lockD val (S n) u (Dev lk ch) =
  let sts := map d_locked ch in
  let '(ch1, ok, k) := until_fail (lockD val n u) ch in
  if ok then let (lk', r) := ul_lock val lk u in (Dev lk' ch1, r)
  else let (ch2, _) := revert k sts false (unlockD val n u (ul_isLocked lk)) ch1 in (Dev lk ch2, false).
Proof. reflexivity. Qed.
Lemma unlockD_S : forall val n u b lk ch, unlockD val (S n) u b (Dev lk ch) =
  if b then (Dev lk ch, false)
  else let (lk', r) := ul_unlock lk u in
       if r then
         let sts := map d_locked ch in
         let '(ch1, ok, k) := until_fail (unlockD val n u (ul_isLocked lk')) ch in
         if ok then (Dev lk' ch1, true)
         else let (ch2, _) := revert k sts true (lockD val n u) ch1 in (Dev lk' ch2, false)
       else (Dev lk ch, false).
Proof. reflexivity. Qed.

(** A relation that every lock and unlock of the caller establishes is established by the device calls. *)
Lemma calls_rel : forall val (R : lockst -> lockst -> Prop), (forall l, R l l) -> (forall a b c, R a b -> R b c -> R a c) -> forall u,
  (forall l, R l (fst (ul_lock val l u))) -> (forall l, R l (fst (ul_unlock l u))) ->
  forall n, (forall t, Rel R t (fst (lockD val n u t))) /\ (forall b t, Rel R t (fst (unlockD val n u b t))).
Proof.
  intros val R HR HT u HL HU. induction n as [|n [IL IU]]; [split; intros; apply Rel_refl; exact HR|]. split.
  - intros [lk ch]. rewrite lockD_S; cbv zeta. pose proof (until_fail_rel R (lockD val n u) HR IL ch) as H1.
    destruct (until_fail (lockD val n u) ch) as [[ch1 ok] k]. cbn [fst] in H1. destruct ok.
    + specialize (HL lk). destruct (ul_lock val lk u) as [lk' r]. constructor; assumption.
    + pose proof (revert_rel R (unlockD val n u (ul_isLocked lk)) HR (IU _) ch1 k (map d_locked ch) false) as H2.
      destruct (revert k (map d_locked ch) false (unlockD val n u (ul_isLocked lk)) ch1) as [ch2 o]. cbn [fst] in *.
      constructor; [apply HR|]. eapply Forall2_trans_rel; eauto.
  - intros b [lk ch]. rewrite unlockD_S; cbv zeta. destruct b; [apply Rel_refl; exact HR|].
    pose proof (HU lk) as HUl. destruct (ul_unlock lk u) as [lk' r]. cbn [fst] in HUl. destruct r; [|apply Rel_refl; exact HR].
    pose proof (until_fail_rel R (unlockD val n u (ul_isLocked lk')) HR (IU _) ch) as H1.
    destruct (until_fail (unlockD val n u (ul_isLocked lk')) ch) as [[ch1 ok] k]. cbn [fst] in H1. destruct ok.
    + constructor; assumption.
    + pose proof (revert_rel R (lockD val n u) HR IL ch1 k (map d_locked ch) true) as H2.
      destruct (revert k (map d_locked ch) true (lockD val n u) ch1) as [ch2 o]. cbn [fst] in *.
      constructor; [exact HUl|]. eapply Forall2_trans_rel; eauto.
Qed.

Lemma Forall2_nth1 : forall {A B} (P : A -> B -> Prop) l l' i x, Forall2 P l l' -> nth_error l i = Some x -> exists y, nth_error l' i = Some y /\ P x y.
Proof.
  intros A B P l l' i x F. revert i. induction F; intros [|i] H1; cbn in *; try discriminate.
  - injection H1 as <-. eauto.
  - eauto.
Qed.
Lemma Rel_at : forall R p t t' d, Rel R t t' -> device_at p t = Some d -> exists d', device_at p t' = Some d' /\ Rel R d d'.
Proof.
  intros R. induction p as [|i p IH]; intros t t' d HR HD; cbn [device_at] in *.
  - injection HD as <-. eauto.
  - inversion HR; subst. cbn [d_ch] in *. destruct (nth_error ch i) as [c|] eqn:E; [|discriminate].
    destruct (Forall2_nth1 _ _ _ _ _ H0 E) as (c' & E' & RC). rewrite E'. eapply IH; eauto.
Qed.
Lemma Rel_lk : forall R t t', Rel R t t' -> R (d_lk t) (d_lk t').
Proof. intros R t t' H. inversion H. assumption. Qed.

Lemma list_eqb_eq : forall a b, list_eqb a b = true <-> a = b.
Proof.
  induction a as [|x a IH]; destruct b as [|y b]; cbn [list_eqb]; split; intros H; try discriminate; try reflexivity.
  - apply andb_true_iff in H. destruct H as [H1 H2]. apply Nat.eqb_eq in H1. apply IH in H2. congruence.
  - injection H as -> ->. rewrite Nat.eqb_refl. apply IH. reflexivity.
Qed.

Section U.
Variable val : user -> uvalue.
Lemma user_equals_iff : forall a b, user_equals val a b = true <-> same_user val a b.
Proof.
  intros a b. unfold user_equals, same_user. rewrite !andb_true_iff, !Nat.eqb_eq, list_eqb_eq. destruct (val a) as [x1 x2 x3], (val b) as [y1 y2 y3]. cbn.
  split; [intros [[-> ->] ->]; reflexivity|intros H; injection H as -> -> ->; auto].
Qed.
Lemma anonymous_iff : forall u, isAnonymous val u = true <-> anonymous val u.
Proof. intros. unfold isAnonymous, anonymous. rewrite andb_true_iff, !Nat.eqb_eq. reflexivity. Qed.

(** Others keep their locks. *)
Definition keepR (v : user) (l l' : lockst) : Prop :=
  forall h, l = Some (Some h) -> same_user val h v -> exists h', l' = Some (Some h') /\ same_user val h' v.
Lemma keepR_refl : forall v l, keepR v l l. Proof. intros v l h -> H. eauto. Qed.
Lemma keepR_trans : forall v a b c, keepR v a b -> keepR v b c -> keepR v a c.
Proof. intros v a b c H1 H2 h Ha Hs. destruct (H1 h Ha Hs) as (h' & Hb & Hs'). eauto. Qed.
Definition caller_not (v : user) (u : option user) : Prop := match u with Some x => ~ same_user val x v | None => True end.
Lemma lock_keepR : forall v u, caller_not v u -> forall l, keepR v l (fst (ul_lock val l u)).
Proof.
  intros v u HN l h -> HS. unfold ul_lock. destruct u as [x|]; cbn [norm ptr_eq]; [|cbn; eauto].
  destruct (isAnonymous val x); cbn [ptr_eq]; [cbn; eauto|]. destruct (user_equals val h x) eqn:E; [|cbn; eauto].
  apply user_equals_iff in E. exfalso. apply HN. unfold same_user in *. congruence.
Qed.
Lemma unlock_keepR : forall v u, caller_not v u -> forall l, keepR v l (fst (ul_unlock l u)).
Proof.
  intros v u HN l h -> HS. unfold ul_unlock, raw_eq. destruct u as [x|]; [|cbn; eauto].
  destruct (Nat.eqb_spec h x) as [->|E]; [contradiction|cbn; eauto].
Qed.

Definition keeps (v : user) (t t' : dev) : Prop := forall p, held val v p t -> held val v p t'.
Lemma Rel_keeps : forall v t t', Rel (keepR v) t t' -> keeps v t t'.
Proof.
  intros v t t' HR p (d & h & H1 & H2 & H3). destruct (Rel_at _ _ _ _ _ HR H1) as (d' & E & RD). apply Rel_lk in RD.
  destruct (RD h H2 H3) as (h' & L & S). exists d', h'. auto.
Qed.
Lemma add_keeps : forall v lk ch d, keeps v (Dev lk ch) (Dev lk (ch ++ [d])).
Proof.
  intros v lk ch d p (x & h & H1 & H2 & H3). destruct p as [|i p]; cbn [device_at d_ch] in *.
  - injection H1 as <-. exists (Dev lk (ch ++ [d])), h. auto.
  - destruct (nth_error ch i) as [c|] eqn:E; [|discriminate]. exists x, h. split; [|auto]. cbn [device_at d_ch]. rewrite nth_error_app1 by (apply nth_error_Some; congruence). rewrite E. exact H1.
Qed.
Lemma docall_keeps : forall v c b t, not_by val v c -> keeps v t (fst (docall val c b t)).
Proof.
  intros v [u|u| |d] b t HN; cbn [docall not_by] in *.
  - apply Rel_keeps. apply calls_rel; [apply keepR_refl|apply keepR_trans|apply lock_keepR|apply unlock_keepR]; destruct u; cbn; auto.
  - apply Rel_keeps. apply calls_rel; [apply keepR_refl|apply keepR_trans|apply lock_keepR|apply unlock_keepR]; destruct u; cbn; auto.
  - contradiction.
  - destruct t as [lk ch]. apply add_keeps.
Qed.
Lemma nth_set_nth : forall {A} i (x : A) l j, nth_error (set_nth i x l) j = if (j =? i) then match nth_error l j with Some _ => Some x | None => None end else nth_error l j.
Proof.
  induction i as [|i IH]; intros x [|y l] [|j]; cbn [set_nth nth_error]; try reflexivity; try (destruct (_ =? _); reflexivity).
  rewrite IH. reflexivity.
Qed.
Lemma at_path_keeps : forall v c, not_by val v c -> forall p b t, keeps v t (fst (at_path val p c b t)).
Proof.
  intros v c HN. induction p as [|i p IH]; intros b t; cbn [at_path]; [apply docall_keeps; exact HN|].
  destruct t as [lk ch]. destruct (nth_error ch i) as [d|] eqn:E; [|intros q H; exact H].
  specialize (IH (ul_isLocked lk) d). destruct (at_path val p c (ul_isLocked lk) d) as [d' r]. cbn [fst] in *.
  intros q (x & h & H1 & H2 & H3). destruct q as [|j q]; cbn [device_at d_ch] in *.
  - injection H1 as <-. cbn [d_lk] in H2. exists (Dev lk (set_nth i d' ch)), h. auto.
  - unfold held. cbn [device_at d_ch]. rewrite nth_set_nth. destruct (Nat.eqb_spec j i) as [->|]; [|exists x, h; auto].
    rewrite E in *. apply IH. exists x, h. auto.
Qed.
Theorem others_keep : forall v ops t p, (forall o, In o ops -> not_by val v (snd o)) -> held val v p t -> held val v p (run val t ops).
Proof.
  intros v. induction ops as [|o ops IH]; intros t p HN HH; [exact HH|]. apply IH; [intros; apply HN; right; assumption|].
  apply at_path_keeps; [apply HN; left; reflexivity|exact HH].
Qed.

(** All devices of a tree satisfy P. *)
Inductive All (P : lockst -> Prop) : dev -> Prop := all_node : forall lk ch, P lk -> Forall (All P) ch -> All P (Dev lk ch).
Lemma All_at : forall P t, All P t <-> forall p d, device_at p t = Some d -> P (d_lk d).
Proof.
  intros P. induction t as [lk ch IH] using dev_ind2. split.
  - intros HA p d HD. inversion HA; subst. destruct p as [|i p]; cbn [device_at d_ch] in HD; [injection HD as <-; assumption|].
    destruct (nth_error ch i) as [c|] eqn:E; [|discriminate]. apply nth_error_In in E. rewrite Forall_forall in *. eapply IH; eauto.
  - intros H. constructor; [apply (H [] (Dev lk ch)); reflexivity|]. rewrite Forall_forall in *. intros c Hc. apply IH; [exact Hc|].
    intros p d HD. apply In_nth_error in Hc. destruct Hc as (i & Hi). apply (H (i :: p) d). cbn [device_at d_ch]. rewrite Hi. exact HD.
Qed.

Lemma until_fail_ok : forall f cs cs' k, until_fail f cs = (cs', true, k) -> Forall2 (fun c c' => f c = (c', true)) cs cs' /\ k = length cs.
Proof.
  intros f. induction cs as [|c cs IH]; intros cs' k H; cbn [until_fail] in H; [injection H as <- <-; split; [constructor|reflexivity]|].
  destruct (f c) as [c' ok] eqn:E. destruct ok; [|discriminate]. destruct (until_fail f cs) as [[r' ok'] n]. injection H as <- -> <-.
  destruct (IH r' n eq_refl) as [H1 H2]. split; [constructor; assumption|cbn; congruence].
Qed.
Lemma until_fail_all : forall f cs, (forall c, In c cs -> exists c', f c = (c', true)) -> exists cs' k, until_fail f cs = (cs', true, k).
Proof.
  intros f. induction cs as [|c cs IH]; intros H; cbn [until_fail]; [eauto|]. destruct (H c (or_introl eq_refl)) as (c' & ->).
  destruct IH as (cs' & k & ->); [intros; apply H; right; assumption|]. eauto.
Qed.
Lemma Forall2_Forall_r : forall {A B} (P : A -> B -> Prop) (Q : B -> Prop) l l', Forall2 P l l' -> (forall a b, P a b -> Q b) -> Forall Q l'.
Proof. intros A B P Q l l' H HQ. induction H; constructor; eauto. Qed.

Lemma lock_success_all : forall u n t t', lockD val n u t = (t', true) -> All (fun l => l = Some (norm val u)) t'.
Proof.
  intros u. induction n as [|n IH]; intros [lk ch] t' H; [discriminate|]. rewrite lockD_S in H; cbv zeta in H.
  destruct (until_fail (lockD val n u) ch) as [[ch1 ok] k] eqn:E. destruct ok.
  - apply until_fail_ok in E. destruct E as [E _]. destruct (ul_lock val lk u) as [lk' r] eqn:EL. injection H as <- ->. constructor.
    + unfold ul_lock in EL. destruct lk as [h|]; [|congruence]. destruct (ptr_eq val h (norm val u)); congruence.
    + eapply Forall2_Forall_r; [exact E|]. intros a b Hab. eapply IH. exact Hab.
  - destruct (revert _ _ _ _ _); discriminate.
Qed.
Lemma unlock_success_all : forall u n b t t', unlockD val n u b t = (t', true) -> All (fun l => l = None) t'.
Proof.
  intros u. induction n as [|n IH]; intros b [lk ch] t' H; [discriminate|]. rewrite unlockD_S in H; cbv zeta in H. destruct b; [discriminate|].
  destruct (ul_unlock lk u) as [lk' r] eqn:EL. destruct r; [|discriminate].
  destruct (until_fail (unlockD val n u (ul_isLocked lk')) ch) as [[ch1 ok] k] eqn:E. destruct ok.
  - apply until_fail_ok in E. destruct E as [E _]. injection H as <-. constructor.
    + unfold ul_unlock in EL. destruct lk as [[h|]|]; [destruct (raw_eq (Some h) u)|..]; congruence.
    + eapply Forall2_Forall_r; [exact E|]. intros a b Hab. eapply IH. exact Hab.
  - destruct (revert _ _ _ _ _); discriminate.
Qed.
Lemma force_success_all : forall t b t', forceD b t = (t', true) -> All (fun l => l = None) t'.
Proof.
  induction t as [lk ch IH] using dev_ind2. intros b t' H. cbn [forceD] in H. destruct b; [discriminate|].
  destruct (until_fail (forceD false) ch) as [[ch1 ok] k] eqn:E. injection H as <- ->.
  apply until_fail_ok in E. destruct E as [E _]. constructor; [reflexivity|]. clear - IH E. induction E; constructor; inversion IH; subst; eauto.
Qed.
Lemma force_ok : forall t, snd (forceD false t) = true.
Proof.
  induction t as [lk ch IH] using dev_ind2. cbn [forceD].
  destruct (until_fail_all (forceD false) ch) as (cs' & k & ->); [|reflexivity].
  rewrite Forall_forall in IH. intros c Hc. specialize (IH c Hc). destruct (forceD false c) as [c' r]. cbn in IH. subst. eauto.
Qed.

(** When locking succeeds. *)
Definition freeFor (u : option user) (l : lockst) : Prop := match l with None => True | Some h => ptr_eq val h (norm val u) = true end.
Lemma height_child : forall lk ch c, In c ch -> height c < height (Dev lk ch).
Proof.
  intros lk ch c Hc. cbn [height]. apply Nat.lt_succ_r. induction ch as [|d ch IH]; [contradiction|]. cbn [fold_right]. destruct Hc as [->|Hc]; [lia|]. specialize (IH Hc). lia.
Qed.
Lemma lock_free : forall u n t, height t <= n -> All (freeFor u) t -> exists t', lockD val n u t = (t', true).
Proof.
  intros u. induction n as [|n IH]; intros [lk ch] HH HA; [cbn [height] in HH; lia|]. inversion HA as [? ? H1 H2]; subst. rewrite lockD_S; cbv zeta.
  destruct (until_fail_all (lockD val n u) ch) as (ch1 & k & ->).
  - intros c Hc. rewrite Forall_forall in H2. apply IH; [|auto]. pose proof (height_child lk ch c Hc). lia.
  - unfold ul_lock. destruct lk as [h|]; cbn [freeFor] in H1; [rewrite H1|]; eauto.
Qed.
Lemma lock_success_free : forall u n t t', lockD val n u t = (t', true) -> All (freeFor u) t.
Proof.
  intros u. induction n as [|n IH]; intros [lk ch] t' H; [discriminate|]. rewrite lockD_S in H; cbv zeta in H.
  destruct (until_fail (lockD val n u) ch) as [[ch1 ok] k] eqn:E. destruct ok.
  - apply until_fail_ok in E. destruct E as [E _]. destruct (ul_lock val lk u) as [lk' r] eqn:EL. injection H as <- ->. constructor.
    + unfold ul_lock in EL. destruct lk as [h|]; [|exact Logic.I]. cbn [freeFor]. destruct (ptr_eq val h (norm val u)); [reflexivity|discriminate].
    + clear EL. induction E; constructor; eauto.
  - destruct (revert _ _ _ _ _); discriminate.
Qed.

(** Same shape *)
Definition anyR (l l' : lockst) : Prop := True.
Lemma shape_lock : forall n u t, Rel anyR t (fst (lockD val n u t)).
Proof. intros. apply calls_rel; unfold anyR; auto. Qed.
Lemma shape_unlock : forall n u b t, Rel anyR t (fst (unlockD val n u b t)).
Proof. intros. apply calls_rel; unfold anyR; auto. Qed.
Lemma shape_height : forall t t', Rel anyR t t' -> height t = height t'.
Proof.
  induction t as [lk ch IH] using dev_ind2. intros t' H. inversion H as [? ? ? ? ? F]; subst. cbn [height]. f_equal.
  clear H. induction F; [reflexivity|]. cbn [fold_right]. inversion IH; subst. rewrite IHF by assumption. f_equal. auto.
Qed.
Lemma shape_eq : forall x t t', Rel anyR t t' -> All (fun l => l = x) t -> All (fun l => l = x) t' -> t = t'.
Proof.
  intros x. induction t as [lk ch IH] using dev_ind2. intros t' H H1 H2. inversion H as [? ? ? ? ? F]; subst. inversion H1 as [? ? E1 F1]; subst. inversion H2 as [? ? E2 F2]; subst. f_equal.
  clear H H1 H2. induction F; [reflexivity|]. inversion IH; subst. inversion F1; subst. inversion F2; subst. f_equal; auto.
Qed.
(** A tree all of whose locks become [x]. *)
Lemma shape_all : forall x t t', Rel anyR t t' -> All (fun l => l = x) t' -> Rel (fun _ l' => l' = x) t t'.
Proof.
  intros x. induction t as [lk ch IH] using dev_ind2. intros t' H H2. inversion H as [? ? ? ? ? F]; subst. inversion H2 as [? ? E2 F2]; subst. constructor; [reflexivity|].
  clear H H2. induction F; constructor; inversion IH; subst; inversion F2; subst; auto.
Qed.

(** Consistent trees: a locked device's sub-devices have the same lock. *)
Inductive consistent : dev -> Prop :=
  | cons_node : forall lk ch, (lk <> None -> Forall (fun c => d_lk c = lk) ch) -> Forall consistent ch -> consistent (Dev lk ch).
Lemma consistent_all : forall t h, consistent t -> d_lk t = Some h -> All (fun l => l = Some h) t.
Proof.
  induction t as [lk ch IH] using dev_ind2. intros h HC HL. cbn [d_lk] in HL. subst. inversion HC as [? ? C1 C2]; subst. constructor; [reflexivity|].
  specialize (C1 ltac:(discriminate)). rewrite Forall_forall in *. intros c Hc. apply IH; auto.
Qed.
Lemma all_consistent : forall x t, All (fun l => l = x) t -> consistent t.
Proof.
  intros x. induction t as [lk ch IH] using dev_ind2. intros HA. inversion HA as [? ? H1 H2]; subst. rewrite Forall_forall in *. constructor.
  - intros _. rewrite Forall_forall. intros c Hc. specialize (H2 c Hc). inversion H2; subst; reflexivity.
  - rewrite Forall_forall. intros c Hc. auto.
Qed.

Hypothesis Hcan : canonical val.
Lemma ptr_eq_can : forall a b, ptr_eq val a b = true -> a = b.
Proof.
  intros [a|] [b|] H; cbn [ptr_eq] in H; try discriminate; try reflexivity. apply user_equals_iff in H. f_equal. apply Hcan. exact H.
Qed.
Lemma ptr_eq_refl : forall a, ptr_eq val a a = true.
Proof. intros [a|]; [|reflexivity]. cbn. apply user_equals_iff. reflexivity. Qed.

(** Locking a tree wholly held by somebody else changes nothing. *)
Lemma lock_other : forall u h, ptr_eq val h (norm val u) = false -> forall n t, All (fun l => l = Some h) t -> lockD val n u t = (t, false).
Proof.
  intros u h HN. induction n as [|n IH]; intros [lk ch] HA; [reflexivity|]. inversion HA as [? ? H1 H2]; subst. rewrite lockD_S; cbv zeta.
  destruct ch as [|c ch]; cbn [until_fail].
  - unfold ul_lock. rewrite HN. reflexivity.
  - inversion H2; subst. rewrite IH by assumption. reflexivity.
Qed.
(** Unlocking a tree wholly held by the caller (or anonymously, or not at all) succeeds. *)
Lemma unlock_own : forall u x, x = None \/ x = Some None \/ x = Some (norm val u) -> forall n t, height t <= n -> All (fun l => l = x) t ->
  exists t', unlockD val n u false t = (t', true).
Proof.
  intros u x HX. induction n as [|n IH]; intros [lk ch] HH HA; [cbn [height] in HH; lia|]. inversion HA as [? ? H1 H2]; subst. rewrite unlockD_S; cbv zeta.
  assert (E : ul_unlock x u = (None, true)).
  { destruct HX as [->|[->| ->]]; try reflexivity. destruct u as [v|]; cbn [norm]; [|reflexivity]. destruct (isAnonymous val v); [reflexivity|].
    unfold ul_unlock, raw_eq. rewrite Nat.eqb_refl. reflexivity. }
  rewrite E. cbn [ul_isLocked]. destruct (until_fail_all (unlockD val n u false) ch) as (ch1 & k & ->); [|eauto].
  intros c Hc. rewrite Forall_forall in H2. apply IH; [|auto]. pose proof (height_child x ch c Hc). lia.
Qed.

(** Nothing is newly locked. *)
Definition nonew (l l' : lockst) : Prop := l' = l \/ l' = None.
Lemma nonew_refl : forall l, nonew l l. Proof. left. reflexivity. Qed.
Lemma nonew_all : forall t t', Rel (fun _ l' => l' = None) t t' -> Rel nonew t t'.
Proof.
  induction t as [lk ch IH] using dev_ind2. intros t' H. inversion H; subst. constructor; [right; reflexivity|].
  clear H. revert IH. match goal with F : Forall2 _ _ _ |- _ => induction F end; intros IH; constructor; inversion IH; subst; auto.
Qed.

Lemma until_fail_no : forall f cs cs' k, until_fail f cs = (cs', false, k) ->
  exists a c b a' c', cs = a ++ c :: b /\ cs' = a' ++ c' :: b /\ length a = k /\ Forall2 (fun x y => f x = (y, true)) a a' /\ f c = (c', false).
Proof.
  intros f. induction cs as [|c cs IH]; intros cs' k H; cbn [until_fail] in H; [discriminate|].
  destruct (f c) as [c' ok] eqn:E. destruct ok.
  - destruct (until_fail f cs) as [[r' ok'] n]. injection H as <- -> <-. destruct (IH r' n eq_refl) as (a & x & b & a' & x' & -> & -> & H1 & H2 & H3).
    exists (c :: a), x, b, (c' :: a'), x'. repeat split; auto. cbn. congruence.
  - injection H as <- <-. exists [], c, cs, [], c'. repeat split; auto.
Qed.
(** revert over a prefix on which every step succeeds *)
Lemma revert_prefix : forall f doLock a b sts sb, length sts = length a -> (forall s c, In (s, c) (combine sts a) -> Bool.eqb s doLock = true -> exists c', f c = (c', true)) ->
  exists a', revert (length a) (sts ++ sb) doLock f (a ++ b) = (a' ++ b, true) /\
    Forall2 (fun sc c' => if Bool.eqb (fst sc) doLock then f (snd sc) = (c', true) else c' = snd sc) (combine sts a) a'.
Proof.
  intros f doLock. induction a as [|c a IH]; intros b sts sb HL HS.
  - exists []. destruct sts; [|discriminate]. split; [destruct sb; reflexivity|constructor].
  - destruct sts as [|s sts]; [discriminate|]. cbn [length app revert combine] in *. injection HL as HL.
    destruct (IH b sts sb HL) as (a' & -> & HF); [intros; eapply HS; eauto; right; eassumption|].
    destruct (Bool.eqb s doLock) eqn:E.
    + destruct (HS s c (or_introl eq_refl) E) as (c' & Hc). rewrite Hc. exists (c' :: a'). split; [reflexivity|]. constructor; [|exact HF]. cbn [fst snd]. rewrite E. exact Hc.
    + exists (c :: a'). split; [reflexivity|]. constructor; [|exact HF]. cbn [fst snd]. rewrite E. reflexivity.
Qed.

Lemma Forall2_in_l : forall {A B} (P : A -> B -> Prop) l l' x, Forall2 P l l' -> In x l -> exists y, P x y.
Proof. intros A B P l l' x F. induction F; intros HI; [contradiction|]. destruct HI as [->|HI]; eauto. Qed.

(** What the devices before the failing one look like after a failed lock has been reverted. *)
Lemma revert_lock_prefix : forall n u a a1 a2,
  Forall consistent a -> (forall c, In c a -> height c <= n) ->
  Forall2 (fun x y => lockD val n u x = (y, true)) a a1 ->
  Forall2 (fun sc c' => if Bool.eqb (fst sc) false then unlockD val n u false (snd sc) = (c', true) else c' = snd sc) (combine (map d_locked a) a1) a2 ->
  Forall2 (fun x y => Rel nonew x y /\ consistent y) a a2.
Proof.
  intros n u a a1 a2 HC HH H1. revert a2. induction H1 as [|x y a a1 Hxy H1 IH]; intros a2 H2; cbn [map combine] in H2; inversion H2; subst; constructor.
  - cbn [fst snd] in *. inversion HC; subst. pose proof (lock_success_all _ _ _ _ Hxy) as AY.
    pose proof (shape_lock n u x) as SX. rewrite Hxy in SX. cbn [fst] in SX.
    destruct (d_locked x) eqn:Ex; cbn [Bool.eqb] in *.
    + subst. assert (E : x = y).
      { unfold d_locked in Ex. destruct (d_lk x) as [h|] eqn:EL; [|discriminate].
        pose proof (lock_success_free _ _ _ _ Hxy) as FX. assert (h = norm val u). { destruct x as [lk chx]. cbn in EL. subst. inversion FX; subst. apply ptr_eq_can. assumption. }
        subst h. eapply shape_eq; [exact SX| |exact AY]. apply consistent_all; assumption. }
      subst. split; [apply Rel_refl; apply nonew_refl|]. eapply all_consistent. exact AY.
    + assert (AN : All (fun l => l = None) y0) by (eapply unlock_success_all; eassumption). split; [|eapply all_consistent; exact AN].
      apply nonew_all. apply shape_all; [|exact AN]. eapply Rel_trans; [unfold anyR; auto|exact SX|]. pose proof (shape_unlock n u false y) as SY. rewrite H3 in SY. exact SY.
  - inversion HC; subst. apply IH; auto. intros c Hc. apply HH. right. exact Hc.
Qed.

Lemma all_imp : forall (P Q : lockst -> Prop) t, (forall l, P l -> Q l) -> All P t -> All Q t.
Proof.
  intros P Q t HPQ. induction t as [lk ch IH] using dev_ind2. intros HA. inversion HA as [? ? H1 H2]; subst. constructor; [auto|].
  rewrite Forall_forall in *. auto.
Qed.
Lemma lock_fail : forall u n t t', height t <= n -> consistent t -> lockD val n u t = (t', false) -> Rel nonew t t' /\ consistent t' /\ d_lk t' = d_lk t.
Proof.
  intros u. induction n as [|n IH]; intros t t' HH HC H; [injection H as <-; split; [apply Rel_refl, nonew_refl|auto]|].
  destruct t as [lk ch]. destruct lk as [h|].
  - pose proof (consistent_all _ h HC eq_refl) as HA. destruct (ptr_eq val h (norm val u)) eqn:E.
    + exfalso. destruct (lock_free u (S n) (Dev (Some h) ch) HH) as (t1 & H1); [|congruence].
      eapply all_imp; [|exact HA]. intros l ->. exact E.
    + rewrite (lock_other u h E (S n) _ HA) in H. injection H as <-. split; [apply Rel_refl, nonew_refl|auto].
  - inversion HC as [? ? C1 C2]; subst. rewrite lockD_S in H; cbv zeta in H. destruct (until_fail (lockD val n u) ch) as [[ch1 ok] k] eqn:E. destruct ok; [discriminate|].
    apply until_fail_no in E. destruct E as (a & c & b & a1 & c' & -> & -> & <- & H1 & H2).
    apply Forall_app in C2. destruct C2 as [Ca Cb]. inversion Cb as [|? ? Cc Cb']; subst.
    assert (HHc : forall x, In x (a ++ c :: b) -> height x <= n) by (intros x Hx; pose proof (height_child None _ x Hx); lia).
    rewrite map_app in H. cbn [map] in H.
    assert (HP : forall s x, In (s, x) (combine (map d_locked a) a1) -> Bool.eqb s false = true -> exists x', unlockD val n u (ul_isLocked None) x = (x', true)).
    { intros s x Hx _. apply in_combine_r in Hx. apply (unlock_own u (Some (norm val u))); [auto| |].
      - clear - H1 Hx HHc. revert HHc. induction H1 as [|p q a a1 Hpq H1 IH]; intros HHc; [contradiction|]. destruct Hx as [->|Hx].
        + pose proof (shape_lock n u p) as S. rewrite Hpq in S. cbn [fst] in S. rewrite <- (shape_height _ _ S). apply HHc. left. reflexivity.
        + apply IH; [exact Hx|]. intros z Hz. apply HHc. right. exact Hz.
      - clear - H1 Hx. induction H1 as [|p q a a1 Hpq H1 IH]; [contradiction|]. destruct Hx as [->|Hx]; [eapply lock_success_all; exact Hpq|auto]. }
    assert (LA : length a = length a1) by (clear - H1; induction H1; cbn; congruence).
    destruct (revert_prefix (unlockD val n u (ul_isLocked None)) false a1 (c' :: b) (map d_locked a) (d_locked c :: map d_locked b) ltac:(rewrite map_length; exact LA) HP) as (a2 & ER & EF).
    rewrite LA in H. rewrite ER in H. injection H as <-.
    destruct (IH c c' (HHc c ltac:(apply in_or_app; right; left; reflexivity)) Cc H2) as (R1 & R2 & _).
    pose proof (revert_lock_prefix n u a a1 a2 Ca (fun x Hx => HHc x (in_or_app _ _ _ (or_introl Hx))) H1 EF) as RP.
    assert (RP1 : Forall2 (Rel nonew) a a2) by (clear - RP; induction RP as [|? ? ? ? [? ?]]; constructor; auto).
    assert (RP2 : Forall consistent a2) by (clear - RP; induction RP as [|? ? ? ? [? ?]]; constructor; auto).
    split; [|split; [|reflexivity]].
    + constructor; [apply nonew_refl|]. apply Forall2_app; [exact RP1|]. constructor; [exact R1|]. apply Forall2_refl_rel. apply nonew_refl.
    + constructor; [congruence|]. apply Forall_app. split; [exact RP2|]. constructor; assumption.
Qed.
Lemma lock_consistent : forall u n t, height t <= n -> consistent t -> consistent (fst (lockD val n u t)) /\ (d_lk t <> None -> d_lk (fst (lockD val n u t)) = d_lk t).
Proof.
  intros u n t HH HC. destruct (lockD val n u t) as [t' ok] eqn:E. cbn [fst]. destruct ok.
  - pose proof (lock_success_all _ _ _ _ E) as AA. split; [eapply all_consistent; exact AA|]. intros HN. destruct (d_lk t) as [h|] eqn:EL; [|congruence].
    pose proof (lock_success_free _ _ _ _ E) as FX. destruct t as [lk ch]. cbn in EL. subst. inversion FX as [? ? F1 F2]; subst. cbn in F1. apply ptr_eq_can in F1. subst.
    inversion AA; subst. reflexivity.
  - destruct (lock_fail u n t t' HH HC E) as (_ & H1 & H2). auto.
Qed.

Lemma unlock_consistent : forall u n b t, height t <= n -> consistent t -> consistent (fst (unlockD val n u b t)).
Proof.
  intros u. induction n as [|n IH]; intros b t HH HC; [exact HC|]. destruct t as [lk ch]. rewrite unlockD_S; cbv zeta. destruct b; [exact HC|].
  destruct (ul_unlock lk u) as [lk' r] eqn:EU. destruct r; [|exact HC].
  assert (lk' = None) by (unfold ul_unlock in EU; destruct lk as [[x|]|]; [destruct (raw_eq (Some x) u)|..]; congruence). subst lk'. cbn [ul_isLocked].
  inversion HC as [? ? C1 C2]; subst.
  assert (HHc : forall x, In x ch -> height x <= n) by (intros x Hx; pose proof (height_child lk _ x Hx); lia).
  destruct (until_fail (unlockD val n u false) ch) as [[ch1 ok] k] eqn:E. destruct ok; cbn [fst].
  - apply until_fail_ok in E. destruct E as [E _]. constructor; [congruence|]. eapply Forall2_Forall_r; [exact E|]. intros p q Hpq. eapply all_consistent. eapply unlock_success_all. exact Hpq.
  - apply until_fail_no in E. destruct E as (a & c & b & a1 & c' & -> & -> & <- & H1 & H2).
    apply Forall_app in C2. destruct C2 as [Ca Cb]. inversion Cb as [|? ? Cc Cb']; subst.
    rewrite map_app. cbn [map].
    assert (LA : length a = length a1) by (clear - H1; induction H1; cbn; congruence).
    assert (HP : forall s x, In (s, x) (combine (map d_locked a) a1) -> Bool.eqb s true = true -> exists x', lockD val n u x = (x', true)).
    { intros s x Hx _. apply in_combine_r in Hx. apply lock_free.
      - clear - H1 Hx HHc. revert HHc. induction H1 as [|p q a a1 Hpq H1 IH]; intros HHc; [contradiction|]. destruct Hx as [->|Hx].
        + pose proof (shape_unlock n u false p) as S. rewrite Hpq in S. cbn [fst] in S. rewrite <- (shape_height _ _ S). apply HHc. left. reflexivity.
        + apply IH; [exact Hx|]. intros z Hz. apply HHc. right. exact Hz.
      - clear - H1 Hx. induction H1 as [|p q a a1 Hpq H1 IH]; [contradiction|]. destruct Hx as [->|Hx]; [|auto].
        eapply all_imp; [|eapply unlock_success_all; exact Hpq]. intros l ->. exact Logic.I. }
    destruct (revert_prefix (lockD val n u) true a1 (c' :: b) (map d_locked a) (d_locked c :: map d_locked b) ltac:(rewrite map_length; exact LA) HP) as (a2 & ER & EF).
    rewrite LA, ER. cbn [fst]. constructor; [congruence|]. apply Forall_app. split; [|constructor; [|assumption]].
    + clear - EF H1. revert a2 EF. induction H1 as [|p q a a1 Hpq H1 IH]; intros a2 EF; cbn [map combine] in EF; inversion EF; subst; constructor; [|auto].
      cbn [fst snd] in *. destruct (d_locked p); cbn [Bool.eqb] in *.
      * eapply all_consistent. eapply lock_success_all. eassumption.
      * subst. eapply all_consistent. eapply unlock_success_all. exact Hpq.
    + specialize (IH false c (HHc c ltac:(apply in_or_app; right; left; reflexivity)) Cc). rewrite H2 in IH. exact IH.
Qed.
Lemma force_consistent : forall b t, consistent t -> consistent (fst (forceD b t)).
Proof.
  intros b t HC. destruct (forceD b t) as [t' r] eqn:E. cbn [fst]. destruct b.
  - destruct t as [lk ch]. cbn [forceD] in E. injection E as <- <-. exact HC.
  - pose proof (force_ok t) as X. rewrite E in X. cbn in X. subst. eapply all_consistent. eapply force_success_all. exact E.
Qed.

Definition noadd (c : call) : Prop := match c with CAdd _ => False | _ => True end.
Lemma docall_consistent : forall c b t, noadd c -> consistent t -> (b = true -> d_lk t <> None) ->
  consistent (fst (docall val c b t)) /\ (b = true -> d_lk (fst (docall val c b t)) = d_lk t).
Proof.
  intros [u|u| |d] b t HN HC HB; cbn [docall]; [| | |contradiction].
  - destruct (lock_consistent u (height t) t (le_n _) HC) as [A B]. split; [exact A|]. auto.
  - split; [apply unlock_consistent; auto|]. intros ->. destruct t as [lk ch]. reflexivity.
  - split; [apply force_consistent; exact HC|]. intros ->. destruct t as [lk ch]. reflexivity.
Qed.
Lemma in_set_nth : forall {A} i (x : A) l y, In y (set_nth i x l) -> y = x \/ In y l.
Proof. induction i as [|i IH]; intros x [|z l] y H; cbn [set_nth] in H; try contradiction; destruct H as [<-|H]; auto; [right; right; exact H|right; left; reflexivity|]. destruct (IH _ _ _ H); [left; assumption|right; right; assumption]. Qed.
Lemma at_path_consistent : forall c, noadd c -> forall p b t, consistent t -> (b = true -> d_lk t <> None) ->
  consistent (fst (at_path val p c b t)) /\ (b = true -> d_lk (fst (at_path val p c b t)) = d_lk t).
Proof.
  intros c HN. induction p as [|i p IH]; intros b t HC HB; cbn [at_path]; [apply docall_consistent; assumption|].
  destruct t as [lk ch]. destruct (nth_error ch i) as [d|] eqn:E; [|auto]. inversion HC as [? ? C1 C2]; subst.
  pose proof (nth_error_In _ _ E) as Hd. rewrite Forall_forall in C2.
  destruct (IH (ul_isLocked lk) d (C2 d Hd)) as [A B].
  { intros HL. destruct lk as [h|]; [|discriminate]. specialize (C1 ltac:(discriminate)). rewrite Forall_forall in C1. rewrite (C1 d Hd). discriminate. }
  destruct (at_path val p c (ul_isLocked lk) d) as [d' r]. cbn [fst] in *. split; [|reflexivity]. constructor.
  - intros HL. specialize (C1 HL). rewrite Forall_forall in *. intros x Hx. apply in_set_nth in Hx. destruct Hx as [->|Hx]; [|auto].
    rewrite B; [auto|]. destruct lk; [reflexivity|congruence].
  - rewrite Forall_forall. intros x Hx. apply in_set_nth in Hx. destruct Hx as [->|Hx]; auto.
Qed.
Lemma run_consistent : forall ops t, (forall o, In o ops -> noadd (snd o)) -> consistent t -> consistent (run val t ops).
Proof.
  induction ops as [|o ops IH]; intros t HN HC; [exact HC|]. apply IH; [intros; apply HN; right; assumption|].
  apply at_path_consistent; [apply HN; left; reflexivity|exact HC|discriminate].
Qed.
End U.
