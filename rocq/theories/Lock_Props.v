(** C11. *)
From Verif Require Import Base Lock_Model Lock_Spec Lock_Proofs.

(** C11: a lock held by a named user stays theirs through any calls of anybody else, on this device, its
    parents or its sub-devices, successful or not, until somebody forces it open. *)
Theorem c11_held_until_released : forall val v ops t p,
  (forall o, In o ops -> not_by val v (snd o)) -> held val v p t -> held val v p (run val t ops).
Proof. exact others_keep. Qed.

Lemma norm_holds : forall val u p t d, device_at p t = Some d -> d_lk d = Some (norm val u) -> holds_as val u p t.
Proof.
  intros val [u|] p t d HD HL; cbn [norm holds_as] in *; [|exists d; auto].
  destruct (isAnonymous val u) eqn:E.
  - left. split; [apply anonymous_iff; exact E|exists d; auto].
  - right. split; [rewrite <- anonymous_iff; congruence|]. exists d, u. split; [exact HD|]. split; [exact HL|reflexivity].
Qed.

(** C11: a successful lock leaves the caller holding the device and every sub-device. *)
Theorem c11_lock_takes_whole_tree : forall val u t t', docall val (CLock u) false t = (t', true) ->
  forall p, is_device p t' -> holds_as val u p t'.
Proof.
  intros val u t t' H p HP. cbn [docall] in H. pose proof (lock_success_all val u _ _ _ H) as HA. rewrite All_at in HA.
  unfold is_device in HP. destruct (device_at p t') as [d|] eqn:E; [|congruence]. eapply norm_holds; [exact E|]. apply (HA p d E).
Qed.

(** C11: locking succeeds exactly when every device of the tree is unlocked or already the caller's. *)
Theorem c11_lock_succeeds_iff : forall val u t,
  snd (docall val (CLock u) false t) = true <-> (forall p, is_device p t -> unlocked p t \/ holds_as val u p t).
Proof.
  intros val u t. cbn [docall]. split.
  - intros H p HP. destruct (lockD val (height t) u t) as [t' r] eqn:E. cbn in H. subst. apply lock_success_free in E. rewrite All_at in E.
    unfold is_device in HP. destruct (device_at p t) as [d|] eqn:ED; [|congruence]. specialize (E p d ED). unfold freeFor in E.
    destruct (d_lk d) as [h|] eqn:EL; [|left; exists d; auto]. right. destruct u as [u|]; cbn [norm holds_as] in *.
    + destruct (isAnonymous val u) eqn:EA; destruct h as [h|]; cbn [ptr_eq] in E; try discriminate.
      * left. split; [apply anonymous_iff; exact EA|exists d; auto].
      * right. split; [rewrite <- anonymous_iff; congruence|]. exists d, h. split; [exact ED|]. split; [exact EL|apply user_equals_iff; exact E].
    + destruct h; [discriminate|]. exists d; auto.
  - intros H. destruct (lock_free val u (height t) t (le_n _)) as (t' & ->); [|reflexivity]. apply All_at. intros p d ED.
    destruct (H p ltac:(unfold is_device; congruence)) as [(d' & E1 & E2)|HH].
    + rewrite ED in E1. injection E1 as <-. unfold freeFor. rewrite E2. exact Logic.I.
    + unfold freeFor. destruct u as [u|]; cbn [norm holds_as] in *.
      * destruct HH as [[HA (d' & E1 & E2)]|[HA (d' & h & E1 & E2 & E3)]]; rewrite ED in E1; injection E1 as <-; rewrite E2.
        -- apply anonymous_iff in HA. rewrite HA. reflexivity.
        -- destruct (isAnonymous val u) eqn:EA; [apply anonymous_iff in EA; contradiction|]. cbn [ptr_eq]. apply user_equals_iff. exact E3.
      * destruct HH as (d' & E1 & E2). rewrite ED in E1. injection E1 as <-. rewrite E2. reflexivity.
Qed.

(** C11: a successful unlock or forced unlock leaves the device and all its sub-devices unlocked. *)
Theorem c11_unlock_releases_whole_tree : forall val c b t t', (exists u, c = CUnlock u) \/ c = CForce ->
  docall val c b t = (t', true) -> all_unlocked t'.
Proof.
  intros val c b t t' HC H p HP. unfold is_device in HP. destruct (device_at p t') as [d|] eqn:E; [|congruence]. exists d. split; [exact E|].
  destruct HC as [[u ->]| ->]; cbn [docall] in H.
  - apply unlock_success_all in H. rewrite All_at in H. apply (H p d E).
  - apply force_success_all in H. rewrite All_at in H. apply (H p d E).
Qed.

(** C11: a device below a locked device cannot be unlocked on its own; the attempt changes nothing. *)
Theorem c11_no_unlock_below_locked : forall val c t, (exists u, c = CUnlock u) \/ c = CForce ->
  docall val c true t = (t, false).
Proof. intros val c [lk ch] [[u ->]| ->]; cbn [docall]; reflexivity. Qed.

Lemma nonew_spec : forall val t t', Rel nonew t t' -> nothing_newly_locked val t t'.
Proof.
  intros val t t' HR.
  assert (X : forall p d', device_at p t' = Some d' -> exists d, device_at p t = Some d /\ nonew (d_lk d) (d_lk d')).
  { intros p. revert t t' HR. induction p as [|i p IH]; intros t t' HR d' HD; cbn [device_at] in *.
    - injection HD as <-. exists t. split; [reflexivity|apply Rel_lk; exact HR].
    - inversion HR as [lk lk' ch ch' R1 F]; subst. cbn [d_ch] in *. destruct (nth_error ch' i) as [c'|] eqn:E; [|discriminate].
      assert (Y : exists c, nth_error ch i = Some c /\ Rel nonew c c').
      { clear - F E. revert i E. induction F; intros [|i] E; cbn in *; try discriminate; [injection E as <-; eauto|eauto]. }
      destruct Y as (c & EC & RC). rewrite EC. eapply IH; eauto. }
  split.
  - intros v p (d' & h & H1 & H2 & H3). destruct (X p d' H1) as (d & E & [N|N]); [|congruence]. exists d, h. rewrite <- N. auto.
  - intros p (d' & H1 & H2). destruct (X p d' H1) as (d & E & [N|N]); [|congruence]. exists d. rewrite <- N. auto.
Qed.

Lemma lock_at_nonew : forall val u, canonical val -> forall p b t t', consistent t -> at_path val p (CLock u) b t = (t', false) -> Rel nonew t t'.
Proof.
  intros val u HC. induction p as [|i p IH]; intros b t t' HT H; cbn [at_path docall] in H.
  - eapply lock_fail; eauto.
  - destruct t as [lk ch]. destruct (nth_error ch i) as [d|] eqn:E; [|injection H as <-; apply Rel_refl, nonew_refl].
    destruct (at_path val p (CLock u) (ul_isLocked lk) d) as [d' r] eqn:EA. injection H as <- ->. inversion HT as [? ? C1 C2]; subst.
    rewrite Forall_forall in C2. specialize (IH _ _ _ (C2 d (nth_error_In _ _ E)) EA). constructor; [apply nonew_refl|].
    clear - IH E. revert i E. induction ch as [|x ch IHc]; intros [|i] E; cbn in *; try discriminate.
    + injection E as ->. constructor; [exact IH|]. apply Forall2_refl_rel, nonew_refl.
    + constructor; [apply Rel_refl, nonew_refl|apply IHc; exact E].
Qed.

Lemma unlocked_consistent : forall t, all_unlocked t -> consistent t.
Proof.
  intros t H. apply (all_consistent None). apply All_at. intros p d E. destruct (H p ltac:(unfold is_device; congruence)) as (d' & E1 & E2). congruence.
Qed.

(** C11 (partial): in a fixed tree of devices, a failed lock leaves nothing newly locked. Missing for the full
    property (a failed call changes nothing): see the refutations below. *)
Theorem c11_failed_lock_leaves_nothing_locked_partial : forall val t0 ops p u, canonical val -> all_unlocked t0 -> fixed_tree ops ->
  let s := run val t0 ops in
  snd (at_path val p (CLock u) false s) = false -> nothing_newly_locked val s (fst (at_path val p (CLock u) false s)).
Proof.
  intros val t0 ops p u HC H0 HF. cbv zeta. intros H.
  assert (HS : consistent (run val t0 ops)).
  { apply run_consistent; [exact HC| |apply unlocked_consistent; exact H0]. intros o Ho. specialize (HF o Ho). destruct (snd o); exact HF. }
  revert H HS. generalize (run val t0 ops). intros s H HS. destruct (at_path val p (CLock u) false s) as [s' r] eqn:E. cbn in *. subst.
  apply nonew_spec. eapply lock_at_nonew; eauto.
Qed.

(** C11: saving and restoring a lock keeps its holder when the authentication provider knows them. *)
Theorem c11_restore_keeps_holder : forall val find s,
  (forall h, s = Some (Some h) -> ~ anonymous val h /\ exists x, find (u_name (val h)) = Some x /\ same_user val x h) ->
  match s, ul_restore val find (ul_save val s) with
  | None, None => True
  | Some None, Some None => True
  | Some (Some h), Some (Some h') => same_user val h' h
  | _, _ => False
  end.
Proof.
  intros val find [[h|]|] H; cbn; try exact Logic.I. destruct (H h eq_refl) as (HN & x & E & HS). rewrite E. cbn.
  assert (EA : isAnonymous val x = false).
  { destruct (isAnonymous val x) eqn:EA; [|reflexivity]. exfalso. apply HN. apply anonymous_iff in EA. unfold anonymous, same_user in *. rewrite <- HS. exact EA. }
  rewrite EA. exact HS.
Qed.

(** Users of the examples: user [n] is named [n]; user 9 is another object for user 5. *)
Definition ex_val (u : user) : uvalue := {| u_name := if u =? 9 then 5 else u; u_hash := 0; u_groups := [] |}.
Definition leaf : dev := Dev None [].
Definition ex_tree : dev := Dev None [Dev None [leaf]; leaf].

(** Findings. *)
(** A failing unlock re-locks an anonymously locked sub-device in the caller's name. *)
Theorem c11_failed_unlock_takes_anonymous_lock_refuted :
  exists val t ops p u q, canonical val /\ all_unlocked t /\ fixed_tree ops /\ snd (at_path val p (CUnlock (Some u)) false (run val t ops)) = false /\
    held_anonymously q (run val t ops) /\ held val u q (fst (at_path val p (CUnlock (Some u)) false (run val t ops))).
Proof.
  exists (fun u => {| u_name := u; u_hash := 0; u_groups := [] |}), ex_tree, [([0], CLock None); ([1], CLock (Some 5))], [], 7, [0].
  split; [intros a b H; injection H as ->; reflexivity|].
  split.
  { intros p HP. unfold is_device in HP. destruct p as [|[|[|i]] [|[|j] [|[|k] p]]]; cbn in *; try (eexists; split; [reflexivity|reflexivity]); try congruence;
    try (destruct i; cbn in *; congruence); try (destruct j; cbn in *; congruence). }
  split; [intros o [<-|[<-|[]]]; exact Logic.I|]. vm_compute. split; [reflexivity|]. split; [eexists; split; reflexivity|].
  eexists. eexists. split; [reflexivity|]. split; reflexivity.
Qed.
(** A failing lock releases locks the caller held deeper in the tree. *)
Theorem c11_failed_lock_drops_own_locks_refuted :
  exists val t ops u q, snd (at_path val [] (CLock (Some u)) false (run val t ops)) = false /\ fixed_tree ops /\
    held val u q (run val t ops) /\ unlocked q (fst (at_path val [] (CLock (Some u)) false (run val t ops))).
Proof.
  exists ex_val, ex_tree, [([0; 0], CLock (Some 7)); ([1], CLock (Some 5))], 7, [0; 0]. vm_compute. split; [reflexivity|].
  split; [intros o [<-|[<-|[]]]; exact Logic.I|]. split.
  - eexists. eexists. split; [reflexivity|]. split; reflexivity.
  - eexists. split; reflexivity.
Qed.
(** When a sub-device is added below a locked device, a failing lock leaves it locked by the caller. *)
Theorem c11_failed_lock_leaves_subdevice_locked_refuted :
  exists val t ops u q, snd (at_path val [] (CLock (Some u)) false (run val t ops)) = false /\
    unlocked q (run val t ops) /\ held val u q (fst (at_path val [] (CLock (Some u)) false (run val t ops))).
Proof.
  exists ex_val, leaf, [([], CLock (Some 5)); ([], CAdd leaf)], 7, [0]. vm_compute. split; [reflexivity|]. split; [eexists; split; reflexivity|].
  eexists. eexists. split; [reflexivity|]. split; reflexivity.
Qed.
(** A failing unlock leaves the device itself unlocked. *)
Theorem c11_failed_unlock_unlocks_refuted :
  exists val t ops u, snd (at_path val [] (CUnlock (Some u)) false (run val t ops)) = false /\
    held val u [] (run val t ops) /\ unlocked [] (fst (at_path val [] (CUnlock (Some u)) false (run val t ops))).
Proof.
  exists ex_val, leaf, [([], CLock (Some 5)); ([], CAdd leaf); ([0], CLock (Some 7))], 5. vm_compute. split; [reflexivity|]. split.
  - eexists. eexists. split; [reflexivity|]. split; reflexivity.
  - eexists. split; reflexivity.
Qed.
(** The same user represented by another object may lock again but not unlock. *)
Theorem c11_same_user_cannot_unlock_refuted :
  exists val t ops u v, same_user val u v /\ held val u [] (run val t ops) /\
    snd (at_path val [] (CLock (Some v)) false (run val t ops)) = true /\ snd (at_path val [] (CUnlock (Some v)) false (run val t ops)) = false.
Proof.
  exists ex_val, leaf, [([], CLock (Some 5))], 5, 9. vm_compute. split; [reflexivity|]. split; [|auto].
  eexists. eexists. split; [reflexivity|]. split; reflexivity.
Qed.
(** Restoring a lock of a user the provider does not know makes it an anonymous lock that anybody can release. *)
Theorem c11_restore_unknown_user_refuted :
  exists val find h, ~ anonymous val h /\ ul_restore val find (ul_save val (Some (Some h))) = Some None.
Proof. exists ex_val, (fun _ => None), 5. split; [intros [H _]; discriminate|reflexivity]. Qed.

(** Non-vacuity *)
Example ex_canonical : canonical (fun u => {| u_name := u; u_hash := 0; u_groups := [] |}).
Proof. intros a b H. injection H as ->. reflexivity. Qed.
Example ex_held : held ex_val 5 [1] (run ex_val ex_tree [([1], CLock (Some 5)); ([], CLock (Some 7)); ([1], CUnlock (Some 7))]).
Proof. vm_compute. eexists. eexists. split; [reflexivity|]. split; reflexivity. Qed.
Example ex_lock_all : docall ex_val (CLock (Some 5)) false ex_tree = (Dev (Some (Some 5)) [Dev (Some (Some 5)) [Dev (Some (Some 5)) []]; Dev (Some (Some 5)) []], true).
Proof. vm_compute. reflexivity. Qed.

Print Assumptions c11_held_until_released.
Print Assumptions c11_lock_takes_whole_tree.
Print Assumptions c11_lock_succeeds_iff.
Print Assumptions c11_unlock_releases_whole_tree.
Print Assumptions c11_no_unlock_below_locked.
Print Assumptions c11_failed_lock_leaves_nothing_locked_partial.
Print Assumptions c11_restore_keeps_holder.
Print Assumptions c11_failed_unlock_takes_anonymous_lock_refuted.
Print Assumptions c11_failed_lock_drops_own_locks_refuted.
Print Assumptions c11_failed_lock_leaves_subdevice_locked_refuted.
Print Assumptions c11_failed_unlock_unlocks_refuted.
Print Assumptions c11_same_user_cannot_unlock_refuted.
Print Assumptions c11_restore_unknown_user_refuted.
