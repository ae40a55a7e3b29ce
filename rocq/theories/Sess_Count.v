(** The counters of the server count the configuring clients; the limit and the exclusion. *)
From Verif Require Import Base Sess_Model Sess_Spec Sess_Proofs.
Local Open Scope Z_scope.

Definition cnt (f : handler -> bool) (m : list (cid * handler)) : nat := length (filter f (map snd m)).
Definition bit (b : bool) : nat := if b then 1%nat else 0%nat.

Lemma cnt_cons : forall f e m, cnt f (e :: m) = (bit (f (snd e)) + cnt f m)%nat.
Proof. intros f e m. unfold cnt. cbn [map filter]. destruct (f (snd e)); reflexivity. Qed.
Lemma cnt_app : forall f a b, cnt f (a ++ b) = (cnt f a + cnt f b)%nat.
Proof. intros f a b. unfold cnt. rewrite map_app, filter_app, app_length. reflexivity. Qed.
Lemma cnt_le : forall f m, (cnt f m <= length m)%nat.
Proof.
  intros f m. induction m as [|e t IH]; [apply le_n|]. rewrite cnt_cons. cbn [length].
  destruct (f (snd e)); cbn [bit]; lia.
Qed.
Lemma cnt_pos : forall f m, (0 < cnt f m)%nat <-> exists e, In e m /\ f (snd e) = true.
Proof.
  intros f m. induction m as [|e t IH].
  - split; [intro H; inversion H|intros [e [[] _]]].
  - rewrite cnt_cons. destruct (f (snd e)) eqn:E; cbn [bit].
    + split; [|lia]. intros _. exists e. split; [left; reflexivity|exact E].
    + rewrite Nat.add_0_l, IH. split; intros [x [A B]]; exists x.
      * split; [right; exact A|exact B].
      * destruct A as [A|A]; [congruence|]. split; assumption.
Qed.
Lemma cnt_without : forall f m i h, NoDup (map sessOf m) -> In (i, h) m ->
  cnt f m = (bit (f h) + cnt f (without (h_sess h) m))%nat.
Proof.
  intros f m i h. induction m as [|e t IH]; intros N H; [destruct H|].
  cbn [map] in N. inversion N as [|? ? NE NT]; subst.
  unfold without. cbn [filter]. destruct H as [H|H].
  - subst e. unfold sessOf at 1. cbn [snd]. rewrite Nat.eqb_refl. cbn [negb]. rewrite cnt_cons. cbn [snd]. f_equal. f_equal.
    symmetry. apply without_none. intros x X K. apply NE. unfold sessOf at 1. cbn [snd]. rewrite <- K. apply in_map. exact X.
  - assert (Nat.eqb (sessOf e) (h_sess h) = false) as E.
    { apply Nat.eqb_neq. intro K. apply NE. rewrite K. apply in_map_iff. exists (i, h). split; [reflexivity|exact H]. }
    rewrite E. cbn [negb]. rewrite !cnt_cons. specialize (IH NT H). unfold without in IH. lia.
Qed.
Lemma cnt_onSession : forall f g m i h, NoDup (map sessOf m) -> In (i, h) m ->
  (cnt f (onSession (h_sess h) g m) + bit (f h) = cnt f m + bit (f (g h)))%nat.
Proof.
  intros f g m i h. induction m as [|e t IH]; intros N H; [destruct H|].
  cbn [map] in N. inversion N as [|? ? NE NT]; subst.
  unfold onSession. cbn [map]. destruct H as [H|H].
  - subst e. cbn [snd fst]. rewrite Nat.eqb_refl. rewrite !cnt_cons. cbn [snd].
    assert (onSession (h_sess h) g t = t) as E.
    { apply onSession_other. intros x X K. apply NE. unfold sessOf at 1. cbn [snd]. rewrite <- K. apply in_map. exact X. }
    unfold onSession in E. rewrite E. lia.
  - assert (Nat.eqb (h_sess (snd e)) (h_sess h) = false) as E.
    { apply Nat.eqb_neq. intro K. apply NE. apply in_map_iff. exists (i, h). split; [unfold sessOf; cbn [snd]; congruence|exact H]. }
    rewrite E. rewrite !cnt_cons. specialize (IH NT H). unfold onSession in IH. lia.
Qed.
Lemma cnt_moved : forall f m i h j again, NoDup (map sessOf m) -> In (i, h) m ->
  f (setIdentity j again h) = f h -> cnt f (moved m h j again) = cnt f m.
Proof.
  intros f m i h j again N H E. unfold moved. rewrite cnt_app, cnt_cons. cbn [snd]. rewrite E.
  rewrite (cnt_without f m i h N H). unfold cnt at 2. cbn [map filter length]. lia.
Qed.

Lemma nodup_below : forall l n, NoDup l -> (forall x, In x l -> (x < n)%nat) -> (length l <= n)%nat.
Proof.
  intros l n N B. rewrite <- (seq_length n 0). apply NoDup_incl_length; [exact N|].
  intros x H. apply in_seq. specialize (B x H). lia.
Qed.
Lemma clients_below : forall sv, Wf sv -> (length (sv_map sv) <= sv_next sv)%nat.
Proof.
  intros sv W. rewrite <- (map_length sessOf). apply nodup_below; [exact (wf_sess sv W)|].
  intros x H. apply in_map_iff in H. destruct H as [e [E H]]. subst x. exact (wf_old sv W e H).
Qed.

(** ** The three counters *)
Definition fctl (h : handler) : bool := h_used h && ctype_eqb (h_type h) Control.
Definition fexc (h : handler) : bool := h_used h && ctype_eqb (h_type h) Exclusive.

Definition tracks (c : Z) (f : handler -> bool) (sv : server) : Prop := c = w64 (Z.of_nat (cnt f (sv_map sv))).

Record Counts (sv : server) : Prop := {
  ct_ctl : tracks (sv_ctl sv) fctl sv;
  ct_exc : tracks (sv_exc sv) fexc sv }.

Lemma configuring_cnt : forall sv, length (configuring sv) = cnt h_used (sv_map sv).
Proof. reflexivity. Qed.

Lemma release_counts : forall sv h, Wf sv -> In (h_id h, h) (sv_map sv) ->
  sv_cfg (release sv (h_sess h)) = (if h_used h then w64 (sv_cfg sv - 1) else sv_cfg sv) /\
  sv_ctl (release sv (h_sess h)) = (if fctl h then w64 (sv_ctl sv - 1) else sv_ctl sv) /\
  sv_exc (release sv (h_sess h)) = (if fexc h then w64 (sv_exc sv - 1) else sv_exc sv).
Proof.
  intros sv h W H. unfold release. rewrite (in_findSession _ _ _ (wf_sess sv W) H). cbv zeta.
  unfold fctl, fexc, countOut, clientDisconnected. destruct (h_used h); cbn [andb].
  - rewrite Bool.orb_true_r. destruct (lookup (h_id h) (sv_reg sv)); cbn; repeat split; reflexivity.
  - destruct (hasId (h_id h) (sv_streams sv)); cbn [orb]; [destruct (lookup (h_id h) (sv_reg sv))|]; repeat split; reflexivity.
Qed.
Lemma w64_pred : forall n, w64 (w64 (Z.of_nat (1 + n)) - 1) = w64 (Z.of_nat n).
Proof. intros n. rewrite w64_sub_l. f_equal. lia. Qed.
Lemma w64_succ : forall n, w64 (w64 (Z.of_nat n) + 1) = w64 (Z.of_nat (1 + n)).
Proof. intros n. rewrite w64_add_l. f_equal. lia. Qed.

Lemma tracks_release : forall sv s (c : server -> Z) (f : handler -> bool), Wf sv ->
  (forall h, In (h_id h, h) (sv_map sv) -> h_sess h = s ->
     c (release sv s) = (if f h then w64 (c sv - 1) else c sv)) ->
  (findSession s (sv_map sv) = None -> c (release sv s) = c sv) ->
  tracks (c sv) f sv -> tracks (c (release sv s)) f (release sv s).
Proof.
  intros sv s c f W C CN T. unfold tracks in *. rewrite release_map by exact W.
  destruct (findSession s (sv_map sv)) as [[i h]|] eqn:F.
  - destruct (handler_of sv s i h W F) as [H [E _]]. subst s. rewrite (C h H eq_refl).
    rewrite T, (cnt_without f (sv_map sv) _ h (wf_sess sv W) H).
    destruct (f h); cbn [bit]; [apply w64_pred|reflexivity].
  - rewrite (CN eq_refl). rewrite without_none; [exact T|]. apply findSession_none. exact F.
Qed.
Lemma release_none : forall sv s, findSession s (sv_map sv) = None -> release sv s = sv.
Proof. intros sv s H. unfold release. rewrite H. reflexivity. Qed.
Lemma cfg_release : forall sv s, Wf sv -> tracks (sv_cfg sv) h_used sv -> tracks (sv_cfg (release sv s)) h_used (release sv s).
Proof.
  intros sv s W T. apply (tracks_release sv s sv_cfg h_used W); [| |exact T].
  - intros h H E. subst s. apply (release_counts sv h W H).
  - intro N. rewrite release_none by exact N. reflexivity.
Qed.
Lemma counts_release : forall sv s, Wf sv -> Counts sv -> Counts (release sv s).
Proof.
  intros sv s W [A B]. constructor.
  - apply (tracks_release sv s sv_ctl fctl W); [| |exact A].
    + intros h H E. subst s. apply (release_counts sv h W H).
    + intro N. rewrite release_none by exact N. reflexivity.
  - apply (tracks_release sv s sv_exc fexc W); [| |exact B].
    + intros h H E. subst s. apply (release_counts sv h W H).
    + intro N. rewrite release_none by exact N. reflexivity.
Qed.

(** ** The limit *)
Record Limit (sv : server) : Prop := {
  lm_wf : Wf sv;
  lm_cfg : tracks (sv_cfg sv) h_used sv;
  lm_max : 0 <= sv_max sv < two64;
  lm_below : sv_max sv <> 0 -> Z.of_nat (cnt h_used (sv_map sv)) <= sv_max sv }.

Lemma limit_release : forall sv s, Limit sv -> Limit (release sv s).
Proof.
  intros sv s [W C M B]. constructor.
  - apply wf_release. exact W.
  - apply cfg_release; assumption.
  - rewrite release_max. exact M.
  - rewrite release_max, release_map by exact W. intro N. specialize (B N).
    destruct (findSession s (sv_map sv)) as [[i h]|] eqn:F.
    + destruct (handler_of sv s i h W F) as [H [E _]]. subst s.
      rewrite (cnt_without h_used (sv_map sv) _ h (wf_sess sv W) H) in B. lia.
    + rewrite without_none; [exact B|]. apply findSession_none. exact F.
Qed.
Lemma limit_same : forall sv sv', Limit sv -> Wf sv' -> sv_cfg sv' = sv_cfg sv -> sv_max sv' = sv_max sv ->
  cnt h_used (sv_map sv') = cnt h_used (sv_map sv) -> Limit sv'.
Proof.
  intros sv sv' [W C M B] W' E1 E2 E3. constructor; unfold tracks in *; rewrite ?E1, ?E2, ?E3; assumption.
Qed.
Lemma take_max : forall sv h i again, Wf sv -> In (h_id h, h) (sv_map sv) -> sv_max (fst (takeId sv h i again)) = sv_max sv.
Proof.
  intros sv h i again W H. destruct (takeId_case sv h i again W H); cbn [fst setMap sv_max]; rewrite ?release_max; reflexivity.
Qed.
Lemma still_there : forall sv h s, Wf sv -> In (h_id h, h) (sv_map sv) -> h_sess h <> s -> In (h_id h, h) (sv_map (release sv s)).
Proof. intros sv h s W H N. rewrite release_map by exact W. apply in_without. split; [exact H|exact N]. Qed.

Lemma onSession_count_same : forall f g s m, (forall h, f (g h) = f h) -> cnt f (onSession s g m) = cnt f m.
Proof.
  intros f g s m H. unfold onSession. induction m as [|e t IH]; [reflexivity|]. cbn [map]. rewrite !cnt_cons, IH.
  destruct (Nat.eqb (h_sess (snd e)) s); cbn [snd]; rewrite ?H; reflexivity.
Qed.
Lemma limit_take : forall sv h i again, Limit sv -> In (h_id h, h) (sv_map sv) -> Limit (fst (takeId sv h i again)).
Proof.
  intros sv h i again L H. pose proof (lm_wf sv L) as W. pose proof (wf_take sv h i again W H) as WT.
  destruct (takeId_case sv h i again W H) as [o LI A|A E|o A LI N NI|LN]; cbn [fst] in *.
  - eapply limit_same; [exact L|exact WT|reflexivity|reflexivity|]. cbn [setMap sv_map]. apply onSession_count_same. reflexivity.
  - apply limit_release. exact L.
  - pose proof (limit_release sv (h_sess o) L) as L1.
    assert (In (h_id h, h) (sv_map (release sv (h_sess o)))) as H1. { apply still_there; [exact W|exact H|congruence]. }
    eapply limit_same; [exact L1|exact WT|reflexivity|reflexivity|]. cbn [setMap sv_map].
    eapply cnt_moved; [exact (wf_sess _ (lm_wf _ L1))|exact H1|reflexivity].
  - eapply limit_same; [exact L|exact WT|reflexivity|reflexivity|]. cbn [setMap sv_map].
    eapply cnt_moved; [exact (wf_sess _ W)|exact H|reflexivity].
Qed.
Lemma limit_kind : forall sv s t d, Limit sv -> Limit (setMap sv (onSession s (setKind t d) (sv_map sv))).
Proof.
  intros sv s t d L. eapply limit_same; [exact L| |reflexivity|reflexivity|].
  - eapply wf_onSession; [exact (lm_wf sv L)|apply (mild_kind t d)|reflexivity|reflexivity].
  - cbn [setMap sv_map]. apply onSession_count_same. reflexivity.
Qed.
Lemma limit_props : forall sv h p, Limit sv -> In (h_id h, h) (sv_map sv) -> Limit (fst (onProps sv h p)).
Proof.
  intros sv h p L H. unfold onProps. destruct (p_identity p) as [[i again]|].
  - pose proof (limit_take sv h i again L H) as L1. destruct (takeId sv h i again) as [sv1 ok]. cbn [fst] in L1.
    destruct ok; cbn [fst]; [apply limit_kind|]; exact L1.
  - cbn [fst]. apply limit_kind. exact L.
Qed.
Lemma limit_fold : forall l sv, Limit sv -> Limit (fold_left release l sv).
Proof. induction l as [|s t IH]; intros sv L; cbn [fold_left]; [exact L|]. apply IH. apply limit_release. exact L. Qed.

Lemma accept_map : forall sv h, sv_map (accept sv h) = onSession (h_sess h) setUsed (sv_map sv).
Proof. reflexivity. Qed.
Lemma accept_counts : forall sv h,
  sv_cfg (accept sv h) = w64 (sv_cfg sv + 1) /\
  sv_ctl (accept sv h) = (if ctype_eqb (h_type h) Control then w64 (sv_ctl sv + 1) else sv_ctl sv) /\
  sv_exc (accept sv h) = (if ctype_eqb (h_type h) Exclusive then w64 (sv_exc sv + 1) else sv_exc sv) /\
  sv_max (accept sv h) = sv_max sv /\ sv_next (accept sv h) = sv_next sv.
Proof. intros sv h. repeat split. Qed.
Lemma accept_cnt : forall sv h, Wf sv -> In (h_id h, h) (sv_map sv) -> h_used h = false ->
  cnt h_used (sv_map (accept sv h)) = S (cnt h_used (sv_map sv)) /\
  cnt fctl (sv_map (accept sv h)) = (bit (ctype_eqb (h_type h) Control) + cnt fctl (sv_map sv))%nat /\
  cnt fexc (sv_map (accept sv h)) = (bit (ctype_eqb (h_type h) Exclusive) + cnt fexc (sv_map sv))%nat.
Proof.
  intros sv h W H U. rewrite accept_map.
  pose proof (cnt_onSession h_used setUsed (sv_map sv) _ h (wf_sess sv W) H) as A.
  pose proof (cnt_onSession fctl setUsed (sv_map sv) _ h (wf_sess sv W) H) as B.
  pose proof (cnt_onSession fexc setUsed (sv_map sv) _ h (wf_sess sv W) H) as C.
  unfold fctl at 2 4, setUsed at 2 in B. unfold fexc at 2 4, setUsed at 2 in C. cbn [setUsed h_used h_type andb] in A, B, C.
  rewrite U in A, B, C. cbn [andb bit] in A, B, C. repeat split; lia.
Qed.
Lemma limit_accept : forall sv h, Limit sv -> In (h_id h, h) (sv_map sv) -> h_used h = false ->
  (sv_max sv <> 0 -> Z.of_nat (cnt h_used (sv_map sv)) < sv_max sv) -> Limit (accept sv h).
Proof.
  intros sv h L H U R. destruct (accept_cnt sv h (lm_wf sv L) H U) as [A _].
  destruct (accept_counts sv h) as [C1 [_ [_ [C2 _]]]]. constructor.
  - apply wf_accept. exact (lm_wf sv L).
  - unfold tracks. rewrite C1, A, (lm_cfg sv L). apply w64_succ.
  - rewrite C2. exact (lm_max sv L).
  - rewrite C2, A. intro N. specialize (R N). lia.
Qed.
Lemma limitReached_spec : forall sv, Limit sv ->
  limitReached sv = false -> sv_max sv <> 0 -> Z.of_nat (cnt h_used (sv_map sv)) < sv_max sv.
Proof.
  intros sv L E N. pose proof (lm_below sv L N) as B. pose proof (lm_max sv L) as M. pose proof (lm_cfg sv L) as C.
  unfold tracks in C. rewrite w64_small in C by lia. unfold limitReached in E.
  destruct (sv_max sv =? 0) eqn:Z0; [lia|]. cbn [negb andb] in E. lia.
Qed.
Lemma others_cnt : forall sv h f, Wf sv -> (cnt f (sv_map (releaseOthers sv h)) <= cnt f (sv_map sv))%nat.
Proof.
  intros sv h f W. rewrite releaseOthers_map by exact W. generalize (sv_map sv). intro m.
  induction m as [|e t IH]; [apply le_n|]. cbn [filter]. rewrite cnt_cons.
  destruct (negb (isOtherControl h (snd e))); [rewrite cnt_cons|]; lia.
Qed.
Lemma self_kept : forall sv h, Wf sv -> In (h_id h, h) (sv_map sv) -> In (h_id h, h) (sv_map (releaseOthers sv h)).
Proof.
  intros sv h W H. rewrite releaseOthers_map by exact W. apply filter_In. split; [exact H|].
  unfold isOtherControl. cbn [snd]. rewrite Nat.eqb_refl. reflexivity.
Qed.
Lemma releaseOthers_max : forall sv h, sv_max (releaseOthers sv h) = sv_max sv.
Proof. intros sv h. apply fold_release_max. Qed.
Lemma releaseOthers_next : forall sv h, sv_next (releaseOthers sv h) = sv_next sv.
Proof. intros sv h. apply fold_release_next. Qed.
Lemma limit_config : forall sv h, Limit sv -> In (h_id h, h) (sv_map sv) -> Limit (fst (onConfig sv h)).
Proof.
  intros sv h L H. unfold onConfig. destruct (h_used h) eqn:U; [exact L|]. unfold connectConfig.
  destruct (limitReached sv) eqn:E; [exact L|]. pose proof (limitReached_spec sv L E) as R.
  destruct (controlRejected sv h); [exact L|]. destruct (exclusiveRejected sv h).
  - destruct (h_drop h && negb (h_again h)); [|exact L]. cbn [fst]. apply limit_accept; [|apply self_kept; [exact (lm_wf sv L)|exact H]|exact U|].
    + apply limit_fold. exact L.
    + rewrite releaseOthers_max. intro N. specialize (R N). pose proof (others_cnt sv h h_used (lm_wf sv L)). lia.
  - cbn [fst]. apply limit_accept; assumption.
Qed.
Lemma limit_stream : forall sv h, Limit sv -> Limit (fst (onStream sv h)).
Proof.
  intros sv h L. unfold onStream. destruct (hasId (h_id h) (sv_streams sv)); [exact L|]. cbn [fst].
  eapply limit_same; [exact L| |reflexivity|reflexivity|].
  - eapply wf_onSession; [exact (lm_wf sv L)|exact mild_stream|reflexivity|reflexivity].
  - apply onSession_count_same. reflexivity.
Qed.
Lemma open_cnt : forall sv u f, (forall h, h_used h = false -> f h = false) ->
  cnt f (sv_map (fst (onOpen sv u))) = cnt f (sv_map sv).
Proof.
  intros sv u f F. unfold onOpen. cbn [fst sv_map]. unfold insert. destruct (lookup _ (sv_map sv)); [reflexivity|].
  rewrite cnt_app, cnt_cons. cbn [snd]. rewrite F by reflexivity. unfold cnt at 2. cbn [map filter length bit]. lia.
Qed.
Lemma limit_open : forall sv u, Limit sv -> Limit (fst (onOpen sv u)).
Proof.
  intros sv u L. eapply limit_same; [exact L|apply wf_open; exact (lm_wf sv L)|reflexivity|reflexivity|].
  apply open_cnt. intros h H. exact H.
Qed.
Lemma limit_step : forall sv m, Limit sv -> Limit (fst (step sv m)).
Proof.
  intros sv m L. pose proof (lm_wf sv L) as W. destruct m as [u|s p|s|s|s|]; cbn [step].
  - apply limit_open. exact L.
  - unfold withHandler. destruct (findSession s (sv_map sv)) as [[i h]|] eqn:F; [|exact L].
    apply limit_props; [exact L|]. exact (proj1 (handler_of sv s i h W F)).
  - unfold withHandler. destruct (findSession s (sv_map sv)) as [[i h]|] eqn:F; [|exact L].
    apply limit_config; [exact L|]. exact (proj1 (handler_of sv s i h W F)).
  - unfold withHandler. destruct (findSession s (sv_map sv)) as [[i h]|] eqn:F; [|exact L]. apply limit_stream. exact L.
  - unfold withHandler. destruct (findSession s (sv_map sv)) as [[i h]|] eqn:F; [|exact L]. apply limit_release. exact L.
  - unfold onSignal. destruct (forallb _ _); exact L.
Qed.
Lemma limit_start : forall max, 0 <= max < two64 -> Limit (start max).
Proof. intros max M. constructor; [apply wf_start|reflexivity|exact M|]. cbn. lia. Qed.
Lemma limit_run : forall ms sv, Limit sv -> Limit (run sv ms).
Proof. induction ms as [|m t IH]; intros sv L; [exact L|]. rewrite run_cons. apply IH. apply limit_step. exact L. Qed.
Lemma step_max : forall sv m, Wf sv -> sv_max (fst (step sv m)) = sv_max sv.
Proof.
  intros sv m W. destruct m as [u|s p|s|s|s|]; cbn [step]; [reflexivity| | | | |].
  - unfold withHandler. destruct (findSession s (sv_map sv)) as [[i h]|] eqn:F; [|reflexivity].
    destruct (handler_of sv s i h W F) as [H _]. unfold onProps. destruct (p_identity p) as [[j a]|]; [|reflexivity].
    pose proof (take_max sv h j a W H) as E. destruct (takeId sv h j a) as [sv1 ok]. cbn [fst] in E.
    destruct ok; cbn [fst setMap sv_max]; exact E.
  - unfold withHandler. destruct (findSession s (sv_map sv)) as [[i h]|]; [|reflexivity].
    unfold onConfig, connectConfig. destruct (h_used h), (limitReached sv), (controlRejected sv h), (exclusiveRejected sv h),
      (h_drop h && negb (h_again h)); try reflexivity. cbn [fst]. apply (releaseOthers_max sv h).
  - unfold withHandler. destruct (findSession s (sv_map sv)) as [[i h]|]; [|reflexivity].
    unfold onStream. destruct (hasId (h_id h) (sv_streams sv)); reflexivity.
  - unfold withHandler. destruct (findSession s (sv_map sv)) as [[i h]|]; [|reflexivity]. apply release_max.
  - unfold onSignal. destruct (forallb _ _); reflexivity.
Qed.
Lemma run_max : forall ms sv, Wf sv -> sv_max (run sv ms) = sv_max sv.
Proof.
  induction ms as [|m t IH]; intros sv W; [reflexivity|]. rewrite run_cons, IH by (apply wf_step; exact W). apply step_max. exact W.
Qed.
Lemma step_next : forall sv m, Wf sv -> (sv_next (fst (step sv m)) <= S (sv_next sv))%nat.
Proof.
  intros sv m W. destruct m as [u|s p|s|s|s|]; cbn [step]; [apply le_n| | | | |].
  - unfold withHandler. destruct (findSession s (sv_map sv)) as [[i h]|] eqn:F; [|apply le_S, le_n].
    destruct (handler_of sv s i h W F) as [H _]. unfold onProps. destruct (p_identity p) as [[j a]|]; [|apply le_S, le_n].
    pose proof (take_next sv h j a W H) as E. destruct (takeId sv h j a) as [sv1 ok]. cbn [fst] in E.
    destruct ok; cbn [fst setMap sv_next]; lia.
  - unfold withHandler. destruct (findSession s (sv_map sv)) as [[i h]|]; [|apply le_S, le_n].
    unfold onConfig, connectConfig. destruct (h_used h), (limitReached sv), (controlRejected sv h), (exclusiveRejected sv h),
      (h_drop h && negb (h_again h)); try (apply le_S, le_n). cbn [fst].
    pose proof (proj2 (proj2 (proj2 (proj2 (accept_counts (releaseOthers sv h) h))))) as E. rewrite E, releaseOthers_next. apply le_S, le_n.
  - unfold withHandler. destruct (findSession s (sv_map sv)) as [[i h]|]; [|apply le_S, le_n].
    unfold onStream. destruct (hasId (h_id h) (sv_streams sv)); apply le_S, le_n.
  - unfold withHandler. destruct (findSession s (sv_map sv)) as [[i h]|]; [|apply le_S, le_n]. cbn [fst]. rewrite release_next. apply le_S, le_n.
  - unfold onSignal. destruct (forallb _ _); apply le_S, le_n.
Qed.
