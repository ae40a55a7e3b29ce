(** What one message does to the clients: to the one that sent it, and to the others. *)
From Verif Require Import Base Sess_Model Sess_Spec Sess_Proofs Sess_Count Sess_Types Sess_Lists Sess_Keep.
Local Open Scope Z_scope.

Definition present (sv : server) (s : nat) : Prop := exists h, connected sv h /\ h_sess h = s.

Lemma present_in : forall sv s, present sv s <-> In s (map sessOf (sv_map sv)).
Proof.
  intros sv s. unfold present, connected, clients. rewrite in_map_iff. split.
  - intros [h [C E]]. apply in_map_iff in C. destruct C as [x [X C]]. exists x. unfold sessOf. split; [congruence|exact C].
  - intros [x [X C]]. exists (snd x). split; [apply in_map; exact C|exact X].
Qed.
Lemma found : forall sv h, Wf sv -> connected sv h -> findSession (h_sess h) (sv_map sv) = Some (h_id h, h).
Proof. intros sv h W C. apply in_findSession; [exact (wf_sess sv W)|]. apply connected_in; assumption. Qed.

Lemma kind_connected : forall sv s t d, Wf sv -> forall h',
  connected (setMap sv (onSession s (setKind t d) (sv_map sv))) h' <->
  exists h, connected sv h /\ h' = (if Nat.eqb (h_sess h) s then setKind t d h else h).
Proof.
  intros sv s t d W. apply connected_on; [exact W| |reflexivity].
  eapply wf_onSession; [exact W|apply (mild_kind t d)|reflexivity|reflexivity].
Qed.
Lemma take_connected_other : forall sv h i again x, Wf sv -> connected sv h -> h_sess x <> h_sess h ->
  (connected (fst (takeId sv h i again)) x <-> connected sv x /\ ~ (h_id x = i /\ again = true)).
Proof.
  intros sv h i again x W H N. assert (In (h_id h, h) (sv_map sv)) as HI by (apply connected_in; assumption).
  rewrite (connected_in _ _ (wf_take sv h i again W HI)), (connected_in _ _ W).
  exact (take_other sv h i again (h_id x, x) W HI N).
Qed.
Lemma take_connected_self : forall sv h i again x, Wf sv -> connected sv h -> connected (fst (takeId sv h i again)) x -> h_sess x = h_sess h ->
  h_used x = h_used h /\ h_rights x = h_rights h /\ h_stream x = h_stream h /\ h_user x = h_user h /\ h_type x = h_type h
  /\ snd (takeId sv h i again) = true.
Proof.
  intros sv h i again x W H C N. assert (In (h_id h, h) (sv_map sv)) as HI by (apply connected_in; assumption).
  apply connected_in in C; [|exact (wf_take sv h i again W HI)].
  destruct (take_self sv h i again (h_id x, x) W HI C N) as [K [S0 [U OK]]]. unfold kind in K. cbn [snd] in *.
  injection K as K1 K2 K3 K4. repeat split; assumption.
Qed.
(** The id after taking it. *)
Lemma take_id : forall sv h i again, Wf sv -> connected sv h ->
  (again = true /\ i = h_id h /\ fst (takeId sv h i again) = release sv (h_sess h) /\ snd (takeId sv h i again) = false) \/
  (snd (takeId sv h i again) = true /\ exists x, connected (fst (takeId sv h i again)) x /\ h_sess x = h_sess h /\ h_again x = again /\
     h_id x = (match lookup i (sv_map sv) with Some _ => if again then i else h_id h | None => i end)).
Proof.
  intros sv h i again W H. assert (In (h_id h, h) (sv_map sv)) as HI by (apply connected_in; assumption).
  pose proof (wf_take sv h i again W HI) as WT.
  destruct (takeId_case sv h i again W HI) as [o LI A|A E|o A LI NS NI|LN]; cbn [fst snd] in *.
  - right. split; [reflexivity|]. rewrite (in_lookup _ _ _ _ (wf_keys sv W) LI). rewrite A. exists (setIdentity (h_id h) again h). subst again.
    split; [|repeat split]. apply (connected_on sv _ (h_sess h) (setIdentity (h_id h) false) W WT eq_refl).
    exists h. split; [exact H|]. rewrite Nat.eqb_refl. reflexivity.
  - left. repeat split; assumption.
  - right. split; [reflexivity|]. rewrite (in_lookup _ _ _ _ (wf_keys sv W) LI), A. exists (setIdentity i true h). split; [|repeat split].
    apply (connected_moved (release sv (h_sess o)) _ h i true); [subst again; reflexivity|]. right. reflexivity.
  - right. split; [reflexivity|]. rewrite LN. exists (setIdentity i again h). split; [|repeat split].
    apply (connected_moved sv (setMap sv (moved (sv_map sv) h i again)) h i again eq_refl). right. reflexivity.
Qed.

(** ** Who goes *)
Lemma present_on : forall sv sv' s f, (forall h, h_sess (f h) = h_sess h) -> sv_map sv' = onSession s f (sv_map sv) ->
  forall n, present sv' n <-> present sv n.
Proof. intros sv sv' s f F M n. rewrite !present_in, M, onSession_sess by exact F. reflexivity. Qed.

Lemma step_ends : forall sv m o, Wf sv -> connected sv o -> ~ present (fst (step sv m)) (h_sess o) -> ends sv m o.
Proof.
  intros sv m o W C G. assert (present sv (h_sess o)) as P0 by (exists o; split; [exact C|reflexivity]).
  destruct m as [u|s p|s|s|s|]; cbn [step] in G.
  - exfalso. apply G. exists o. split; [apply open_keeps; exact C|reflexivity].
  - unfold withHandler in G. destruct (findSession s (sv_map sv)) as [[i h]|] eqn:F; [|contradiction].
    destruct (handler_of sv s i h W F) as [HI [E _]]. assert (connected sv h) as H by (apply connected_in; assumption).
    cbn [ends]. exists h. split; [exact H|]. split; [exact E|]. unfold onProps in G.
    destruct (p_identity p) as [[j a]|] eqn:P.
    + pose proof (wf_take sv h j a W HI) as W1.
      assert (~ present (fst (takeId sv h j a)) (h_sess o)) as G1.
      { intro Q. apply G. destruct (takeId sv h j a) as [sv1 ok]. cbn [fst] in *. destruct ok; cbn [fst]; [|exact Q].
        apply (present_on sv1 _ (h_sess h) (setKind (announced p) (announcedDrop p))); [reflexivity|reflexivity|exact Q]. }
      destruct (Nat.eq_dec (h_sess o) (h_sess h)) as [EO|NO].
      * assert (o = h) as -> by (apply (same_session sv o h W C H EO)).
        destruct (take_id sv h j a W H) as [[A [B _]]|[_ [x [X [E2 _]]]]]; [congruence|].
        exfalso. apply G1. exists x. split; assumption.
      * destruct (cid_dec (h_id o) j) as [Q|Q]; [destruct a|].
        -- congruence.
        -- exfalso. apply G1. exists o. split; [|reflexivity]. apply take_connected_other; [exact W|exact H|exact NO|].
           split; [exact C|]. intros [_ Z0]. discriminate.
        -- exfalso. apply G1. exists o. split; [|reflexivity]. apply take_connected_other; [exact W|exact H|exact NO|].
           split; [exact C|]. intros [Z0 _]. contradiction.
    + exfalso. apply G. cbn [fst]. apply (present_on sv _ (h_sess h) (setKind (announced p) (announcedDrop p))); [reflexivity|reflexivity|exact P0].
  - unfold withHandler in G. destruct (findSession s (sv_map sv)) as [[i h]|] eqn:F; [|contradiction].
    destruct (handler_of sv s i h W F) as [HI [E _]]. assert (connected sv h) as H by (apply connected_in; assumption).
    unfold onConfig, connectConfig in G. destruct (h_used h); [contradiction|]. destruct (limitReached sv); [contradiction|].
    destruct (controlRejected sv h); [contradiction|]. destruct (exclusiveRejected sv h) eqn:RE.
    + destruct (h_drop h && negb (h_again h)) eqn:D; [|contradiction]. cbn [fst] in G.
      assert (~ present (releaseOthers sv h) (h_sess o)) as G1.
      { intro Q. apply G. apply (present_on (releaseOthers sv h) _ (h_sess h) setUsed); [reflexivity|reflexivity|exact Q]. }
      assert (isOtherControl h o = true) as IO.
      { destruct (isOtherControl h o) eqn:Q; [reflexivity|]. exfalso. apply G1. apply present_in.
        rewrite releaseOthers_map by exact W. apply in_map_iff. exists (h_id o, o). split; [reflexivity|]. apply filter_In.
        split; [apply connected_in; assumption|]. cbn [snd]. rewrite Q. reflexivity. }
      unfold isOtherControl in IO. apply andb_prop in IO. destruct IO as [IO T]. apply andb_prop in IO. destruct IO as [N U].
      cbn [ends]. exists h. split; [exact H|]. split; [exact E|]. split.
      { intro Q. subst o. rewrite Nat.eqb_refl in N. discriminate. }
      split; [|split; [exact U|]].
      * apply andb_prop in D. destruct D as [D1 D2]. unfold drops_others. split; [|split].
        -- unfold exclusiveRejected in RE. apply andb_prop in RE. apply ctype_eqb_spec. apply RE.
        -- exact D1.
        -- destruct (h_again h); [discriminate|reflexivity].
      * destruct (h_type o); [left; reflexivity|right; reflexivity|discriminate].
    + exfalso. apply G. cbn [fst]. apply (present_on sv _ (h_sess h) setUsed); [reflexivity|reflexivity|exact P0].
  - unfold withHandler in G. destruct (findSession s (sv_map sv)) as [[i h]|] eqn:F; [|contradiction].
    exfalso. apply G. unfold onStream. destruct (hasId (h_id h) (sv_streams sv)); [exact P0|]. cbv zeta. cbn [fst].
    apply (present_on sv _ (h_sess h) setStream); [reflexivity|reflexivity|exact P0].
  - unfold withHandler in G. destruct (findSession s (sv_map sv)) as [[i h]|] eqn:F; [|contradiction].
    cbn [ends]. cbn [fst] in G. destruct (Nat.eq_dec (h_sess o) s) as [Q|Q]; [exact Q|]. exfalso. apply G. exists o. split; [|reflexivity].
    apply connected_release; [exact W|]. split; assumption.
  - exfalso. apply G. unfold onSignal. destruct (forallb _ _); exact P0.
Qed.

(** ** The others are as they were *)
Lemma on_back : forall sv sv' s f x, Wf sv -> Wf sv' -> sv_map sv' = onSession s f (sv_map sv) -> (forall h, h_sess (f h) = h_sess h) ->
  connected sv' x -> h_sess x <> s -> connected sv x.
Proof.
  intros sv sv' s f x W W' M F C N. apply (connected_on sv sv' s f W W' M) in C. destruct C as [y [Y E]].
  destruct (Nat.eqb (h_sess y) s) eqn:Q; [|congruence]. apply Nat.eqb_eq in Q. exfalso. apply N. subst x. rewrite F. exact Q.
Qed.
Lemma fold_back : forall l sv x, Wf sv -> connected (fold_left release l sv) x -> connected sv x.
Proof.
  induction l as [|s t IH]; intros sv x W C; cbn [fold_left] in C; [exact C|].
  apply IH in C; [|apply wf_release; exact W]. apply connected_release in C; tauto.
Qed.
Lemma step_back : forall sv m x, Wf sv -> connected (fst (step sv m)) x -> session_of m <> Some (h_sess x) ->
  connected sv x \/ h_sess x = sv_next sv.
Proof.
  intros sv m x W C N. destruct m as [u|s p|s|s|s|]; cbn [step session_of] in *.
  - unfold connected, clients, onOpen in C. cbn [fst sv_map] in C. unfold insert in C.
    destruct (lookup _ (sv_map sv)); [left; exact C|]. rewrite map_app in C. apply in_app_or in C. destruct C as [C|[C|[]]]; [left; exact C|].
    right. cbn [snd] in C. subst x. reflexivity.
  - left. unfold withHandler in C. destruct (findSession s (sv_map sv)) as [[i h]|] eqn:F; [|exact C].
    destruct (handler_of sv s i h W F) as [HI [E _]]. assert (connected sv h) as H by (apply connected_in; assumption).
    assert (h_sess x <> h_sess h) as NX by congruence. unfold onProps in C.
    destruct (p_identity p) as [[j a]|].
    + assert (connected (fst (takeId sv h j a)) x) as C1.
      { pose proof (wf_take sv h j a W HI) as W1. destruct (takeId sv h j a) as [sv1 ok]. cbn [fst] in *. destruct ok; cbn [fst] in C; [|exact C].
        eapply (on_back sv1 _ (h_sess h) (setKind (announced p) (announcedDrop p)) x W1); [| | |exact C|exact NX].
        - eapply wf_onSession; [exact W1|apply (mild_kind (announced p) (announcedDrop p))|reflexivity|reflexivity].
        - reflexivity.
        - reflexivity. }
      apply take_connected_other in C1; [tauto|exact W|exact H|exact NX].
    + cbn [fst] in C. eapply (on_back sv _ (h_sess h) (setKind (announced p) (announcedDrop p)) x W); [| | |exact C|exact NX].
      * eapply wf_onSession; [exact W|apply (mild_kind (announced p) (announcedDrop p))|reflexivity|reflexivity].
      * reflexivity.
      * reflexivity.
  - left. unfold withHandler in C. destruct (findSession s (sv_map sv)) as [[i h]|] eqn:F; [|exact C].
    destruct (handler_of sv s i h W F) as [HI [E _]]. assert (h_sess x <> h_sess h) as NX by congruence.
    unfold onConfig, connectConfig in C. destruct (h_used h); [exact C|]. destruct (limitReached sv); [exact C|].
    destruct (controlRejected sv h); [exact C|]. destruct (exclusiveRejected sv h).
    + destruct (h_drop h && negb (h_again h)); [|exact C]. cbn [fst] in C.
      assert (Wf (releaseOthers sv h)) as W1 by (apply wf_fold_release; exact W).
      apply (fold_back (map h_sess (filter (isOtherControl h) (map snd (sv_map sv)))) sv x W).
      eapply (on_back (releaseOthers sv h) _ (h_sess h) setUsed x W1); [apply wf_accept; exact W1|reflexivity|reflexivity|exact C|exact NX].
    + cbn [fst] in C. eapply (on_back sv _ (h_sess h) setUsed x W); [apply wf_accept; exact W|reflexivity|reflexivity|exact C|exact NX].
  - left. unfold withHandler in C. destruct (findSession s (sv_map sv)) as [[i h]|] eqn:F; [|exact C].
    destruct (handler_of sv s i h W F) as [HI [E _]]. assert (h_sess x <> h_sess h) as NX by congruence.
    pose proof (wf_stream sv h W) as WS. unfold onStream in *. destruct (hasId (h_id h) (sv_streams sv)); [exact C|]. cbv zeta in *. cbn [fst] in *.
    eapply (on_back sv _ (h_sess h) setStream x W WS); [reflexivity|reflexivity|exact C|exact NX].
  - left. unfold withHandler in C. destruct (findSession s (sv_map sv)) as [[i h]|] eqn:F; [|exact C]. cbn [fst] in C.
    apply connected_release in C; tauto.
  - left. unfold onSignal in C. destruct (forallb _ _); exact C.
Qed.
Lemma step_others : forall sv m o o', Wf sv -> connected sv o -> session_of m <> Some (h_sess o) ->
  connected (fst (step sv m)) o' -> h_sess o' = h_sess o -> o' = o.
Proof.
  intros sv m o o' W C N C' E. destruct (step_back sv m o' W C') as [K|K]; [congruence| |].
  - apply (same_session sv o' o W K C E).
  - apply connected_in in C; [|exact W]. pose proof (wf_old sv W _ C) as B. unfold sessOf in B. cbn [snd] in B. lia.
Qed.

(** ** The one that sent it *)
Lemma on_self : forall sv sv' h f x, Wf sv -> Wf sv' -> sv_map sv' = onSession (h_sess h) f (sv_map sv) -> (forall y, h_sess (f y) = h_sess y) ->
  connected sv h -> connected sv' x -> h_sess x = h_sess h -> x = f h.
Proof.
  intros sv sv' h f x W W' M F H C E. apply (connected_on sv sv' (h_sess h) f W W' M) in C. destruct C as [y [Y Q]].
  destruct (Nat.eqb (h_sess y) (h_sess h)) eqn:Z0.
  - apply Nat.eqb_eq in Z0. rewrite (same_session sv y h W Y H Z0) in Q. exact Q.
  - apply Nat.eqb_neq in Z0. congruence.
Qed.
Definition self_after (sv : server) (m : msg) (h h' : handler) : Prop :=
  match m with
  | Props _ p => h_used h' = h_used h /\ h_rights h' = h_rights h /\ h_stream h' = h_stream h /\ h_user h' = h_user h
                 /\ h_type h' = announced p /\ h_drop h' = announcedDrop p
  | Config _ => h' = h \/ (h' = setUsed h /\ h_used h = false /\ snd (step sv m) = Done)
  | Stream _ => h' = h \/ (h' = setStream h /\ snd (step sv m) = Done)
  | Close _ => False
  | _ => True
  end.
Lemma step_self : forall sv m h h', Wf sv -> connected sv h -> session_of m = Some (h_sess h) ->
  connected (fst (step sv m)) h' -> h_sess h' = h_sess h -> self_after sv m h h'.
Proof.
  intros sv m h h' W H SM C E. assert (In (h_id h, h) (sv_map sv)) as HI by (apply connected_in; assumption).
  destruct m as [u|s p|s|s|s|]; cbn [session_of] in SM; try discriminate; injection SM as ->;
    cbn [self_after step] in *; unfold withHandler in *; rewrite (found sv h W H) in *; cbn beta iota in *.
  - unfold onProps in C. destruct (p_identity p) as [[j a]|].
    + pose proof (wf_take sv h j a W HI) as W1.
      pose proof (fun x => take_connected_self sv h j a x W H) as TS.
      destruct (takeId sv h j a) as [sv1 ok]. cbn [fst snd] in *. destruct ok; cbn [fst] in C.
      * apply kind_connected in C; [|exact W1]. destruct C as [y [Y Q]].
        assert (h_sess y = h_sess h) as EY. { rewrite <- E, Q. destruct (Nat.eqb (h_sess y) (h_sess h)); reflexivity. }
        destruct (TS y Y EY) as [A1 [A2 [A3 [A4 _]]]]. rewrite EY, Nat.eqb_refl in Q. subst h'. cbn [setKind h_used h_rights h_stream h_user h_type h_drop].
        repeat split; assumption.
      * destruct (TS h' C E) as [_ [_ [_ [_ [_ X]]]]]. discriminate.
    + cbn [fst] in C. apply kind_connected in C; [|exact W]. destruct C as [y [Y Q]].
      assert (h_sess y = h_sess h) as EY. { rewrite <- E, Q. destruct (Nat.eqb (h_sess y) (h_sess h)); reflexivity. }
      rewrite (same_session sv y h W Y H EY), Nat.eqb_refl in Q. subst h'. repeat split.
  - unfold onConfig, connectConfig in *. destruct (h_used h) eqn:U; [left; apply (same_session sv h' h W C H E)|].
    destruct (limitReached sv); [left; apply (same_session sv h' h W C H E)|].
    destruct (controlRejected sv h); [left; apply (same_session sv h' h W C H E)|].
    destruct (exclusiveRejected sv h).
    + destruct (h_drop h && negb (h_again h)); [|left; apply (same_session sv h' h W C H E)]. cbn [fst snd] in *. right.
      split; [|split; reflexivity]. assert (Wf (releaseOthers sv h)) as W1 by (apply wf_fold_release; exact W).
      eapply (on_self (releaseOthers sv h) _ h setUsed h' W1); [apply wf_accept; exact W1|reflexivity|reflexivity| |exact C|exact E].
      apply connected_in; [exact W1|]. apply self_kept; assumption.
    + cbn [fst snd] in *. right. split; [|split; reflexivity].
      eapply (on_self sv _ h setUsed h' W); [apply wf_accept; exact W|reflexivity|reflexivity|exact H|exact C|exact E].
  - pose proof (wf_stream sv h W) as WS. unfold onStream in *. destruct (hasId (h_id h) (sv_streams sv)); [left; apply (same_session sv h' h W C H E)|].
    cbv zeta in *. cbn [fst snd] in *. right. split; [|reflexivity].
    eapply (on_self sv _ h setStream h' W WS); [reflexivity|reflexivity|exact H|exact C|exact E].
  - cbn [fst] in C. apply connected_release in C; [|exact W]. tauto.
Qed.

(** ** Being let in *)
Lemma rights_type : forall sv h t, Typed sv -> connected sv h -> (has_rights h t <-> h_used h = true /\ h_type h = t).
Proof.
  intros sv h t T C. apply connected_in in C; [|exact (lm_wf sv (ty_limit sv T))]. pose proof (tm_rights _ (ty_map sv T) _ C) as R. cbn [snd] in R.
  unfold has_rights. split; intros [U K]; (split; [exact U|]); specialize (R U); congruence.
Qed.
Lemma room_spec : forall sv, Limit sv -> limitReached sv = false <-> room sv.
Proof.
  intros sv L. split.
  - intro E. unfold room. destruct (Z.eq_dec (sv_max sv) 0) as [Q|Q]; [left; exact Q|right].
    rewrite configuring_cnt. apply limitReached_spec; assumption.
  - intros [E|E]; unfold limitReached.
    + rewrite E. reflexivity.
    + rewrite configuring_cnt in E. pose proof (lm_max sv L) as M. pose proof (lm_cfg sv L) as C. unfold tracks in C.
      rewrite w64_small in C by lia. assert (sv_cfg sv =? sv_max sv = false) as -> by (apply Z.eqb_neq; lia). apply Bool.andb_false_r.
Qed.
Lemma way_control : forall sv h, Typed sv -> Z.of_nat (sv_next sv) < two64 -> connected sv h -> h_used h = false -> h_type h = Control ->
  controlRejected sv h = false <-> (forall o, ~ in_the_way sv h o).
Proof.
  intros sv h T B H U E. pose proof (lm_wf sv (ty_limit sv T)) as W. unfold controlRejected. rewrite E. cbn [ctype_eqb andb].
  rewrite (tracks_zero sv _ _ W B (ct_exc sv (ty_counts sv T))). unfold in_the_way. rewrite E. split.
  - intros K o [C [N R]]. apply (rights_type sv o Exclusive T C) in R. destruct R as [R1 R2]. apply connected_in in C; [|exact W].
    specialize (K _ C). cbn [snd] in K. unfold fexc in K. rewrite R1, R2 in K. discriminate.
  - intros K e I0. destruct (fexc (snd e)) eqn:Q; [|reflexivity]. exfalso. unfold fexc in Q. apply andb_prop in Q. destruct Q as [Q1 Q2].
    apply ctype_eqb_spec in Q2. assert (connected sv (snd e)) as C by (apply in_map; exact I0). apply (K (snd e)). split; [exact C|]. split; [congruence|].
    apply (rights_type sv (snd e) Exclusive T C). split; assumption.
Qed.
Lemma way_exclusive : forall sv h, Typed sv -> Z.of_nat (sv_next sv) < two64 -> connected sv h -> h_used h = false -> h_type h = Exclusive ->
  exclusiveRejected sv h = false <-> (forall o, ~ in_the_way sv h o).
Proof.
  intros sv h T B H U E. pose proof (lm_wf sv (ty_limit sv T)) as W. unfold exclusiveRejected. rewrite E. cbn [ctype_eqb andb].
  rewrite Bool.orb_false_iff, (tracks_zero sv _ _ W B (ct_exc sv (ty_counts sv T))), (tracks_zero sv _ _ W B (ct_ctl sv (ty_counts sv T))).
  unfold in_the_way. rewrite E. split.
  - intros [K1 K2] o [C [N [R|R]]].
    + apply (rights_type sv o Control T C) in R. destruct R as [R1 R2]. apply connected_in in C; [|exact W].
      specialize (K2 _ C). cbn [snd] in K2. unfold fctl in K2. rewrite R1, R2 in K2. discriminate.
    + apply (rights_type sv o Exclusive T C) in R. destruct R as [R1 R2]. apply connected_in in C; [|exact W].
      specialize (K1 _ C). cbn [snd] in K1. unfold fexc in K1. rewrite R1, R2 in K1. discriminate.
  - intro K. split; intros e I0; assert (connected sv (snd e)) as C by (apply in_map; exact I0).
    + destruct (fexc (snd e)) eqn:Q; [|reflexivity]. exfalso. unfold fexc in Q. apply andb_prop in Q. destruct Q as [Q1 Q2].
      apply ctype_eqb_spec in Q2. apply (K (snd e)). split; [exact C|]. split; [congruence|]. right. apply (rights_type sv (snd e) Exclusive T C). split; assumption.
    + destruct (fctl (snd e)) eqn:Q; [|reflexivity]. exfalso. unfold fctl in Q. apply andb_prop in Q. destruct Q as [Q1 Q2].
      apply ctype_eqb_spec in Q2. apply (K (snd e)). split; [exact C|]. split; [congruence|]. left. apply (rights_type sv (snd e) Control T C). split; assumption.
Qed.
Lemma not_way_exclusive : forall sv h, h_type h <> Exclusive -> exclusiveRejected sv h = false.
Proof. intros sv h N. unfold exclusiveRejected. destruct (h_type h); try reflexivity. congruence. Qed.
Lemma not_way_control : forall sv h, h_type h <> Control -> controlRejected sv h = false.
Proof. intros sv h N. unfold controlRejected. destruct (h_type h); try reflexivity. congruence. Qed.

Lemma accept_after : forall sv h x, Wf sv -> connected sv h -> (connected (accept sv h) x <-> x = setUsed h \/ (connected sv x /\ h_sess x <> h_sess h)).
Proof.
  intros sv h x W H. rewrite (connected_on sv (accept sv h) (h_sess h) setUsed W (wf_accept sv h W) eq_refl). split.
  - intros [y [Y E]]. destruct (Nat.eqb (h_sess y) (h_sess h)) eqn:Q.
    + apply Nat.eqb_eq in Q. rewrite (same_session sv y h W Y H Q) in E. left. exact E.
    + apply Nat.eqb_neq in Q. subst y. right. split; assumption.
  - intros [E|[X N]].
    + exists h. split; [exact H|]. rewrite Nat.eqb_refl. exact E.
    + exists x. split; [exact X|]. apply Nat.eqb_neq in N. rewrite N. reflexivity.
Qed.
Lemma others_connected : forall sv h x, Wf sv -> connected (releaseOthers sv h) x <-> connected sv x /\ isOtherControl h x = false.
Proof.
  intros sv h x W. assert (Wf (releaseOthers sv h)) as W1 by (apply wf_fold_release; exact W).
  rewrite (connected_in _ _ W1), (connected_in _ _ W). rewrite releaseOthers_map by exact W. rewrite filter_In. cbn [snd].
  destruct (isOtherControl h x); cbn [negb]; intuition congruence.
Qed.
Lemma config_result : forall sv h, Typed sv -> Z.of_nat (sv_next sv) < two64 -> connected sv h -> h_used h = false ->
  (snd (step sv (Config (h_sess h))) = Done <-> room sv /\ ((forall o, ~ in_the_way sv h o) \/ drops_others h)) /\
  (snd (step sv (Config (h_sess h))) = LimitReached <-> ~ room sv) /\
  (snd (step sv (Config (h_sess h))) <> Done -> fst (step sv (Config (h_sess h))) = sv) /\
  (snd (step sv (Config (h_sess h))) = Done -> forall x, connected (fst (step sv (Config (h_sess h)))) x <->
      x = setUsed h \/ (connected sv x /\ x <> h /\ ~ in_the_way sv h x)).
Proof.
  intros sv h T B H U. pose proof (ty_limit sv T) as L. pose proof (lm_wf sv L) as W.
  assert (forall x, connected sv x -> x <> h <-> h_sess x <> h_sess h) as NEQ.
  { intros x X. split; intros N E; apply N; [apply (same_session sv x h W X H E)|congruence]. }
  cbn [step]. unfold withHandler. rewrite (found sv h W H). unfold onConfig. rewrite U. unfold connectConfig.
  pose proof (room_spec sv L) as RS. destruct (limitReached sv) eqn:LR.
  { assert (~ room sv) as NR by (intro Q; apply RS in Q; discriminate). cbn [fst snd].
    split; [split; [discriminate|intros [Q _]; contradiction]|]. split; [split; [intros _; exact NR|reflexivity]|].
    split; [reflexivity|discriminate]. }
  assert (room sv) as R by (apply RS; reflexivity).
  destruct (h_type h) eqn:TH.
  - (* Control *)
    pose proof (way_control sv h T B H U TH) as WC. destruct (controlRejected sv h) eqn:CR.
    + cbn [fst snd]. split; [split; [discriminate|]|].
      { intros [_ [K|[K _]]]; [apply WC in K; discriminate|congruence]. }
      split; [split; [discriminate|intro Q; contradiction]|]. split; [reflexivity|discriminate].
    + assert (forall o, ~ in_the_way sv h o) as NW by (apply WC; reflexivity).
      rewrite (not_way_exclusive sv h) by congruence. cbn [fst snd].
      split; [split; [intros _; split; [exact R|left; exact NW]|reflexivity]|].
      split; [split; [discriminate|intro Q; contradiction]|]. split; [intro Q; congruence|]. intros _ x.
      rewrite accept_after by assumption. split; intros [A|A]; try (left; exact A); right.
      * destruct A as [A1 A2]. split; [exact A1|]. split; [apply NEQ; assumption|apply NW].
      * destruct A as [A1 [A2 _]]. split; [exact A1|]. apply NEQ; assumption.
  - (* Exclusive *)
    rewrite (not_way_control sv h) by congruence. pose proof (way_exclusive sv h T B H U TH) as WE. destruct (exclusiveRejected sv h) eqn:ER.
    + destruct (h_drop h && negb (h_again h)) eqn:D.
      * assert (drops_others h) as DO.
        { apply andb_prop in D. destruct D as [D1 D2]. unfold drops_others. rewrite TH. destruct (h_again h); [discriminate|]. repeat split; assumption. }
        cbn [fst snd]. split; [split; [intros _; split; [exact R|right; exact DO]|reflexivity]|].
        split; [split; [discriminate|intro Q; contradiction]|]. split; [intro Q; congruence|]. intros _ x.
        assert (Wf (releaseOthers sv h)) as W1 by (apply wf_fold_release; exact W).
        assert (connected (releaseOthers sv h) h) as H1. { apply connected_in; [exact W1|]. apply self_kept; [exact W|]. apply connected_in; assumption. }
        rewrite accept_after by assumption. rewrite others_connected by exact W.
        split; intros [A|A]; try (left; exact A); right.
        -- destruct A as [[A1 A3] A2]. split; [exact A1|]. split; [apply NEQ; assumption|].
           intros [_ [_ IW]]. rewrite TH in IW. unfold isOtherControl in A3. apply Nat.eqb_neq in A2. rewrite A2 in A3. cbn [negb andb] in A3.
           destruct IW as [IW|IW]; apply (rights_type sv x _ T A1) in IW; destruct IW as [I1 I2]; rewrite I1, I2 in A3; discriminate.
        -- destruct A as [A1 [A2 A3]]. apply NEQ in A2; [|exact A1]. split; [|exact A2]. split; [exact A1|].
           destruct (isOtherControl h x) eqn:Q; [|reflexivity]. exfalso. apply A3. unfold isOtherControl in Q.
           apply andb_prop in Q. destruct Q as [Q Q3]. apply andb_prop in Q. destruct Q as [Q1 Q2].
           split; [exact A1|]. split; [apply NEQ; assumption|]. rewrite TH. unfold may_change.
           apply Bool.orb_true_iff in Q3. destruct Q3 as [Q3|Q3]; apply ctype_eqb_spec in Q3; [left|right]; apply (rights_type sv x _ T A1); split; assumption.
      * cbn [fst snd]. split; [split; [discriminate|]|].
        { intros [_ [K|[_ [K1 K2]]]]; [apply WE in K; discriminate|]. rewrite K1, K2 in D. discriminate. }
        split; [split; [discriminate|intro Q; contradiction]|]. split; [reflexivity|discriminate].
    + assert (forall o, ~ in_the_way sv h o) as NW by (apply WE; reflexivity). cbn [fst snd].
      split; [split; [intros _; split; [exact R|left; exact NW]|reflexivity]|].
      split; [split; [discriminate|intro Q; contradiction]|]. split; [intro Q; congruence|]. intros _ x.
      rewrite accept_after by assumption. split; intros [A|A]; try (left; exact A); right.
      * destruct A as [A1 A2]. split; [exact A1|]. split; [apply NEQ; assumption|apply NW].
      * destruct A as [A1 [A2 _]]. split; [exact A1|]. apply NEQ; assumption.
  - (* ViewOnly *)
    rewrite (not_way_control sv h), (not_way_exclusive sv h) by congruence.
    assert (forall o, ~ in_the_way sv h o) as NW by (intros o [_ [_ K]]; rewrite TH in K; exact K). cbn [fst snd].
    split; [split; [intros _; split; [exact R|left; exact NW]|reflexivity]|].
    split; [split; [discriminate|intro Q; contradiction]|]. split; [intro Q; congruence|]. intros _ x.
    rewrite accept_after by assumption. split; intros [A|A]; try (left; exact A); right.
    * destruct A as [A1 A2]. split; [exact A1|]. split; [apply NEQ; assumption|apply NW].
    * destruct A as [A1 [A2 _]]. split; [exact A1|]. apply NEQ; assumption.
Qed.
