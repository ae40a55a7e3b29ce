(** Control and exclusive control: while no configuring client announces another type, the
    counters tell who is there, and an exclusive client is alone in changing the device. *)
From Verif Require Import Base Sess_Model Sess_Spec Sess_Proofs Sess_Count.
Local Open Scope Z_scope.

Definition kind (e : cid * handler) := (h_sess (snd e), h_used (snd e), h_type (snd e), h_rights (snd e)).

Record TM (m : list (cid * handler)) : Prop := {
  tm_rights : forall e, In e m -> h_used (snd e) = true -> h_rights (snd e) = Some (h_type (snd e));
  tm_alone : forall a b, In a m -> In b m -> h_used (snd a) = true -> h_used (snd b) = true ->
               sessOf a <> sessOf b -> h_type (snd a) = Exclusive -> h_type (snd b) = ViewOnly }.

Lemma tm_sub : forall m m', TM m ->
  (forall e', In e' m' -> h_used (snd e') = true -> exists e, In e m /\ kind e = kind e') -> TM m'.
Proof.
  intros m m' [R A] S0. constructor.
  - intros e' H U. destruct (S0 e' H U) as [e [I0 K]]. unfold kind in K. injection K as K1 K2 K3 K4.
    rewrite <- K4, <- K3. apply R; [exact I0|congruence].
  - intros a' b' HA HB UA UB N X. destruct (S0 a' HA UA) as [a [IA KA]]. destruct (S0 b' HB UB) as [b [IB KB]].
    unfold kind in KA, KB. injection KA as KA1 KA2 KA3 KA4. injection KB as KB1 KB2 KB3 KB4.
    rewrite <- KB3. apply (A a b IA IB); unfold sessOf in *; congruence.
Qed.

Record Typed (sv : server) : Prop := {
  ty_limit : Limit sv;
  ty_counts : Counts sv;
  ty_map : TM (sv_map sv) }.

Lemma tm_release : forall sv s, Wf sv -> TM (sv_map sv) -> TM (sv_map (release sv s)).
Proof.
  intros sv s W T. eapply tm_sub; [exact T|]. intros e H _. rewrite release_map in H by exact W.
  apply in_without in H. exists e. tauto.
Qed.
Lemma typed_release : forall sv s, Typed sv -> Typed (release sv s).
Proof.
  intros sv s [L C T]. pose proof (lm_wf sv L) as W. constructor;
    [apply limit_release|apply counts_release|apply tm_release]; assumption.
Qed.
Lemma typed_fold : forall l sv, Typed sv -> Typed (fold_left release l sv).
Proof. induction l as [|s t IH]; intros sv T; cbn [fold_left]; [exact T|]. apply IH. apply typed_release. exact T. Qed.

Lemma counts_same : forall sv sv', Counts sv -> sv_ctl sv' = sv_ctl sv -> sv_exc sv' = sv_exc sv ->
  cnt fctl (sv_map sv') = cnt fctl (sv_map sv) -> cnt fexc (sv_map sv') = cnt fexc (sv_map sv) -> Counts sv'.
Proof.
  intros sv sv' [A B] E1 E2 E3 E4. constructor; unfold tracks in *; [rewrite E1, E3|rewrite E2, E4]; assumption.
Qed.

Lemma in_moved : forall m h i again e, In e (moved m h i again) ->
  (In e m /\ sessOf e <> h_sess h) \/ e = (i, setIdentity i again h).
Proof.
  intros m h i again e H. unfold moved in H. apply in_app_or in H. destruct H as [H|[H|[]]].
  - left. apply in_without. exact H.
  - right. congruence.
Qed.
Lemma typed_moved : forall sv h i again, Typed sv -> In (h_id h, h) (sv_map sv) -> lookup i (sv_map sv) = None ->
  Typed (setMap sv (moved (sv_map sv) h i again)).
Proof.
  intros sv h i again [L C T] H N. pose proof (lm_wf sv L) as W. constructor.
  - eapply limit_same; [exact L| |reflexivity|reflexivity|].
    + eapply wf_moved; [exact W|exact H|exact N|reflexivity|reflexivity].
    + cbn [setMap sv_map]. eapply cnt_moved; [exact (wf_sess sv W)|exact H|reflexivity].
  - eapply counts_same; [exact C|reflexivity|reflexivity| |]; cbn [setMap sv_map];
      (eapply cnt_moved; [exact (wf_sess sv W)|exact H|reflexivity]).
  - eapply tm_sub; [exact T|]. intros e K _. cbn [setMap sv_map] in K. apply in_moved in K. destruct K as [[K _]|K].
    + exists e. split; [exact K|reflexivity].
    + subst e. exists (h_id h, h). split; [exact H|reflexivity].
Qed.
Lemma typed_on : forall sv sv' s f, Typed sv -> Wf sv' -> (forall h, kind (h_id h, f h) = kind (h_id h, h)) ->
  sv_map sv' = onSession s f (sv_map sv) -> sv_cfg sv' = sv_cfg sv -> sv_ctl sv' = sv_ctl sv -> sv_exc sv' = sv_exc sv ->
  sv_max sv' = sv_max sv -> Typed sv'.
Proof.
  intros sv sv' s f [L C T] W' F M E1 E2 E3 E4.
  assert (forall h, h_used (f h) = h_used h /\ h_type (f h) = h_type h) as G.
  { intro h. specialize (F h). unfold kind in F. cbn [snd] in F. injection F as F1 F2 F3 F4. split; assumption. }
  constructor.
  - eapply limit_same; [exact L|exact W'|exact E1|exact E4|]. rewrite M. apply onSession_count_same. intro h. apply G.
  - eapply counts_same; [exact C|exact E2|exact E3| |]; rewrite M; apply onSession_count_same; intro h;
      unfold fctl, fexc; destruct (G h) as [-> ->]; reflexivity.
  - eapply tm_sub; [exact T|]. intros e K _. rewrite M in K. apply in_onSession in K. destruct K as [x [X ->]].
    exists x. split; [exact X|]. destruct (Nat.eqb (sessOf x) s); [|reflexivity].
    specialize (F (snd x)). unfold kind in *. cbn [snd] in *. symmetry. exact F.
Qed.
Lemma typed_take : forall sv h i again, Typed sv -> In (h_id h, h) (sv_map sv) -> Typed (fst (takeId sv h i again)).
Proof.
  intros sv h i again T H. pose proof (lm_wf sv (ty_limit sv T)) as W. pose proof (wf_take sv h i again W H) as WT.
  destruct (takeId_case sv h i again W H) as [o LI A|A E|o A LI N NI|LN]; cbn [fst] in *.
  - eapply typed_on; [exact T|exact WT| |reflexivity|reflexivity|reflexivity|reflexivity|reflexivity]. reflexivity.
  - apply typed_release. exact T.
  - apply typed_moved; [apply typed_release; exact T|apply still_there; [exact W|exact H|congruence]|].
    apply lookup_none. rewrite release_map by exact W. intro K. apply in_map_iff in K. destruct K as [x [X K]].
    apply in_without in K. destruct K as [K Q]. apply Q. assert (x = (i, o)) as ->; [|reflexivity].
    eapply nodup_inj; [exact (wf_keys sv W)|exact K|exact LI|exact X].
  - apply typed_moved; assumption.
Qed.
(** The handler of the session after its id was taken: the same but for id and reconnection. *)
Lemma take_self : forall sv h i again e, Wf sv -> In (h_id h, h) (sv_map sv) ->
  In e (sv_map (fst (takeId sv h i again))) -> sessOf e = h_sess h ->
  kind e = kind (h_id h, h) /\ h_stream (snd e) = h_stream h /\ h_user (snd e) = h_user h /\ snd (takeId sv h i again) = true.
Proof.
  intros sv h i again e W H K E. destruct (takeId_case sv h i again W H) as [o LI A|A X|o A LI N NI|LN]; cbn [fst snd] in *.
  - cbn [setMap sv_map] in K. apply in_onSession in K. destruct K as [x [Q ->]].
    destruct (Nat.eqb (sessOf x) (h_sess h)) eqn:F.
    + apply Nat.eqb_eq in F. assert (x = (h_id h, h)) as -> by (eapply nodup_inj; [exact (wf_sess sv W)|exact Q|exact H|exact F]).
      repeat split.
    + apply Nat.eqb_neq in F. contradiction.
  - rewrite release_map in K by exact W. apply in_without in K. tauto.
  - cbn [setMap sv_map] in K. apply in_moved in K. destruct K as [[_ K]|K]; [contradiction|]. subst e. repeat split.
  - cbn [setMap sv_map] in K. apply in_moved in K. destruct K as [[_ K]|K]; [contradiction|]. subst e. repeat split.
Qed.
Lemma take_other : forall sv h i again e, Wf sv -> In (h_id h, h) (sv_map sv) -> sessOf e <> h_sess h ->
  (In e (sv_map (fst (takeId sv h i again))) <-> In e (sv_map sv) /\ ~ (fst e = i /\ again = true)).
Proof.
  intros sv h i again e W H E. destruct (takeId_case sv h i again W H) as [o LI A|A X|o A LI N NI|LN]; cbn [fst setMap sv_map].
  - subst again. rewrite in_onSession. split.
    + intros [x [Q ->]]. destruct (Nat.eqb (sessOf x) (h_sess h)) eqn:F.
      * apply Nat.eqb_eq in F. exfalso. apply E. unfold sessOf. cbn [snd setIdentity h_sess]. exact F.
      * split; [exact Q|]. intros [_ K]. discriminate.
    + intros [Q _]. exists e. split; [exact Q|]. apply Nat.eqb_neq in E. rewrite E. reflexivity.
  - rewrite release_map by exact W. rewrite in_without. split; intros [Q K]; split; try assumption.
    intros [K1 _]. apply K. assert (e = (h_id h, h)) as ->; [|reflexivity].
    eapply nodup_inj; [exact (wf_keys sv W)|exact Q|exact H|cbn; congruence].
  - split.
    + intro K. apply in_moved in K. destruct K as [[K _]|K]; [|subst e; exfalso; apply E; reflexivity].
      rewrite release_map in K by exact W. apply in_without in K. destruct K as [K Q]. split; [exact K|].
      intros [X _]. apply Q. assert (e = (i, o)) as ->; [|reflexivity].
      eapply nodup_inj; [exact (wf_keys sv W)|exact K|exact LI|exact X].
    + intros [K Q]. unfold moved. apply in_or_app. left. apply in_without. split; [|exact E].
      rewrite release_map by exact W. apply in_without. split; [exact K|]. intro X. apply Q. split; [|exact A].
      assert (e = (i, o)) as ->; [|reflexivity].
      eapply nodup_inj; [exact (wf_sess sv W)|exact K|exact LI|exact X].
  - split.
    + intro K. apply in_moved in K. destruct K as [[K _]|K]; [|subst e; exfalso; apply E; reflexivity].
      split; [exact K|]. intros [X _]. apply lookup_none in LN. apply LN. rewrite <- X. apply in_map. exact K.
    + intros [K _]. unfold moved. apply in_or_app. left. apply in_without. split; assumption.
Qed.

Lemma announces_eq : forall p t, announces p t -> announced p = t.
Proof.
  intros p t H. unfold announces in H. unfold announced. destruct (p_type p) as [z|]; [|symmetry; exact H].
  unfold intToType. destruct z as [|q|q].
  - cbn. congruence.
  - destruct q as [q|q|]; [ | |cbn; congruence].
    + replace (Z.pos q~1 =? 0) with false by (symmetry; apply Z.eqb_neq; lia).
      replace (Z.pos q~1 =? 1) with false by (symmetry; apply Z.eqb_neq; lia).
      replace (Z.pos q~1 =? 2) with false by (symmetry; apply Z.eqb_neq; lia). congruence.
    + destruct q as [q|q|].
      * replace (Z.pos q~1~0 =? 0) with false by (symmetry; apply Z.eqb_neq; lia).
        replace (Z.pos q~1~0 =? 1) with false by (symmetry; apply Z.eqb_neq; lia).
        replace (Z.pos q~1~0 =? 2) with false by (symmetry; apply Z.eqb_neq; lia). congruence.
      * replace (Z.pos q~0~0 =? 0) with false by (symmetry; apply Z.eqb_neq; lia).
        replace (Z.pos q~0~0 =? 1) with false by (symmetry; apply Z.eqb_neq; lia).
        replace (Z.pos q~0~0 =? 2) with false by (symmetry; apply Z.eqb_neq; lia). congruence.
      * cbn. congruence.
  - replace (Z.neg q =? 0) with false by (symmetry; apply Z.eqb_neq; lia).
    replace (Z.neg q =? 1) with false by (symmetry; apply Z.eqb_neq; lia).
    replace (Z.neg q =? 2) with false by (symmetry; apply Z.eqb_neq; lia). congruence.
Qed.
Lemma announces_announced : forall p, announces p (announced p).
Proof.
  intro p. destruct (announced p) eqn:E; unfold announces, announced in *; destruct (p_type p) as [z|]; try reflexivity; try discriminate;
  unfold intToType in E; destruct z as [|q|q]; try reflexivity; try discriminate;
  destruct q as [q|q|]; try reflexivity; try discriminate; destruct q as [q|q|]; try reflexivity; try discriminate.
Qed.

(** A client announcing the type it has. *)
Lemma typed_kind : forall sv s t d, Typed sv ->
  (forall e, In e (sv_map sv) -> sessOf e = s -> h_used (snd e) = true -> h_type (snd e) = t) ->
  Typed (setMap sv (onSession s (setKind t d) (sv_map sv))).
Proof.
  intros sv s t d [L C T] K. pose proof (lm_wf sv L) as W.
  assert (forall f, (f = fctl \/ f = fexc) -> cnt f (onSession s (setKind t d) (sv_map sv)) = cnt f (sv_map sv)) as CN.
  { intros f F. unfold onSession, cnt. clear - K F. induction (sv_map sv) as [|e m IH]; [reflexivity|].
    cbn [map]. assert (f (snd (if Nat.eqb (h_sess (snd e)) s then (fst e, setKind t d (snd e)) else e)) = f (snd e)) as G.
    { destruct (Nat.eqb (h_sess (snd e)) s) eqn:E; [|reflexivity]. apply Nat.eqb_eq in E. cbn [snd].
      assert (h_used (snd e) = true -> h_type (snd e) = t) as Q. { apply K; [left; reflexivity|exact E]. }
      destruct F as [->| ->]; unfold fctl, fexc, setKind; cbn [h_used h_type];
      (destruct (h_used (snd e)); [rewrite (Q eq_refl); reflexivity|reflexivity]). }
    cbn [filter]. rewrite G. assert (length (filter f (map snd (map (fun e0 => if Nat.eqb (h_sess (snd e0)) s then (fst e0, setKind t d (snd e0)) else e0) m))) = length (filter f (map snd m))) as IH'.
    { apply IH. intros x X. apply K. right. exact X. }
    destruct (f (snd e)); cbn [length]; rewrite IH'; reflexivity. }
  constructor.
  - apply limit_kind. exact L.
  - eapply counts_same; [exact C|reflexivity|reflexivity| |]; cbn [setMap sv_map]; apply CN; tauto.
  - eapply tm_sub; [exact T|]. intros e H U. cbn [setMap sv_map] in H. apply in_onSession in H. destruct H as [x [X ->]].
    exists x. split; [exact X|]. destruct (Nat.eqb (sessOf x) s) eqn:E; [|reflexivity]. apply Nat.eqb_eq in E.
    cbn [snd setKind h_used] in U. unfold kind. cbn [snd setKind h_sess h_used h_type h_rights]. rewrite (K x X E U). reflexivity.
Qed.
Lemma typed_props : forall sv h p, Typed sv -> In (h_id h, h) (sv_map sv) -> keeps_type sv (Props (h_sess h) p) ->
  Typed (fst (onProps sv h p)).
Proof.
  intros sv h p T H K. pose proof (lm_wf sv (ty_limit sv T)) as W.
  assert (h_used h = true -> h_type h = announced p) as Q.
  { intro U. pose proof (tm_rights _ (ty_map sv T) _ H U) as R. cbn [snd] in R.
    symmetry. apply announces_eq. apply (K h (h_type h)); [apply connected_in; assumption|reflexivity|split; assumption]. }
  unfold onProps. destruct (p_identity p) as [[i again]|].
  - pose proof (typed_take sv h i again T H) as T1. pose proof (fun e => take_self sv h i again e W H) as TS.
    destruct (takeId sv h i again) as [sv1 ok]. cbn [fst] in *. destruct ok; cbn [fst]; [|exact T1].
    apply typed_kind; [exact T1|]. intros e X E U. destruct (TS e X E) as [KE _]. unfold kind in KE. cbn [snd] in KE.
    injection KE as K1 K2 K3 K4. rewrite K3. apply Q. congruence.
  - cbn [fst]. apply typed_kind; [exact T|]. intros e X E U.
    assert (e = (h_id h, h)) as -> by (eapply nodup_inj; [exact (wf_sess sv W)|exact X|exact H|exact E]). exact (Q U).
Qed.

(** What the counters say. *)
Lemma tracks_zero : forall sv c f, Wf sv -> Z.of_nat (sv_next sv) < two64 -> tracks c f sv ->
  (0 <? c) = false <-> (forall e, In e (sv_map sv) -> f (snd e) = false).
Proof.
  intros sv c f W B T. unfold tracks in T. pose proof (cnt_le f (sv_map sv)) as L. pose proof (clients_below sv W) as M.
  rewrite w64_small in T by lia. subst c. split.
  - intros E e H. destruct (f (snd e)) eqn:F; [|reflexivity].
    assert (0 < cnt f (sv_map sv))%nat as P by (apply cnt_pos; exists e; split; assumption). lia.
  - intro N. apply Z.ltb_ge. destruct (cnt f (sv_map sv)) eqn:E; [lia|].
    assert (0 < cnt f (sv_map sv))%nat as P by lia. apply cnt_pos in P. destruct P as [e [H F]]. rewrite (N e H) in F. discriminate.
Qed.

Lemma tm_accept : forall m h, NoDup (map sessOf m) -> In (h_id h, h) m -> TM m ->
  (forall e, In e m -> sessOf e <> h_sess h -> h_used (snd e) = true ->
     (h_type h = Exclusive -> h_type (snd e) = ViewOnly) /\ (h_type (snd e) = Exclusive -> h_type h = ViewOnly)) ->
  TM (onSession (h_sess h) setUsed m).
Proof.
  intros m h N H [R A] K. constructor.
  - intros e I0 U. apply in_onSession in I0. destruct I0 as [x [X ->]].
    destruct (Nat.eqb (sessOf x) (h_sess h)); [reflexivity|]. apply R; assumption.
  - intros a b HA HB UA UB NS X. apply in_onSession in HA, HB. destruct HA as [x [XA ->]]. destruct HB as [y [YB ->]].
    destruct (Nat.eqb (sessOf x) (h_sess h)) eqn:EX, (Nat.eqb (sessOf y) (h_sess h)) eqn:EY.
    + apply Nat.eqb_eq in EX, EY. exfalso. apply NS. unfold sessOf in *. cbn [snd setUsed h_sess]. congruence.
    + apply Nat.eqb_eq in EX. apply Nat.eqb_neq in EY.
      assert (x = (h_id h, h)) as -> by (eapply nodup_inj; [exact N|exact XA|exact H|exact EX]).
      cbn [snd setUsed h_type] in X. exact (proj1 (K y YB EY UB) X).
    + apply Nat.eqb_eq in EY. apply Nat.eqb_neq in EX.
      assert (y = (h_id h, h)) as -> by (eapply nodup_inj; [exact N|exact YB|exact H|exact EY]).
      cbn [snd setUsed h_type]. exact (proj2 (K x XA EX UA) X).
    + apply (A x y); assumption.
Qed.
Lemma typed_accept : forall sv h, Typed sv -> In (h_id h, h) (sv_map sv) -> h_used h = false ->
  (sv_max sv <> 0 -> Z.of_nat (cnt h_used (sv_map sv)) < sv_max sv) ->
  (forall e, In e (sv_map sv) -> sessOf e <> h_sess h -> h_used (snd e) = true ->
     (h_type h = Exclusive -> h_type (snd e) = ViewOnly) /\ (h_type (snd e) = Exclusive -> h_type h = ViewOnly)) ->
  Typed (accept sv h).
Proof.
  intros sv h [L [C1 C2] T] H U R K. pose proof (lm_wf sv L) as W. constructor.
  - apply limit_accept; assumption.
  - destruct (accept_cnt sv h W H U) as [_ [A B]]. destruct (accept_counts sv h) as [_ [D [E _]]].
    constructor; unfold tracks.
    + rewrite D, A. destruct (ctype_eqb (h_type h) Control); cbn [bit]; [rewrite C1; apply w64_succ|exact C1].
    + rewrite E, B. destruct (ctype_eqb (h_type h) Exclusive); cbn [bit]; [rewrite C2; apply w64_succ|exact C2].
  - rewrite accept_map. apply tm_accept; [exact (wf_sess sv W)|exact H|exact T|exact K].
Qed.

(** Who is in the way, by the counters. *)
Lemma control_way : forall sv h, Typed sv -> Z.of_nat (sv_next sv) < two64 -> h_type h = Control ->
  controlRejected sv h = false -> forall e, In e (sv_map sv) -> h_used (snd e) = true -> h_type (snd e) <> Exclusive.
Proof.
  intros sv h [L [C1 C2] T] B E R e H U X. unfold controlRejected in R. rewrite E in R. cbn [ctype_eqb andb] in R.
  pose proof (proj1 (tracks_zero sv _ _ (lm_wf sv L) B C2) R e H) as Q. unfold fexc in Q. rewrite U, X in Q. discriminate.
Qed.
Lemma exclusive_way : forall sv h, Typed sv -> Z.of_nat (sv_next sv) < two64 -> h_type h = Exclusive ->
  exclusiveRejected sv h = false -> forall e, In e (sv_map sv) -> h_used (snd e) = true -> h_type (snd e) = ViewOnly.
Proof.
  intros sv h [L [C1 C2] T] B E R e H U. unfold exclusiveRejected in R. rewrite E in R. cbn [ctype_eqb andb] in R.
  apply Bool.orb_false_elim in R. destruct R as [R1 R2].
  pose proof (proj1 (tracks_zero sv _ _ (lm_wf sv L) B C2) R1 e H) as Q1.
  pose proof (proj1 (tracks_zero sv _ _ (lm_wf sv L) B C1) R2 e H) as Q2.
  unfold fexc in Q1. unfold fctl in Q2. rewrite U in Q1, Q2. destruct (h_type (snd e)); try discriminate. reflexivity.
Qed.
Lemma others_way : forall sv h e, Wf sv -> In e (sv_map (releaseOthers sv h)) -> sessOf e <> h_sess h ->
  h_used (snd e) = true -> h_type (snd e) = ViewOnly.
Proof.
  intros sv h e W H N U. rewrite releaseOthers_map in H by exact W. apply filter_In in H. destruct H as [_ H].
  unfold isOtherControl in H. unfold sessOf in N. apply Nat.eqb_neq in N. rewrite N, U in H. cbn [negb andb] in H.
  destruct (h_type (snd e)); try discriminate. reflexivity.
Qed.
Lemma typed_config : forall sv h, Typed sv -> Z.of_nat (sv_next sv) < two64 -> In (h_id h, h) (sv_map sv) -> Typed (fst (onConfig sv h)).
Proof.
  intros sv h T B H. pose proof (ty_limit sv T) as L. pose proof (lm_wf sv L) as W.
  unfold onConfig. destruct (h_used h) eqn:U; [exact T|]. unfold connectConfig.
  destruct (limitReached sv) eqn:E; [exact T|]. pose proof (limitReached_spec sv L E) as R.
  destruct (controlRejected sv h) eqn:RC; [exact T|]. destruct (exclusiveRejected sv h) eqn:RE.
  - destruct (h_drop h && negb (h_again h)); [|exact T]. cbn [fst]. apply typed_accept.
    + apply typed_fold. exact T.
    + apply self_kept; assumption.
    + exact U.
    + rewrite releaseOthers_max. intro N. specialize (R N). pose proof (others_cnt sv h h_used W). lia.
    + intros e X N UE. pose proof (others_way sv h e W X N UE) as V. split; [intros _; exact V|congruence].
  - cbn [fst]. apply typed_accept; try assumption.
    intros e X N UE. split.
    + intro TE. exact (exclusive_way sv h T B TE RE e X UE).
    + intro TX. destruct (h_type h) eqn:TH; [| |reflexivity].
      * exfalso. exact (control_way sv h T B TH RC e X UE TX).
      * pose proof (exclusive_way sv h T B TH RE e X UE). congruence.
Qed.
Definition okT (sv : server) (m : msg) : Prop := keeps_type sv m /\ Z.of_nat (sv_next sv) < two64.

Lemma typed_step : forall sv m, Typed sv -> okT sv m -> Typed (fst (step sv m)).
Proof.
  intros sv m T [K B]. pose proof (ty_limit sv T) as L. pose proof (lm_wf sv L) as W.
  destruct m as [u|s p|s|s|s|]; cbn [step].
  - constructor.
    + apply limit_open. exact L.
    + eapply counts_same; [exact (ty_counts sv T)|reflexivity|reflexivity| |]; apply open_cnt; intros h H;
        unfold fctl, fexc; rewrite H; reflexivity.
    + eapply tm_sub; [exact (ty_map sv T)|]. intros e H U. unfold onOpen in H. cbn [fst sv_map] in H. unfold insert in H.
      destruct (lookup _ (sv_map sv)); [exists e; split; [exact H|reflexivity]|].
      apply in_app_or in H. destruct H as [H|[H|[]]]; [exists e; split; [exact H|reflexivity]|]. subst e. discriminate.
  - unfold withHandler. destruct (findSession s (sv_map sv)) as [[i h]|] eqn:F; [|exact T].
    destruct (handler_of sv s i h W F) as [H [E _]]. subst s. apply typed_props; assumption.
  - unfold withHandler. destruct (findSession s (sv_map sv)) as [[i h]|] eqn:F; [|exact T].
    destruct (handler_of sv s i h W F) as [H [E _]]. apply typed_config; assumption.
  - unfold withHandler. destruct (findSession s (sv_map sv)) as [[i h]|] eqn:F; [|exact T].
    pose proof (wf_stream sv h W) as WS. unfold onStream in *. destruct (hasId (h_id h) (sv_streams sv)); [exact T|]. cbn [fst] in *.
    eapply typed_on; [exact T|exact WS| |reflexivity|reflexivity|reflexivity|reflexivity|reflexivity]. reflexivity.
  - unfold withHandler. destruct (findSession s (sv_map sv)) as [[i h]|] eqn:F; [|exact T]. apply typed_release. exact T.
  - unfold onSignal. destruct (forallb _ _); exact T.
Qed.
Lemma typed_start : forall max, 0 <= max < two64 -> Typed (start max).
Proof.
  intros max M. constructor; [apply limit_start; exact M|constructor; reflexivity|].
  constructor; [intros e []|intros a b []].
Qed.
Lemma typed_run : forall ms sv, Typed sv -> along keeps_type sv ms ->
  Z.of_nat (sv_next sv) + Z.of_nat (length ms) < two64 ->
  Typed (run sv ms) /\ Z.of_nat (sv_next (run sv ms)) < two64.
Proof.
  induction ms as [|m t IH]; intros sv T A B; cbn [length] in B.
  - split; [exact T|]. cbn [run fold_left]. lia.
  - destruct A as [A1 A2]. rewrite run_cons. pose proof (step_next sv m (lm_wf sv (ty_limit sv T))) as N. apply IH.
    + apply typed_step; [exact T|]. split; [exact A1|lia].
    + exact A2.
    + lia.
Qed.
