(** The numbers of the device's list of clients, the streaming ids, and the list itself. *)
From Verif Require Import Base Sess_Model Sess_Spec Sess_Proofs Sess_Count Sess_Types.
Local Open Scope Z_scope.

(** ** Numbers *)
Definition nums (sv : server) : list nat := map e_num (sv_shown sv).

Record Nums (sv : server) : Prop := {
  nu_shown : NoDup (nums sv);
  nu_gone : NoDup (map snd (sv_gone sv));
  nu_apart : forall n, In n (map snd (sv_gone sv)) -> ~ In n (nums sv);
  nu_reg : NoDup (map snd (sv_reg sv));
  nu_listed : incl (map snd (sv_reg sv)) (nums sv);
  nu_bound : forall n, In n (nums sv) \/ In n (map snd (sv_gone sv)) -> (1 <= n <= sv_total sv)%nat;
  nu_gkeys : NoDup (map fst (sv_gone sv));
  nu_rkeys : NoDup (map fst (sv_reg sv)) }.

Definition sameList (sv sv' : server) : Prop :=
  sv_reg sv' = sv_reg sv /\ sv_gone sv' = sv_gone sv /\ sv_total sv' = sv_total sv /\ sv_shown sv' = sv_shown sv.

Lemma nums_same : forall sv sv', sameList sv sv' -> Nums sv -> Nums sv'.
Proof.
  intros sv sv' [A [B [C D]]] N. destruct N. constructor; unfold nums in *; rewrite ?A, ?B, ?C, ?D; assumption.
Qed.
Lemma snd_erase : forall A i (m : list (cid * A)) v, In v (map snd (erase i m)) -> In v (map snd m).
Proof.
  intros A i m v H. apply in_map_iff in H. destruct H as [x [E H]]. apply in_erase in H. apply in_map_iff. exists x. tauto.
Qed.
Lemma nodup_snd_other : forall A i (m : list (cid * A)) n, NoDup (map snd m) -> NoDup (map fst m) -> lookup i m = Some n -> ~ In n (map snd (erase i m)).
Proof.
  intros A i m n NS NF L H. apply lookup_in in L. apply in_map_iff in H. destruct H as [x [E H]]. apply in_erase in H.
  destruct H as [H K]. apply K. assert (x = (i, n)) as ->; [|reflexivity].
  eapply nodup_inj; [exact NS|exact H|exact L|exact E].
Qed.
Lemma insert_snd : forall A i (v : A) m x, In x (map snd (insert i v m)) -> x = v \/ In x (map snd m).
Proof.
  intros A i v m x H. unfold insert in H. destruct (lookup i m); [right; exact H|]. rewrite map_app in H.
  apply in_app_or in H. destruct H as [H|[H|[]]]; [right; exact H|left; cbn in H; congruence].
Qed.
Lemma nodup_insert_snd : forall A i (v : A) m, NoDup (map snd m) -> ~ In v (map snd m) -> NoDup (map snd (insert i v m)).
Proof.
  intros A i v m N H. unfold insert. destruct (lookup i m); [exact N|]. rewrite map_app. apply nodup_snoc; assumption.
Qed.
Lemma nodup_insert_fst : forall A i (v : A) m, NoDup (map fst m) -> NoDup (map fst (insert i v m)).
Proof.
  intros A i v m N. unfold insert. destruct (lookup i m) eqn:L; [exact N|]. rewrite map_app. apply nodup_snoc; [exact N|].
  apply lookup_none. exact L.
Qed.

Lemma nums_disconnected : forall sv i, Nums sv -> Nums (clientDisconnected sv i).
Proof.
  intros sv i N. unfold clientDisconnected. destruct (lookup i (sv_reg sv)) as [n|] eqn:L; [|exact N].
  assert (In n (nums sv)) as NI.
  { apply (nu_listed sv N). apply in_map_iff. exists (i, n). split; [reflexivity|]. apply lookup_in. exact L. }
  assert (forall x, In x (nums (setList sv (erase i (sv_reg sv)) (insert i n (sv_gone sv)) (sv_total sv)
     (filter (fun e => negb (Nat.eqb (e_num e) n)) (sv_shown sv)))) <-> In x (nums sv) /\ x <> n) as SH.
  { intro x. unfold nums. cbn [setList sv_shown]. rewrite !in_map_iff. split.
    - intros [e [E H]]. apply filter_In in H. destruct H as [H K]. destruct (Nat.eqb (e_num e) n) eqn:Q; [discriminate|].
      apply Nat.eqb_neq in Q. split; [exists e; split; assumption|congruence].
    - intros [[e [E H]] K]. exists e. split; [exact E|]. apply filter_In. split; [exact H|].
      assert (Nat.eqb (e_num e) n = false) as -> by (apply Nat.eqb_neq; congruence). reflexivity. }
  constructor.
  - unfold nums. cbn [setList sv_shown]. apply nodup_map_filter. exact (nu_shown sv N).
  - cbn [setList sv_gone]. apply nodup_insert_snd; [exact (nu_gone sv N)|]. intro K. exact (nu_apart sv N n K NI).
  - cbn [setList sv_gone]. intros x K Q. apply SH in Q. destruct Q as [Q1 Q2]. apply insert_snd in K.
    destruct K as [K|K]; [contradiction|]. exact (nu_apart sv N x K Q1).
  - cbn [setList sv_reg]. apply nodup_map_filter. exact (nu_reg sv N).
  - cbn [setList sv_reg]. intros x K. apply SH. split.
    + apply (nu_listed sv N). eapply snd_erase. exact K.
    + intro Q. subst x. revert K. apply nodup_snd_other; [exact (nu_reg sv N)|exact (nu_rkeys sv N)|exact L].
  - cbn [setList sv_gone sv_total]. intros x [K|K].
    + apply SH in K. apply (nu_bound sv N). left. tauto.
    + apply insert_snd in K. apply (nu_bound sv N). destruct K as [K|K]; [subst x; left; exact NI|right; exact K].
  - cbn [setList sv_gone]. apply nodup_insert_fst. exact (nu_gkeys sv N).
  - cbn [setList sv_reg]. apply nodup_map_filter. exact (nu_rkeys sv N).
Qed.

(** The number a client is listed under. *)
Lemma connected_number : forall sv i s w, Nums sv -> exists num total,
  sv_shown (clientConnected sv i s w) = sv_shown sv ++ [{| e_num := num; e_sess := s; e_what := w;
       e_again := match lookup i (sv_gone sv) with Some _ => true | None => false end |}] /\
  sv_reg (clientConnected sv i s w) = insert i num (sv_reg sv) /\
  sv_gone (clientConnected sv i s w) = erase i (sv_gone sv) /\
  sv_total (clientConnected sv i s w) = total /\
  match lookup i (sv_gone sv) with
  | Some n => num = n /\ total = sv_total sv
  | None => num = S (sv_total sv) /\ total = S (sv_total sv)
  end.
Proof.
  intros sv i s w N. unfold clientConnected. cbv zeta. cbn [setList sv_shown sv_reg sv_gone sv_total].
  destruct (lookup i (sv_gone sv)) as [n|] eqn:L.
  - assert (1 <= n <= sv_total sv)%nat as B.
    { apply (nu_bound sv N). right. apply in_map_iff. exists (i, n). split; [reflexivity|]. apply lookup_in. exact L. }
    assert (Nat.eqb n 0 = false) as -> by (apply Nat.eqb_neq; lia).
    assert (Nat.ltb (sv_total sv) n = false) as -> by (apply Nat.ltb_ge; lia). cbn [orb].
    exists n, (sv_total sv). repeat split.
  - cbn [Nat.eqb orb]. exists (S (sv_total sv)), (S (sv_total sv)). repeat split.
Qed.
Lemma nums_connected : forall sv i s w, Nums sv -> Nums (clientConnected sv i s w).
Proof.
  intros sv i s w N. destruct (connected_number sv i s w N) as [num [total [SH [RG [GN [TT C]]]]]].
  assert (~ In num (nums sv) /\ ~ In num (map snd (erase i (sv_gone sv))) /\ (1 <= num <= total)%nat /\ (sv_total sv <= total)%nat) as [F1 [F2 [F3 F4]]].
  { destruct (lookup i (sv_gone sv)) as [n|] eqn:L; destruct C as [-> ->].
    - assert (In n (map snd (sv_gone sv))) as G. { apply in_map_iff. exists (i, n). split; [reflexivity|]. apply lookup_in. exact L. }
      repeat split.
      + exact (nu_apart sv N n G).
      + apply nodup_snd_other; [exact (nu_gone sv N)|exact (nu_gkeys sv N)|exact L].
      + apply (nu_bound sv N). right. exact G.
      + apply (nu_bound sv N). right. exact G.
      + apply le_n.
    - repeat split; try lia; intro K.
      + pose proof (nu_bound sv N _ (or_introl K)). lia.
      + apply snd_erase in K. pose proof (nu_bound sv N _ (or_intror K)). lia. }
  assert (nums (clientConnected sv i s w) = nums sv ++ [num]) as NM.
  { unfold nums. rewrite SH, map_app. reflexivity. }
  constructor; rewrite ?NM, ?RG, ?GN, ?TT.
  - apply nodup_snoc; [exact (nu_shown sv N)|exact F1].
  - apply nodup_map_filter. exact (nu_gone sv N).
  - intros n K Q. apply in_app_or in Q. destruct Q as [Q|[Q|[]]].
    + apply snd_erase in K. exact (nu_apart sv N n K Q).
    + subst n. contradiction.
  - apply nodup_insert_snd; [exact (nu_reg sv N)|]. intro K. apply F1. apply (nu_listed sv N). exact K.
  - intros n K. apply insert_snd in K. apply in_or_app. destruct K as [K|K].
    + right. left. congruence.
    + left. apply (nu_listed sv N). exact K.
  - intros n [K|K].
    + apply in_app_or in K. destruct K as [K|[K|[]]]; [pose proof (nu_bound sv N n (or_introl K)); lia|subst n; exact F3].
    + apply snd_erase in K. pose proof (nu_bound sv N n (or_intror K)). lia.
  - apply nodup_map_filter. exact (nu_gkeys sv N).
  - apply nodup_insert_fst. exact (nu_rkeys sv N).
Qed.
Lemma countOut_list : forall sv h, sameList sv (countOut sv h).
Proof. intros sv h. unfold countOut. destruct (h_used h); repeat split. Qed.
Lemma nums_release : forall sv s, Nums sv -> Nums (release sv s).
Proof.
  intros sv s N. unfold release. destruct (findSession s (sv_map sv)) as [[i h]|]; [|exact N]. cbv zeta.
  assert (Nums (if hasId i (sv_streams sv) || h_used h then clientDisconnected sv i else sv)) as N1.
  { destruct (hasId i (sv_streams sv) || h_used h); [apply nums_disconnected|]; exact N. }
  revert N1. generalize (if hasId i (sv_streams sv) || h_used h then clientDisconnected sv i else sv). intros v N1.
  eapply nums_same; [|exact N1]. destruct (countOut_list (setStreams v (filter (fun k => negb (cid_eqb i k)) (sv_streams v))) h) as [A [B [C D]]].
  unfold sameList. cbn [setMap sv_reg sv_gone sv_total sv_shown]. rewrite A, B, C, D. repeat split.
Qed.
Lemma nums_take : forall sv h i again, Wf sv -> In (h_id h, h) (sv_map sv) -> Nums sv -> Nums (fst (takeId sv h i again)).
Proof.
  intros sv h i again W H N. destruct (takeId_case sv h i again W H) as [o LI A|A E|o A LI NS NI|LN]; cbn [fst].
  - eapply nums_same; [|exact N]. repeat split.
  - apply nums_release. exact N.
  - eapply nums_same; [|exact (nums_release sv (h_sess o) N)]. repeat split.
  - eapply nums_same; [|exact N]. repeat split.
Qed.
Lemma nums_fold : forall l sv, Nums sv -> Nums (fold_left release l sv).
Proof. induction l as [|s t IH]; intros sv N; cbn [fold_left]; [exact N|]. apply IH. apply nums_release. exact N. Qed.
Lemma nums_accept : forall sv h, Nums sv -> Nums (accept sv h).
Proof.
  intros sv h N. unfold accept. cbv zeta. apply nums_connected. eapply nums_same; [|exact N]. repeat split.
Qed.
Lemma nums_step : forall sv m, Wf sv -> Nums sv -> Nums (fst (step sv m)).
Proof.
  intros sv m W N. destruct m as [u|s p|s|s|s|]; cbn [step].
  - eapply nums_same; [|exact N]. repeat split.
  - unfold withHandler. destruct (findSession s (sv_map sv)) as [[i h]|] eqn:F; [|exact N].
    destruct (handler_of sv s i h W F) as [H _]. unfold onProps. destruct (p_identity p) as [[j a]|].
    + pose proof (nums_take sv h j a W H N) as N1. destruct (takeId sv h j a) as [sv1 ok]. cbn [fst] in N1.
      destruct ok; cbn [fst]; [|exact N1]. eapply nums_same; [|exact N1]. repeat split.
    + eapply nums_same; [|exact N]. repeat split.
  - unfold withHandler. destruct (findSession s (sv_map sv)) as [[i h]|]; [|exact N].
    unfold onConfig, connectConfig. destruct (h_used h); [exact N|]. destruct (limitReached sv); [exact N|].
    destruct (controlRejected sv h); [exact N|]. destruct (exclusiveRejected sv h); [|apply nums_accept; exact N].
    destruct (h_drop h && negb (h_again h)); [|exact N]. cbn [fst]. apply nums_accept. apply nums_fold. exact N.
  - unfold withHandler. destruct (findSession s (sv_map sv)) as [[i h]|]; [|exact N].
    unfold onStream. destruct (hasId (h_id h) (sv_streams sv)); [exact N|]. cbv zeta. cbn [fst]. apply nums_connected.
    eapply nums_same; [|exact N]. repeat split.
  - unfold withHandler. destruct (findSession s (sv_map sv)) as [[i h]|]; [|exact N]. apply nums_release. exact N.
  - unfold onSignal. destruct (forallb _ _); exact N.
Qed.
Lemma nums_start : forall max, Nums (start max).
Proof.
  intros max. constructor; try apply NoDup_nil.
  - intros n [].
  - intros n [].
  - intros n [[]|[]].
Qed.
Lemma nums_run : forall ms sv, Wf sv -> Nums sv -> Nums (run sv ms).
Proof.
  induction ms as [|m t IH]; intros sv W N; [exact N|]. rewrite run_cons. apply IH; [apply wf_step|apply nums_step]; assumption.
Qed.

(** ** Streaming ids *)
Lemma hasId_spec : forall i l, hasId i l = true <-> In i l.
Proof.
  intros i l. unfold hasId. rewrite existsb_exists. split.
  - intros [x [H E]]. apply cid_eqb_spec in E. congruence.
  - intro H. exists i. split; [exact H|apply cid_eqb_refl].
Qed.

(** What matters of a client for the lists. *)
Definition view (h : handler) := (h_sess h, h_id h, h_used h, h_rights h, h_stream h).
Definition sees (sv sv' : server) : Prop :=
  forall h, connected sv h -> in_use h -> exists h', connected sv' h' /\ view h' = view h.

Record Streamed (sv : server) : Prop := {
  st_own : forall h i, connected sv h -> h_stream h = Some i -> i = h_id h;
  st_ids : forall i, In i (sv_streams sv) <-> exists h, connected sv h /\ h_id h = i /\ h_stream h <> None }.

Lemma view_use : forall h h', view h' = view h -> in_use h -> in_use h'.
Proof. intros h h' V U. unfold view in V. injection V as V1 V2 V3 V4 V5. unfold in_use in *. rewrite V3, V5. exact U. Qed.
Lemma streamed_same : forall sv sv', Streamed sv -> sees sv sv' -> sees sv' sv -> sv_streams sv' = sv_streams sv -> Streamed sv'.
Proof.
  intros sv sv' [O D] A B E. constructor.
  - intros h i C S0. assert (in_use h) as U by (right; congruence). destruct (B h C U) as [x [X V]].
    unfold view in V. injection V as V1 V2 V3 V4 V5. rewrite <- V2. apply O; [exact X|congruence].
  - intro i. rewrite E, D. split; intros [h [C [H S0]]].
    + destruct (A h C (or_intror S0)) as [x [X V]]. unfold view in V. injection V as V1 V2 V3 V4 V5.
      exists x. repeat split; [exact X|congruence|congruence].
    + destruct (B h C (or_intror S0)) as [x [X V]]. unfold view in V. injection V as V1 V2 V3 V4 V5.
      exists x. repeat split; [exact X|congruence|congruence].
Qed.
Lemma connected_release : forall sv s h, Wf sv -> connected (release sv s) h <-> connected sv h /\ h_sess h <> s.
Proof.
  intros sv s h W. rewrite (connected_in _ _ (wf_release sv s W)), (connected_in _ _ W), release_map by exact W.
  rewrite in_without. reflexivity.
Qed.
Lemma disconnected_streams : forall sv i, sv_streams (clientDisconnected sv i) = sv_streams sv.
Proof. intros sv i. unfold clientDisconnected. destruct (lookup i (sv_reg sv)); reflexivity. Qed.
Lemma release_streams : forall sv h, Wf sv -> connected sv h ->
  sv_streams (release sv (h_sess h)) = filter (fun k => negb (cid_eqb (h_id h) k)) (sv_streams sv).
Proof.
  intros sv h W C. apply connected_in in C; [|exact W]. unfold release. rewrite (in_findSession _ _ _ (wf_sess sv W) C). cbv zeta.
  unfold countOut, setStreams. destruct (h_used h); rewrite ?Bool.orb_true_r, ?Bool.orb_false_r; cbn [setCounts setMap sv_streams].
  - rewrite disconnected_streams. reflexivity.
  - destruct (hasId (h_id h) (sv_streams sv)); [rewrite disconnected_streams|]; reflexivity.
Qed.
Lemma streamed_release : forall sv s, Wf sv -> Streamed sv -> Streamed (release sv s).
Proof.
  intros sv s W ST. destruct (findSession s (sv_map sv)) as [[i0 h0]|] eqn:F; [|rewrite release_none by exact F; exact ST].
  destruct (handler_of sv s i0 h0 W F) as [H [E _]]. subst s. apply connected_in in H; [|exact W].
  destruct ST as [O D]. constructor.
  - intros h i C S0. apply connected_release in C; [|exact W]. apply O; tauto.
  - intro i. rewrite release_streams by assumption. rewrite filter_In, D. split.
    + intros [[h [C [I0 S0]]] K]. exists h. split; [|split; assumption]. apply connected_release; [exact W|]. split; [exact C|].
      intro Q. rewrite (same_session sv h h0 W C H Q) in I0. subst i. rewrite cid_eqb_refl in K. discriminate.
    + intros [h [C [I0 S0]]]. apply connected_release in C; [|exact W]. destruct C as [C Q]. split; [exists h; repeat split; assumption|].
      assert (cid_eqb (h_id h0) i = false) as ->; [|reflexivity]. apply cid_eqb_neq. intro X. apply Q.
      rewrite (same_id sv h h0 W C H) by congruence. reflexivity.
Qed.
Lemma streamed_fold : forall l sv, Wf sv -> Streamed sv -> Streamed (fold_left release l sv).
Proof.
  induction l as [|s t IH]; intros sv W N; cbn [fold_left]; [exact N|]. apply IH; [apply wf_release|apply streamed_release]; assumption.
Qed.

(** A map changed at one session. *)
Lemma connected_on : forall sv sv' s f, Wf sv -> Wf sv' -> sv_map sv' = onSession s f (sv_map sv) ->
  forall h', connected sv' h' <-> exists h, connected sv h /\ h' = (if Nat.eqb (h_sess h) s then f h else h).
Proof.
  intros sv sv' s f W W' M h'. unfold connected, clients. rewrite M, in_map_iff. split.
  - intros [e [E H]]. apply in_onSession in H. destruct H as [x [X ->]]. exists (snd x). split; [apply in_map; exact X|].
    unfold sessOf in E. destruct (Nat.eqb (h_sess (snd x)) s); cbn [snd] in E; congruence.
  - intros [h [H E]]. apply in_map_iff in H. destruct H as [x [X H]]. subst h.
    exists (if Nat.eqb (sessOf x) s then (fst x, f (snd x)) else x). split.
    + unfold sessOf. subst h'. destruct (Nat.eqb (h_sess (snd x)) s); reflexivity.
    + apply in_onSession. exists x. split; [exact H|reflexivity].
Qed.
Lemma sees_on : forall sv sv' s f, Wf sv -> Wf sv' -> sv_map sv' = onSession s f (sv_map sv) ->
  (forall h, connected sv h -> h_sess h = s -> view (f h) = view h) -> sees sv sv' /\ sees sv' sv.
Proof.
  intros sv sv' s f W W' M V. split; intros h C U.
  - exists (if Nat.eqb (h_sess h) s then f h else h). split.
    + apply (connected_on sv sv' s f W W' M). exists h. split; [exact C|reflexivity].
    + destruct (Nat.eqb (h_sess h) s) eqn:E; [|reflexivity]. apply V; [exact C|]. apply Nat.eqb_eq. exact E.
  - apply (connected_on sv sv' s f W W' M) in C. destruct C as [x [X E]]. exists x. split; [exact X|]. subst h.
    destruct (Nat.eqb (h_sess x) s) eqn:E; [|reflexivity]. symmetry. apply V; [exact X|]. apply Nat.eqb_eq. exact E.
Qed.
Lemma connected_moved : forall sv sv' h i again, sv_map sv' = moved (sv_map sv) h i again ->
  forall x, connected sv' x <-> (connected sv x /\ h_sess x <> h_sess h) \/ x = setIdentity i again h.
Proof.
  intros sv sv' h i again M x. unfold connected, clients. rewrite M. unfold moved. rewrite map_app, in_app_iff.
  cbn [map snd In]. rewrite !in_map_iff. split.
  - intros [[e [E H]]|[H|[]]].
    + left. apply in_without in H. subst x. split; [exists e; tauto|]. apply H.
    + right. congruence.
  - intros [[[e [E H]] N]|H].
    + left. exists e. split; [exact E|]. apply in_without. split; [exact H|]. unfold sessOf. congruence.
    + right. left. congruence.
Qed.
Lemma sees_moved : forall sv sv' h i again, Wf sv -> connected sv h -> sv_map sv' = moved (sv_map sv) h i again -> ~ in_use h ->
  sees sv sv' /\ sees sv' sv.
Proof.
  intros sv sv' h i again W H M N. split; intros x C U.
  - exists x. split; [|reflexivity]. apply (connected_moved sv sv' h i again M). left. split; [exact C|]. intro E.
    apply N. rewrite <- (same_session sv x h W C H E). exact U.
  - apply (connected_moved sv sv' h i again M) in C. destruct C as [[C _]|C].
    + exists x. split; [exact C|reflexivity].
    + subst x. exfalso. apply N. exact U.
Qed.

(** ** The device's list *)
Record Listed (sv : server) : Prop := {
  li_wf : Wf sv;
  li_nums : Nums sv;
  li_str : Streamed sv;
  li_one : forall h, connected sv h -> h_used h = true -> h_stream h = None;
  li_reg : forall i, In i (map fst (sv_reg sv)) <-> exists h, connected sv h /\ h_id h = i /\ in_use h;
  li_shown : forall e, In e (sv_shown sv) -> exists h, connected sv h /\ entry_of h e /\ lookup (h_id h) (sv_reg sv) = Some (e_num e) }.

Lemma view_entry : forall h h' e, view h' = view h -> entry_of h e -> entry_of h' e.
Proof.
  intros h h' e V [A B]. unfold view in V. injection V as V1 V2 V3 V4 V5. split; [congruence|].
  destruct (e_what e); unfold has_rights in *; rewrite ?V3, ?V4, ?V5; exact B.
Qed.
Lemma entry_use : forall h e, entry_of h e -> in_use h.
Proof. intros h e [_ B]. unfold in_use. destruct (e_what e) as [t|]; [left; apply B|right; exact B]. Qed.
Lemma listed_same : forall sv sv', Listed sv -> Wf sv' -> sees sv sv' -> sees sv' sv -> sv_streams sv' = sv_streams sv ->
  sameList sv sv' -> Listed sv'.
Proof.
  intros sv sv' L W' A B E SL. pose proof SL as [R [G [TT SH]]]. constructor.
  - exact W'.
  - eapply nums_same; [exact SL|exact (li_nums sv L)].
  - eapply streamed_same; [exact (li_str sv L)|exact A|exact B|exact E].
  - intros h C U. destruct (B h C (or_introl U)) as [x [X V]]. unfold view in V. injection V as V1 V2 V3 V4 V5.
    rewrite <- V5. apply (li_one sv L); [exact X|congruence].
  - intro i. rewrite R, (li_reg sv L). split; intros [h [C [H U]]].
    + destruct (A h C U) as [x [X V]]. exists x. repeat split; [exact X|unfold view in V; congruence|eapply view_use; eassumption].
    + destruct (B h C U) as [x [X V]]. exists x. repeat split; [exact X|unfold view in V; congruence|eapply view_use; eassumption].
  - intros e H. rewrite SH in H. destruct (li_shown sv L e H) as [h [C [EO K]]].
    destruct (A h C (entry_use h e EO)) as [x [X V]]. exists x. split; [exact X|]. split; [eapply view_entry; eassumption|].
    rewrite R. unfold view in V. injection V as V1 V2 V3 V4 V5. rewrite V2. exact K.
Qed.
Lemma lookup_erase : forall A i j (m : list (cid * A)), j <> i -> lookup j (erase i m) = lookup j m.
Proof.
  intros A i j m N. unfold erase. induction m as [|[k v] t IH]; [reflexivity|]. cbn [filter fst lookup].
  destruct (cid_eqb i k) eqn:E; cbn [negb].
  - apply cid_eqb_spec in E. subst k. rewrite IH. assert (cid_eqb j i = false) as -> by (apply cid_eqb_neq; exact N). reflexivity.
  - cbn [lookup]. rewrite IH. reflexivity.
Qed.
Lemma release_list : forall sv h, Wf sv -> connected sv h -> Streamed sv ->
  (in_use h -> sameList (clientDisconnected sv (h_id h)) (release sv (h_sess h))) /\
  (~ in_use h -> sameList sv (release sv (h_sess h))).
Proof.
  intros sv h W C ST.
  assert (hasId (h_id h) (sv_streams sv) = true <-> h_stream h <> None) as HS.
  { rewrite hasId_spec, (st_ids sv ST). split.
    - intros [x [X [E S0]]]. rewrite (same_id sv x h W X C E) in S0. exact S0.
    - intro S0. exists h. repeat split; assumption. }
  pose proof C as C0. apply connected_in in C; [|exact W].
  unfold release. rewrite (in_findSession _ _ _ (wf_sess sv W) C). cbv zeta.
  split; intro U.
  - assert (hasId (h_id h) (sv_streams sv) || h_used h = true) as ->.
    { apply Bool.orb_true_iff. destruct U as [U|U]; [right; exact U|left; apply HS; exact U]. }
    destruct (countOut_list (setStreams (clientDisconnected sv (h_id h)) (filter (fun k => negb (cid_eqb (h_id h) k)) (sv_streams (clientDisconnected sv (h_id h))))) h) as [A [B [D E]]].
    unfold sameList. cbn [setMap sv_reg sv_gone sv_total sv_shown]. rewrite A, B, D, E. repeat split.
  - assert (hasId (h_id h) (sv_streams sv) || h_used h = false) as ->.
    { apply Bool.orb_false_iff. split.
      - destruct (hasId (h_id h) (sv_streams sv)); [|reflexivity]. exfalso. apply U. right. apply HS. reflexivity.
      - destruct (h_used h) eqn:Q; [|reflexivity]. exfalso. apply U. left. exact Q. }
    destruct (countOut_list (setStreams sv (filter (fun k => negb (cid_eqb (h_id h) k)) (sv_streams sv))) h) as [A [B [D E]]].
    unfold sameList. cbn [setMap sv_reg sv_gone sv_total sv_shown]. rewrite A, B, D, E. repeat split.
Qed.
Lemma in_use_dec : forall h, in_use h \/ ~ in_use h.
Proof.
  intro h. unfold in_use. destruct (h_used h); [left; left; reflexivity|]. destruct (h_stream h); [left; right; discriminate|].
  right. intros [H|H]; [discriminate|congruence].
Qed.
Lemma listed_release : forall sv s, Listed sv -> Listed (release sv s).
Proof.
  intros sv s L. pose proof (li_wf sv L) as W.
  destruct (findSession s (sv_map sv)) as [[i0 h0]|] eqn:F; [|rewrite release_none by exact F; exact L].
  destruct (handler_of sv s i0 h0 W F) as [H [E _]]. subst s. apply connected_in in H; [|exact W].
  destruct (release_list sv h0 W H (li_str sv L)) as [RU RN]. destruct (in_use_dec h0) as [U|U].
  - destruct (RU U) as [R [G [TT SH]]].
    assert (exists n, lookup (h_id h0) (sv_reg sv) = Some n) as [n LK].
    { destruct (lookup (h_id h0) (sv_reg sv)) as [n|] eqn:LK; [exists n; reflexivity|]. apply lookup_none in LK. exfalso. apply LK.
      apply (li_reg sv L). exists h0. repeat split; assumption. }
    unfold clientDisconnected in R, SH. rewrite LK in R, SH. cbn [setList sv_reg sv_shown] in R, SH.
    constructor.
    + apply wf_release. exact W.
    + apply nums_release. exact (li_nums sv L).
    + apply streamed_release; [exact W|exact (li_str sv L)].
    + intros h C. apply connected_release in C; [|exact W]. apply (li_one sv L). tauto.
    + intro i. rewrite R. split.
      * intro K. apply in_map_iff in K. destruct K as [x [X K]]. apply in_erase in K. destruct K as [K Q].
        assert (In i (map fst (sv_reg sv))) as KI by (apply in_map_iff; exists x; split; assumption).
        apply (li_reg sv L) in KI. destruct KI as [h [C [I0 UH]]]. exists h. split; [|split; assumption].
        apply connected_release; [exact W|]. split; [exact C|]. intro Z0. apply Q. rewrite X, <- I0.
        rewrite (same_session sv h h0 W C H Z0). reflexivity.
      * intros [h [C [I0 UH]]]. apply connected_release in C; [|exact W]. destruct C as [C Q].
        assert (In i (map fst (sv_reg sv))) as KI by (apply (li_reg sv L); exists h; repeat split; assumption).
        apply in_map_iff in KI. destruct KI as [x [X K]]. apply in_map_iff. exists x. split; [exact X|]. apply in_erase. split; [exact K|].
        rewrite X, <- I0. intro Z0. apply Q. rewrite (same_id sv h h0 W C H Z0). reflexivity.
    + intros e K. rewrite SH in K. apply filter_In in K. destruct K as [K Q]. destruct (li_shown sv L e K) as [h [C [EO LH]]].
      assert (h_id h <> h_id h0) as NI. { intro Z0. rewrite Z0, LK in LH. injection LH as LH. rewrite LH, Nat.eqb_refl in Q. discriminate. }
      exists h. split; [|split; [exact EO|]].
      * apply connected_release; [exact W|]. split; [exact C|]. intro Z0. apply NI. rewrite (same_session sv h h0 W C H Z0). reflexivity.
      * rewrite R, lookup_erase by exact NI. exact LH.
  - destruct (RN U) as [R [G [TT SH]]]. constructor.
    + apply wf_release. exact W.
    + apply nums_release. exact (li_nums sv L).
    + apply streamed_release; [exact W|exact (li_str sv L)].
    + intros h C. apply connected_release in C; [|exact W]. apply (li_one sv L). tauto.
    + intro i. rewrite R, (li_reg sv L). split; intros [h [C [I0 UH]]]; exists h; (split; [|split; assumption]).
      * apply connected_release; [exact W|]. split; [exact C|]. intro Z0. apply U. rewrite <- (same_session sv h h0 W C H Z0). exact UH.
      * apply connected_release in C; tauto.
    + intros e K. rewrite SH in K. destruct (li_shown sv L e K) as [h [C [EO LH]]]. exists h. split; [|split; [exact EO|rewrite R; exact LH]].
      apply connected_release; [exact W|]. split; [exact C|]. intro Z0. apply U. rewrite <- (same_session sv h h0 W C H Z0).
      exact (entry_use h e EO).
Qed.
Lemma listed_fold : forall l sv, Listed sv -> Listed (fold_left release l sv).
Proof. induction l as [|s t IH]; intros sv N; cbn [fold_left]; [exact N|]. apply IH. apply listed_release. exact N. Qed.

(** A client that was not in use begins to configure or to stream. *)
Lemma lookup_insert_other : forall A i j (v : A) m, j <> i -> lookup j (insert i v m) = lookup j m.
Proof.
  intros A i j v m N. unfold insert. destruct (lookup i m); [reflexivity|]. induction m as [|[k w] t IH]; cbn [app lookup].
  - assert (cid_eqb j i = false) as -> by (apply cid_eqb_neq; exact N). reflexivity.
  - rewrite IH. reflexivity.
Qed.
Lemma lookup_insert_new : forall A i (v : A) m, lookup i m = None -> lookup i (insert i v m) = Some v.
Proof.
  intros A i v m N. unfold insert. rewrite N. induction m as [|[k w] t IH]; cbn [app lookup].
  - rewrite cid_eqb_refl. reflexivity.
  - cbn [lookup] in N. destruct (cid_eqb i k); [discriminate|]. apply IH. exact N.
Qed.
Lemma keys_insert_new : forall A i (v : A) m k, lookup i m = None -> In k (map fst (insert i v m)) <-> k = i \/ In k (map fst m).
Proof.
  intros A i v m k N. unfold insert. rewrite N, map_app, in_app_iff. cbn [map fst In]. intuition congruence.
Qed.
Lemma listed_add : forall sv sv1 h f w, Listed sv -> Wf sv1 -> connected sv h -> ~ in_use h ->
  sv_map sv1 = onSession (h_sess h) f (sv_map sv) ->
  (forall i, In i (sv_streams sv1) <-> In i (sv_streams sv) \/ (h_stream (f h) <> None /\ i = h_id h)) ->
  sameList sv sv1 -> h_sess (f h) = h_sess h -> h_id (f h) = h_id h ->
  (h_stream (f h) = None \/ h_stream (f h) = Some (h_id h)) ->
  (h_used (f h) = true -> h_stream (f h) = None) ->
  (forall n b, entry_of (f h) {| e_num := n; e_sess := h_sess h; e_what := w; e_again := b |}) ->
  Listed (clientConnected sv1 (h_id h) (h_sess h) w).
Proof.
  intros sv sv1 h f w L W1 H NU M STR SL FS FI FST FO FE. pose proof (li_wf sv L) as W.
  pose proof SL as [R [G [TT SH]]].
  assert (lookup (h_id h) (sv_reg sv) = None) as LN.
  { apply lookup_none. intro K. apply (li_reg sv L) in K. destruct K as [x [X [E U]]]. apply NU.
    rewrite <- (same_id sv x h W X H E). exact U. }
  assert (forall x, connected sv1 x <-> (connected sv x /\ h_sess x <> h_sess h) \/ x = f h) as CN.
  { intro x. rewrite (connected_on sv sv1 _ f W W1 M). split.
    - intros [y [Y E]]. destruct (Nat.eqb (h_sess y) (h_sess h)) eqn:Q.
      + apply Nat.eqb_eq in Q. rewrite (same_session sv y h W Y H Q) in E. right. exact E.
      + apply Nat.eqb_neq in Q. subst x. left. split; assumption.
    - intros [[X Q]|X].
      + exists x. split; [exact X|]. apply Nat.eqb_neq in Q. rewrite Q. reflexivity.
      + exists h. split; [exact H|]. rewrite Nat.eqb_refl. exact X. }
  assert (in_use (f h)) as UF by exact (entry_use (f h) _ (FE 0%nat false)).
  assert (Nums sv1) as N1 by (eapply nums_same; [exact SL|exact (li_nums sv L)]).
  destruct (connected_number sv1 (h_id h) (h_sess h) w N1) as [num [total [SH2 [RG2 [GN2 [TT2 _]]]]]].
  assert (forall x, connected (clientConnected sv1 (h_id h) (h_sess h) w) x <-> connected sv1 x) as CC by (intro x; reflexivity).
  constructor.
  - eapply wf_same; [exact W1|reflexivity|reflexivity].
  - apply nums_connected. exact N1.
  - constructor.
    + intros x i C S0. apply CN in C. destruct C as [[C Q]|C].
      * exact (st_own sv (li_str sv L) x i C S0).
      * subst x. rewrite FI. destruct FST as [Z0|Z0]; congruence.
    + intro i. change (sv_streams (clientConnected sv1 (h_id h) (h_sess h) w)) with (sv_streams sv1).
      rewrite STR, (st_ids sv (li_str sv L)). split.
      * intros [[x [X [E S0]]]|[S0 E]].
        -- exists x. split; [|split; assumption]. apply CN. left. split; [exact X|]. intro Q. apply NU. right.
           rewrite <- (same_session sv x h W X H Q). exact S0.
        -- exists (f h). split; [apply CN; right; reflexivity|]. split; [congruence|exact S0].
      * intros [x [X [E S0]]]. apply CN in X. destruct X as [[X Q]|X].
        -- left. exists x. repeat split; assumption.
        -- right. subst x. split; [exact S0|congruence].
  - intros x C U. apply CN in C. destruct C as [[C Q]|C]; [exact (li_one sv L x C U)|]. subst x. exact (FO U).
  - intro i. rewrite RG2, R, keys_insert_new by exact LN. rewrite (li_reg sv L). split.
    + intros [E|[x [X [E U]]]].
      * exists (f h). split; [apply CN; right; reflexivity|]. split; [congruence|exact UF].
      * exists x. split; [|split; assumption]. apply CN. left. split; [exact X|]. intro Q. apply NU.
        rewrite <- (same_session sv x h W X H Q). exact U.
    + intros [x [X [E U]]]. apply CN in X. destruct X as [[X Q]|X].
      * right. exists x. repeat split; assumption.
      * left. subst x. congruence.
  - intros e K. rewrite SH2, SH in K. apply in_app_or in K. destruct K as [K|[K|[]]].
    + destruct (li_shown sv L e K) as [x [X [EO LK]]].
      assert (h_sess x <> h_sess h) as Q. { intro Q. apply NU. rewrite <- (same_session sv x h W X H Q). exact (entry_use x e EO). }
      exists x. split; [apply CN; left; split; assumption|]. split; [exact EO|]. rewrite RG2, R, lookup_insert_other; [exact LK|].
      intro Z0. apply Q. rewrite (same_id sv x h W X H Z0). reflexivity.
    + subst e. exists (f h). split; [apply CN; right; reflexivity|]. split; [apply FE|].
      rewrite RG2, R, FI. cbn [e_num]. apply lookup_insert_new. exact LN.
Qed.
