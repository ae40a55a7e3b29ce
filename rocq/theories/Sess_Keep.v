(** Histories in which a client in use keeps its id: streams go where they were asked for, and
    the device's list is the list of the clients in use. *)
From Verif Require Import Base Sess_Model Sess_Spec Sess_Proofs Sess_Count Sess_Types Sess_Lists.
Local Open Scope Z_scope.

Lemma connected_open : forall sv u h, Wf sv -> connected (fst (onOpen sv u)) h ->
  connected sv h \/ ~ in_use h.
Proof.
  intros sv u h W C. unfold connected, clients, onOpen in *. cbn [fst sv_map] in C. unfold insert in C.
  destruct (lookup _ (sv_map sv)); [left; exact C|]. rewrite map_app in C. apply in_app_or in C. destruct C as [C|[C|[]]]; [left; exact C|].
  right. cbn [snd] in C. subst h. intros [U|U]; [discriminate|]. apply U. reflexivity.
Qed.
Lemma open_keeps : forall sv u h, connected sv h -> connected (fst (onOpen sv u)) h.
Proof.
  intros sv u h C. unfold connected, clients, onOpen in *. cbn [fst sv_map]. unfold insert.
  destruct (lookup _ (sv_map sv)); [exact C|]. rewrite map_app. apply in_or_app. left. exact C.
Qed.
Lemma sees_open : forall sv u, Wf sv -> sees sv (fst (onOpen sv u)) /\ sees (fst (onOpen sv u)) sv.
Proof.
  intros sv u W. split; intros h C U.
  - exists h. split; [apply open_keeps; exact C|reflexivity].
  - destruct (connected_open sv u h W C) as [K|K]; [|contradiction]. exists h. split; [exact K|reflexivity].
Qed.
Lemma identity_view : forall sv h again x, Wf sv -> connected sv h -> connected sv x -> h_sess x = h_sess h ->
  view (setIdentity (h_id h) again x) = view x.
Proof.
  intros sv h again x W H X E. rewrite (same_session sv x h W X H E). reflexivity.
Qed.

(** What a change of the id does to the clients in use: an obsolete session may go, no other
    client in use changes. *)
Lemma take_sees : forall sv h i again, Wf sv -> connected sv h -> (in_use h -> i = h_id h) ->
  exists s, sees (release sv s) (fst (takeId sv h i again)) /\ sees (fst (takeId sv h i again)) (release sv s)
    /\ sv_streams (fst (takeId sv h i again)) = sv_streams (release sv s)
    /\ sameList (release sv s) (fst (takeId sv h i again)).
Proof.
  intros sv h i again W H K. assert (In (h_id h, h) (sv_map sv)) as HI by (apply connected_in; assumption).
  pose proof (wf_take sv h i again W HI) as WT.
  assert (release sv (sv_next sv) = sv) as RN.
  { apply release_none. destruct (findSession (sv_next sv) (sv_map sv)) as [[j x]|] eqn:F; [|reflexivity].
    destruct (findSession_some _ _ _ _ F) as [X E]. pose proof (wf_old sv W _ X) as B. unfold sessOf in B. cbn [snd] in B. lia. }
  destruct (takeId_case sv h i again W HI) as [o LI A|A E|o A LI NS NI|LN]; cbn [fst] in *.
  - exists (sv_next sv). rewrite RN.
    destruct (sees_on sv _ (h_sess h) (setIdentity (h_id h) again) W WT eq_refl) as [S1 S2].
    { intros x X E. exact (identity_view sv h again x W H X E). }
    split; [exact S1|]. split; [exact S2|]. split; [reflexivity|repeat split].
  - exists (h_sess h). split; [intros x C U; exists x; split; [exact C|reflexivity]|].
    split; [intros x C U; exists x; split; [exact C|reflexivity]|]. split; [reflexivity|repeat split].
  - exists (h_sess o). assert (~ in_use h) as NU by (intro U; apply NI; exact (K U)).
    assert (connected (release sv (h_sess o)) h) as H1. { apply connected_release; [exact W|]. split; [exact H|congruence]. }
    destruct (sees_moved (release sv (h_sess o)) (setMap (release sv (h_sess o)) (moved (sv_map (release sv (h_sess o))) h i again)) h i again
               (wf_release sv (h_sess o) W) H1 eq_refl NU) as [S1 S2].
    split; [exact S1|]. split; [exact S2|]. split; [reflexivity|repeat split].
  - exists (sv_next sv). rewrite RN. assert (~ in_use h) as NU.
    { intro U. rewrite (K U) in LN. rewrite (in_lookup _ _ _ _ (wf_keys sv W) HI) in LN. discriminate. }
    destruct (sees_moved sv (setMap sv (moved (sv_map sv) h i again)) h i again W H eq_refl NU) as [S1 S2].
    split; [exact S1|]. split; [exact S2|]. split; [reflexivity|repeat split].
Qed.
Lemma kind_sees : forall sv s t d, Wf sv ->
  sees sv (setMap sv (onSession s (setKind t d) (sv_map sv))) /\ sees (setMap sv (onSession s (setKind t d) (sv_map sv))) sv.
Proof.
  intros sv s t d W. apply (sees_on sv _ s (setKind t d) W); [|reflexivity|reflexivity].
  eapply wf_onSession; [exact W|apply (mild_kind t d)|reflexivity|reflexivity].
Qed.

(** ** Streams *)
Lemma streamed_on : forall sv sv' s f, Wf sv -> Wf sv' -> Streamed sv -> sv_map sv' = onSession s f (sv_map sv) ->
  (forall h, h_id (f h) = h_id h /\ h_stream (f h) = h_stream h) -> sv_streams sv' = sv_streams sv -> Streamed sv'.
Proof.
  intros sv sv' s f W W' [O D] M F E. pose proof (connected_on sv sv' s f W W' M) as CN.
  assert (forall h, h_id (if Nat.eqb (h_sess h) s then f h else h) = h_id h /\
                    h_stream (if Nat.eqb (h_sess h) s then f h else h) = h_stream h) as G.
  { intro h. destruct (Nat.eqb (h_sess h) s); [apply F|split; reflexivity]. }
  constructor.
  - intros h i C S0. apply CN in C. destruct C as [x [X ->]]. destruct (G x) as [G1 G2]. rewrite G1. apply O; [exact X|congruence].
  - intro i. rewrite E, D. split; intros [h [C [I0 S0]]].
    + exists (if Nat.eqb (h_sess h) s then f h else h). destruct (G h) as [G1 G2]. split; [apply CN; exists h; split; [exact C|reflexivity]|].
      split; congruence.
    + apply CN in C. destruct C as [x [X ->]]. destruct (G x) as [G1 G2]. exists x. repeat split; [exact X|congruence|congruence].
Qed.
Lemma streamed_take : forall sv h i again, Wf sv -> connected sv h -> (in_use h -> i = h_id h) -> Streamed sv ->
  Streamed (fst (takeId sv h i again)).
Proof.
  intros sv h i again W H K ST. destruct (take_sees sv h i again W H K) as [s [S1 [S2 [E _]]]].
  eapply streamed_same; [exact (streamed_release sv s W ST)|exact S1|exact S2|exact E].
Qed.
Lemma streamed_kind : forall sv s t d, Wf sv -> Streamed sv -> Streamed (setMap sv (onSession s (setKind t d) (sv_map sv))).
Proof.
  intros sv s t d W ST. destruct (kind_sees sv s t d W) as [S1 S2]. eapply streamed_same; [exact ST|exact S1|exact S2|reflexivity].
Qed.
Lemma streamed_accept : forall sv h, Wf sv -> Streamed sv -> Streamed (accept sv h).
Proof.
  intros sv h W ST. eapply (streamed_on sv _ (h_sess h) setUsed W); [apply wf_accept; exact W|exact ST|reflexivity| |reflexivity].
  intro x. split; reflexivity.
Qed.
Lemma stream_none : forall sv h, Wf sv -> connected sv h -> Streamed sv -> hasId (h_id h) (sv_streams sv) = false -> h_stream h = None.
Proof.
  intros sv h W C ST E. destruct (h_stream h) as [i|] eqn:S0; [|reflexivity]. exfalso.
  assert (hasId (h_id h) (sv_streams sv) = true) as K; [|congruence].
  apply hasId_spec. apply (st_ids sv ST). exists h. repeat split; [exact C|congruence].
Qed.
Lemma streamed_stream : forall sv h, Wf sv -> connected sv h -> Streamed sv -> Streamed (fst (onStream sv h)).
Proof.
  intros sv h W H ST. pose proof (wf_stream sv h W) as WS. unfold onStream in *.
  destruct (hasId (h_id h) (sv_streams sv)) eqn:E; [exact ST|]. cbv zeta in *. cbn [fst] in *.
  set (sv' := clientConnected _ _ _ _) in *.
  assert (forall x, connected sv' x <-> exists y, connected sv y /\ x = (if Nat.eqb (h_sess y) (h_sess h) then setStream y else y)) as CN.
  { apply (connected_on sv sv' (h_sess h) setStream W WS). reflexivity. }
  assert (sv_streams sv' = h_id h :: sv_streams sv) as SE by reflexivity.
  destruct ST as [O D]. constructor.
  - intros x i C S0. apply CN in C. destruct C as [y [Y ->]]. destruct (Nat.eqb (h_sess y) (h_sess h)).
    + cbn [setStream h_stream h_id] in *. congruence.
    + exact (O y i Y S0).
  - intro i. rewrite SE. cbn [In]. rewrite D. split.
    + intros [Q|[y [Y [I0 S0]]]].
      * exists (setStream h). split; [apply CN; exists h; split; [exact H|rewrite Nat.eqb_refl; reflexivity]|].
        split; [exact Q|discriminate].
      * exists (if Nat.eqb (h_sess y) (h_sess h) then setStream y else y). split; [apply CN; exists y; split; [exact Y|reflexivity]|].
        destruct (Nat.eqb (h_sess y) (h_sess h)); (split; [exact I0|first [discriminate|exact S0]]).
    + intros [x [X [I0 S0]]]. apply CN in X. destruct X as [y [Y ->]]. destruct (Nat.eqb (h_sess y) (h_sess h)) eqn:Q.
      * left. apply Nat.eqb_eq in Q. rewrite (same_session sv y h W Y H Q) in I0. exact I0.
      * right. exists y. repeat split; assumption.
Qed.
Lemma streamed_step : forall sv m, Wf sv -> Streamed sv -> keeps_id sv m -> Streamed (fst (step sv m)).
Proof.
  intros sv m W ST K. destruct m as [u|s p|s|s|s|]; cbn [step].
  - destruct (sees_open sv u W) as [A B]. eapply streamed_same; [exact ST|exact A|exact B|reflexivity].
  - unfold withHandler. destruct (findSession s (sv_map sv)) as [[i h]|] eqn:F; [|exact ST].
    destruct (handler_of sv s i h W F) as [H [E _]]. pose proof H as HI. apply connected_in in H; [|exact W].
    unfold onProps. destruct (p_identity p) as [[j a]|] eqn:P.
    + assert (Streamed (fst (takeId sv h j a))) as S1.
      { apply streamed_take; [exact W|exact H| |exact ST]. intro U. exact (K h j a H E U P). }
      pose proof (wf_take sv h j a W HI) as W1. destruct (takeId sv h j a) as [sv1 ok]. cbn [fst] in *.
      destruct ok; cbn [fst]; [apply streamed_kind; assumption|exact S1].
    + cbn [fst]. apply streamed_kind; assumption.
  - unfold withHandler. destruct (findSession s (sv_map sv)) as [[i h]|] eqn:F; [|exact ST].
    unfold onConfig, connectConfig. destruct (h_used h); [exact ST|]. destruct (limitReached sv); [exact ST|].
    destruct (controlRejected sv h); [exact ST|]. destruct (exclusiveRejected sv h); [|apply streamed_accept; assumption].
    destruct (h_drop h && negb (h_again h)); [|exact ST]. cbn [fst]. apply streamed_accept; [apply wf_fold_release; exact W|].
    apply streamed_fold; assumption.
  - unfold withHandler. destruct (findSession s (sv_map sv)) as [[i h]|] eqn:F; [|exact ST].
    destruct (handler_of sv s i h W F) as [H [E _]]. apply connected_in in H; [|exact W]. apply streamed_stream; assumption.
  - unfold withHandler. destruct (findSession s (sv_map sv)) as [[i h]|] eqn:F; [|exact ST]. apply streamed_release; assumption.
  - unfold onSignal. destruct (forallb _ _); exact ST.
Qed.
Lemma streamed_start : forall max, Streamed (start max).
Proof. intros max. constructor; [intros h i []|]. intro i. split; [intros []|intros [h [[] _]]]. Qed.
Lemma streamed_run : forall ms sv, Wf sv -> Streamed sv -> along keeps_id sv ms -> Streamed (run sv ms).
Proof.
  induction ms as [|m t IH]; intros sv W ST A; [exact ST|]. destruct A as [A1 A2]. rewrite run_cons.
  apply IH; [apply wf_step; exact W|apply streamed_step; assumption|exact A2].
Qed.

(** ** The device's list *)
Lemma listed_take : forall sv h i again, Listed sv -> connected sv h -> (in_use h -> i = h_id h) -> Listed (fst (takeId sv h i again)).
Proof.
  intros sv h i again L H K. pose proof (li_wf sv L) as W. destruct (take_sees sv h i again W H K) as [s [S1 [S2 [E SL]]]].
  eapply listed_same; [exact (listed_release sv s L)| |exact S1|exact S2|exact E|exact SL].
  apply wf_take; [exact W|]. apply connected_in; assumption.
Qed.
Lemma listed_kind : forall sv s t d, Listed sv -> Listed (setMap sv (onSession s (setKind t d) (sv_map sv))).
Proof.
  intros sv s t d L. pose proof (li_wf sv L) as W. destruct (kind_sees sv s t d W) as [S1 S2].
  eapply listed_same; [exact L| |exact S1|exact S2|reflexivity|repeat split].
  eapply wf_onSession; [exact W|apply (mild_kind t d)|reflexivity|reflexivity].
Qed.
Lemma listed_accept : forall sv h, Listed sv -> connected sv h -> h_used h = false -> h_stream h = None -> Listed (accept sv h).
Proof.
  intros sv h L H U S0. pose proof (li_wf sv L) as W. unfold accept. cbv zeta.
  apply (listed_add sv (countIn (setMap sv (onSession (h_sess h) setUsed (sv_map sv))) h) h setUsed (Configures (h_type h))).
  - exact L.
  - eapply wf_onSession; [exact W|exact mild_used|reflexivity|reflexivity].
  - exact H.
  - intros [A|A]; congruence.
  - reflexivity.
  - intro i. cbn [countIn setCounts setMap sv_streams setUsed h_stream]. rewrite S0. intuition congruence.
  - repeat split.
  - reflexivity.
  - reflexivity.
  - left. exact S0.
  - intros _. exact S0.
  - intros n b. split; [reflexivity|]. cbn [e_what]. split; reflexivity.
Qed.
Lemma listed_stream : forall sv h, Listed sv -> connected sv h -> h_used h = false -> Listed (fst (onStream sv h)).
Proof.
  intros sv h L H U. pose proof (li_wf sv L) as W. unfold onStream.
  destruct (hasId (h_id h) (sv_streams sv)) eqn:E; [exact L|]. cbv zeta. cbn [fst].
  pose proof (stream_none sv h W H (li_str sv L) E) as S0.
  apply (listed_add sv (setMap (setStreams sv (h_id h :: sv_streams sv)) (onSession (h_sess h) setStream (sv_map sv))) h setStream Streams).
  - exact L.
  - eapply wf_onSession; [exact W|exact mild_stream|reflexivity|reflexivity].
  - exact H.
  - intros [A|A]; congruence.
  - reflexivity.
  - intro i. cbn [setStreams setMap sv_streams setStream h_stream In]. split.
    + intros [A|A]; [right; split; [discriminate|congruence]|left; exact A].
    + intros [A|[_ A]]; [right; exact A|left; congruence].
  - repeat split.
  - reflexivity.
  - reflexivity.
  - right. reflexivity.
  - cbn [setStream h_used]. congruence.
  - intros n b. split; [reflexivity|]. cbn [e_what setStream h_stream]. discriminate.
Qed.
Definition okL (sv : server) (m : msg) : Prop := keeps_id sv m /\ one_use sv m.

Lemma listed_step : forall sv m, Listed sv -> okL sv m -> Listed (fst (step sv m)).
Proof.
  intros sv m L [K O]. pose proof (li_wf sv L) as W. destruct m as [u|s p|s|s|s|]; cbn [step].
  - destruct (sees_open sv u W) as [A B]. eapply listed_same; [exact L|apply wf_open; exact W|exact A|exact B|reflexivity|repeat split].
  - unfold withHandler. destruct (findSession s (sv_map sv)) as [[i h]|] eqn:F; [|exact L].
    destruct (handler_of sv s i h W F) as [H [E _]]. apply connected_in in H; [|exact W].
    unfold onProps. destruct (p_identity p) as [[j a]|] eqn:P.
    + assert (Listed (fst (takeId sv h j a))) as S1.
      { apply listed_take; [exact L|exact H|]. intro U. exact (K h j a H E U P). }
      destruct (takeId sv h j a) as [sv1 ok]. cbn [fst] in *. destruct ok; cbn [fst]; [apply listed_kind|]; exact S1.
    + cbn [fst]. apply listed_kind; assumption.
  - unfold withHandler. destruct (findSession s (sv_map sv)) as [[i h]|] eqn:F; [|exact L].
    destruct (handler_of sv s i h W F) as [H [E _]]. pose proof H as HI. apply connected_in in H; [|exact W].
    pose proof (O h H E) as S0. unfold onConfig, connectConfig. destruct (h_used h) eqn:U; [exact L|].
    destruct (limitReached sv); [exact L|]. destruct (controlRejected sv h); [exact L|].
    destruct (exclusiveRejected sv h); [|apply listed_accept; assumption].
    destruct (h_drop h && negb (h_again h)); [|exact L]. cbn [fst]. apply listed_accept; [apply listed_fold; exact L| |exact U|exact S0].
    apply connected_in; [apply wf_fold_release; exact W|]. apply self_kept; assumption.
  - unfold withHandler. destruct (findSession s (sv_map sv)) as [[i h]|] eqn:F; [|exact L].
    destruct (handler_of sv s i h W F) as [H [E _]]. apply connected_in in H; [|exact W]. apply listed_stream; [exact L|exact H|exact (O h H E)].
  - unfold withHandler. destruct (findSession s (sv_map sv)) as [[i h]|] eqn:F; [|exact L]. apply listed_release; exact L.
  - unfold onSignal. destruct (forallb _ _); exact L.
Qed.
Lemma listed_start : forall max, Listed (start max).
Proof.
  intros max. constructor; [apply wf_start|apply nums_start|apply streamed_start|intros h []| |intros e []].
  intro i. split; [intros []|intros [h [[] _]]].
Qed.
Lemma listed_run : forall ms sv, Listed sv -> along keeps_id sv ms -> along one_use sv ms -> Listed (run sv ms).
Proof.
  induction ms as [|m t IH]; intros sv L A B; [exact L|]. destruct A as [A1 A2]. destruct B as [B1 B2]. rewrite run_cons.
  apply IH; [apply listed_step; [exact L|split; assumption]|exact A2|exact B2].
Qed.
Lemma listed_facts : forall sv, Listed sv ->
  (forall h, connected sv h -> in_use h <-> exists e, In e (sv_shown sv) /\ entry_of h e) /\
  (forall e, In e (sv_shown sv) -> exists h, connected sv h /\ entry_of h e) /\
  NoDup (map e_sess (sv_shown sv)).
Proof.
  intros sv L. pose proof (li_wf sv L) as W. pose proof (li_nums sv L) as N. split; [|split].
  - intros h C. split.
    + intro U. assert (In (h_id h) (map fst (sv_reg sv))) as K by (apply (li_reg sv L); exists h; repeat split; assumption).
      apply in_map_iff in K. destruct K as [[i n] [E K]]. cbn [fst] in E. subst i.
      assert (In n (nums sv)) as NI by (apply (nu_listed sv N); apply in_map_iff; exists (h_id h, n); split; [reflexivity|exact K]).
      unfold nums in NI. apply in_map_iff in NI. destruct NI as [e [E NI]].
      destruct (li_shown sv L e NI) as [x [X [EO LK]]]. exists e. split; [exact NI|].
      assert (h_id x = h_id h) as Q.
      { apply lookup_in in LK. assert ((h_id x, e_num e) = (h_id h, n)) as Z0; [|congruence].
        eapply nodup_inj; [exact (nu_reg sv N)|exact LK|exact K|exact E]. }
      rewrite <- (same_id sv x h W X C Q). exact EO.
    + intros [e [_ EO]]. exact (entry_use h e EO).
  - intros e K. destruct (li_shown sv L e K) as [h [C [EO _]]]. exists h. split; assumption.
  - pose proof (nu_shown sv N) as NS. unfold nums in NS. pose proof (li_shown sv L) as SH.
    assert (forall a b, In a (sv_shown sv) -> In b (sv_shown sv) -> e_sess a = e_sess b -> e_num a = e_num b) as Q.
    { intros a b A B E. destruct (SH a A) as [x [X [[XA _] LX]]]. destruct (SH b B) as [y [Y [[YB _] LY]]].
      assert (x = y) as -> by (apply (same_session sv x y W X Y); congruence). congruence. }
    revert NS Q. generalize (sv_shown sv). intro l. induction l as [|a t IH]; intros NS Q; cbn [map] in *; [constructor|].
    inversion NS as [|? ? NA NT]; subst. constructor.
    + intro K. apply in_map_iff in K. destruct K as [b [E B]]. apply NA.
      rewrite (Q a b (or_introl eq_refl) (or_intror B) (eq_sym E)). apply in_map. exact B.
    + apply IH; [exact NT|]. intros x y X Y E. apply Q; [right; exact X|right; exact Y|exact E].
Qed.

(** Streams are delivered to the sessions that asked for them. *)
Lemma told_spec : forall sv s, Wf sv -> Streamed sv -> In s (told sv) <-> exists h, connected sv h /\ h_sess h = s /\ h_stream h <> None.
Proof.
  intros sv s W ST. unfold told. rewrite in_flat_map. split.
  - intros [i [I0 K]]. apply (st_ids sv ST) in I0. destruct I0 as [h [C [E S0]]]. subst i.
    pose proof C as HI. apply connected_in in HI; [|exact W]. rewrite (in_lookup _ _ _ _ (wf_keys sv W) HI) in K.
    destruct K as [K|[]]. exists h. repeat split; assumption.
  - intros [h [C [E S0]]]. exists (h_id h). split; [apply (st_ids sv ST); exists h; repeat split; assumption|].
    pose proof C as HI. apply connected_in in HI; [|exact W]. rewrite (in_lookup _ _ _ _ (wf_keys sv W) HI). left. exact E.
Qed.
Lemma signal_done : forall sv, Wf sv -> Streamed sv -> onSignal sv = (sv, Done).
Proof.
  intros sv W ST. unfold onSignal. assert (forallb (fun i => match lookup i (sv_map sv) with Some _ => true | None => false end) (sv_streams sv) = true) as ->; [|reflexivity].
  apply forallb_forall. intros i I0. apply (st_ids sv ST) in I0. destruct I0 as [h [C [E _]]]. subst i.
  apply connected_in in C; [|exact W]. rewrite (in_lookup _ _ _ _ (wf_keys sv W) C). reflexivity.
Qed.
