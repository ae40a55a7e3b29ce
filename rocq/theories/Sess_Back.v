(** A client that comes back under its id is listed under its number. *)
From Verif Require Import Base Sess_Model Sess_Spec Sess_Proofs Sess_Count Sess_Types Sess_Lists Sess_Keep Sess_Effect.
Local Open Scope Z_scope.

(** What holds of the list, of every disconnection and of the connections of the message's own
    client holds after the message. *)
Section ListStep.
  Variable P : server -> Prop.
  Hypothesis same : forall sv sv', sameList sv sv' -> P sv -> P sv'.
  Hypothesis gone : forall sv i, P sv -> P (clientDisconnected sv i).

  Lemma list_release : forall sv s, P sv -> P (release sv s).
  Proof.
    intros sv s N. unfold release. destruct (findSession s (sv_map sv)) as [[i h]|]; [|exact N]. cbv zeta.
    assert (P (if hasId i (sv_streams sv) || h_used h then clientDisconnected sv i else sv)) as N1.
    { destruct (hasId i (sv_streams sv) || h_used h); [apply gone|]; exact N. }
    revert N1. generalize (if hasId i (sv_streams sv) || h_used h then clientDisconnected sv i else sv). intros v N1.
    eapply same; [|exact N1]. destruct (countOut_list (setStreams v (filter (fun k => negb (cid_eqb i k)) (sv_streams v))) h) as [A [B [C D]]].
    unfold sameList. cbn [setMap sv_reg sv_gone sv_total sv_shown]. rewrite A, B, C, D. repeat split.
  Qed.
  Lemma list_fold : forall l sv, P sv -> P (fold_left release l sv).
  Proof. induction l as [|s t IH]; intros sv N; cbn [fold_left]; [exact N|]. apply IH. apply list_release. exact N. Qed.
  Lemma list_take : forall sv h i again, Wf sv -> In (h_id h, h) (sv_map sv) -> P sv -> P (fst (takeId sv h i again)).
  Proof.
    intros sv h i again W H N. destruct (takeId_case sv h i again W H) as [o LI A|A E|o A LI NS NI|LN]; cbn [fst].
    - eapply same; [|exact N]. repeat split.
    - apply list_release. exact N.
    - eapply same; [|exact (list_release sv (h_sess o) N)]. repeat split.
    - eapply same; [|exact N]. repeat split.
  Qed.
  Lemma list_step : forall sv m, Wf sv ->
    (forall h v w, connected sv h -> m = Config (h_sess h) \/ m = Stream (h_sess h) -> P v -> P (clientConnected v (h_id h) (h_sess h) w)) ->
    P sv -> P (fst (step sv m)).
  Proof.
    intros sv m W J N. destruct m as [u|s p|s|s|s|]; cbn [step].
    - eapply same; [|exact N]. repeat split.
    - unfold withHandler. destruct (findSession s (sv_map sv)) as [[i h]|] eqn:F; [|exact N].
      destruct (handler_of sv s i h W F) as [H _]. unfold onProps. destruct (p_identity p) as [[j a]|].
      + pose proof (list_take sv h j a W H N) as N1. destruct (takeId sv h j a) as [sv1 ok]. cbn [fst] in N1.
        destruct ok; cbn [fst]; [|exact N1]. eapply same; [|exact N1]. repeat split.
      + eapply same; [|exact N]. repeat split.
    - unfold withHandler. destruct (findSession s (sv_map sv)) as [[i h]|] eqn:F; [|exact N].
      destruct (handler_of sv s i h W F) as [H [E _]]. apply connected_in in H; [|exact W].
      assert (forall v, P v -> P (accept v h)) as AC.
      { intros v V. unfold accept. cbv zeta. apply J; [exact H|left; congruence|]. eapply same; [|exact V]. repeat split. }
      unfold onConfig, connectConfig. destruct (h_used h); [exact N|]. destruct (limitReached sv); [exact N|].
      destruct (controlRejected sv h); [exact N|]. destruct (exclusiveRejected sv h); [|apply AC; exact N].
      destruct (h_drop h && negb (h_again h)); [|exact N]. cbn [fst]. apply AC. apply list_fold. exact N.
    - unfold withHandler. destruct (findSession s (sv_map sv)) as [[i h]|] eqn:F; [|exact N].
      destruct (handler_of sv s i h W F) as [H [E _]]. apply connected_in in H; [|exact W].
      unfold onStream. destruct (hasId (h_id h) (sv_streams sv)); [exact N|]. cbv zeta. cbn [fst].
      apply J; [exact H|right; congruence|]. eapply same; [|exact N]. repeat split.
    - unfold withHandler. destruct (findSession s (sv_map sv)) as [[i h]|]; [|exact N]. apply list_release. exact N.
    - unfold onSignal. destruct (forallb _ _); exact N.
  Qed.
End ListStep.

(** ** Numbers are registered or kept, not both *)
Definition Apart (sv : server) : Prop := forall i n, lookup i (sv_reg sv) = Some n -> lookup i (sv_gone sv) = None.

Lemma lookup_insert_same : forall A i (v : A) m, lookup i m = None -> lookup i (insert i v m) = Some v.
Proof.
  intros A i v m L. unfold insert. rewrite L. revert L. induction m as [|[k x] t IH]; intro L.
  - cbn [app lookup]. rewrite cid_eqb_refl. reflexivity.
  - cbn [app lookup] in *. destruct (cid_eqb i k); [discriminate|]. apply IH. exact L.
Qed.
Lemma lookup_insert_other : forall A i j (v : A) m, i <> j -> lookup i (insert j v m) = lookup i m.
Proof.
  intros A i j v m N. unfold insert. destruct (lookup j m); [reflexivity|]. induction m as [|[k x] t IH].
  - cbn [app lookup]. destruct (cid_eqb i j) eqn:Q; [apply cid_eqb_spec in Q; contradiction|reflexivity].
  - cbn [app lookup]. destruct (cid_eqb i k); [reflexivity|exact IH].
Qed.
Lemma lookup_insert_kept : forall A i j (v w : A) m, lookup i m = Some w -> lookup i (insert j v m) = Some w.
Proof.
  intros A i j v w m L. destruct (cid_dec i j) as [->|N]; [unfold insert; rewrite L; exact L|rewrite lookup_insert_other by exact N; exact L].
Qed.
Lemma lookup_erase_same : forall A i (m : list (cid * A)), lookup i (erase i m) = None.
Proof.
  intros A i m. unfold erase. induction m as [|[k x] t IH]; [reflexivity|]. cbn [filter fst].
  destruct (cid_eqb i k) eqn:Q; cbn [negb]; [exact IH|]. cbn [lookup]. rewrite Q. exact IH.
Qed.
Lemma lookup_erase_other : forall A i j (m : list (cid * A)), i <> j -> lookup i (erase j m) = lookup i m.
Proof.
  intros A i j m N. unfold erase. induction m as [|[k x] t IH]; [reflexivity|]. cbn [filter fst].
  destruct (cid_eqb j k) eqn:Q; cbn [negb].
  - apply cid_eqb_spec in Q. subst k. cbn [lookup]. destruct (cid_eqb i j) eqn:R; [apply cid_eqb_spec in R; contradiction|exact IH].
  - cbn [lookup]. destruct (cid_eqb i k); [reflexivity|exact IH].
Qed.

Lemma apart_same : forall sv sv', sameList sv sv' -> Apart sv -> Apart sv'.
Proof. intros sv sv' [A [B _]] P i n. rewrite A, B. apply P. Qed.
Lemma apart_gone : forall sv i, Apart sv -> Apart (clientDisconnected sv i).
Proof.
  intros sv i P j n. unfold clientDisconnected. destruct (lookup i (sv_reg sv)) as [k|] eqn:L; [|apply P].
  cbn [setList sv_reg sv_gone]. destruct (cid_dec j i) as [->|N].
  - rewrite lookup_erase_same. discriminate.
  - rewrite lookup_erase_other, lookup_insert_other by exact N. apply P.
Qed.
Lemma apart_connected : forall sv i s w, Apart sv -> Apart (clientConnected sv i s w).
Proof.
  intros sv i s w P j n. unfold clientConnected. cbv zeta. cbn [setList sv_reg sv_gone]. destruct (cid_dec j i) as [->|N].
  - intros _. apply lookup_erase_same.
  - rewrite lookup_insert_other, lookup_erase_other by exact N. apply P.
Qed.
Lemma apart_run : forall ms sv, Wf sv -> Apart sv -> Apart (run sv ms).
Proof.
  induction ms as [|m t IH]; intros sv W P; [exact P|]. rewrite run_cons. apply IH; [apply wf_step; exact W|].
  apply list_step; [exact apart_same|exact apart_gone|exact W|intros; apply apart_connected; assumption|exact P].
Qed.
Lemma apart_start : forall max, Apart (start max).
Proof. intros max i n L. discriminate. Qed.

(** ** A kept number stays kept while nobody uses the id *)
Definition Kept (i : cid) (n : nat) (sv : server) : Prop := lookup i (sv_gone sv) = Some n.

Lemma kept_same : forall i n sv sv', sameList sv sv' -> Kept i n sv -> Kept i n sv'.
Proof. intros i n sv sv' [_ [B _]] K. unfold Kept. rewrite B. exact K. Qed.
Lemma kept_gone : forall i n sv j, Kept i n sv -> Kept i n (clientDisconnected sv j).
Proof.
  intros i n sv j K. unfold Kept, clientDisconnected. destruct (lookup j (sv_reg sv)); [|exact K].
  cbn [setList sv_gone]. apply lookup_insert_kept. exact K.
Qed.
Lemma kept_connected : forall i n sv j s w, i <> j -> Kept i n sv -> Kept i n (clientConnected sv j s w).
Proof.
  intros i n sv j s w N K. unfold Kept, clientConnected. cbv zeta. cbn [setList sv_gone]. rewrite lookup_erase_other by exact N. exact K.
Qed.
Lemma kept_run : forall i n ms sv, Wf sv -> along (unused_id i) sv ms -> Kept i n sv -> Kept i n (run sv ms).
Proof.
  intros i n. induction ms as [|m t IH]; intros sv W A K; [exact K|]. destruct A as [A1 A2]. rewrite run_cons.
  apply IH; [apply wf_step; exact W|exact A2|].
  apply list_step; [apply kept_same|intros; apply kept_gone; assumption|exact W| |exact K].
  intros h v w C E V. apply kept_connected; [|exact V].
  destruct E as [E|E]; subst m; cbn [unused_id] in A1; intro Q; exact (A1 h C eq_refl (eq_sym Q)).
Qed.

(** ** The number a listed client leaves behind, and the one it is given *)
Lemma close_keeps_number : forall sv h e, Listed sv -> Apart sv -> connected sv h -> In e (sv_shown sv) -> entry_of h e ->
  Kept (h_id h) (e_num e) (fst (step sv (Close (h_sess h)))).
Proof.
  intros sv h e L AP C I0 E. pose proof (li_wf sv L) as W.
  destruct (li_shown sv L e I0) as [o [CO [EO LO]]].
  assert (o = h) as ->. { apply (same_session sv o h W CO C). destruct E as [E _]. destruct EO as [EO _]. congruence. }
  assert (in_use h) as U. { destruct E as [_ E]. destruct (e_what e); [left; apply E|right; exact E]. }
  cbn [step]. unfold withHandler. rewrite (found sv h W C). cbn [fst]. unfold release. rewrite (found sv h W C). cbv zeta.
  assert (hasId (h_id h) (sv_streams sv) || h_used h = true) as ->.
  { destruct U as [U|U]; [rewrite U; apply Bool.orb_true_r|]. apply Bool.orb_true_iff. left. apply hasId_spec.
    apply (st_ids sv (li_str sv L)). exists h. repeat split; assumption. }
  assert (Kept (h_id h) (e_num e) (clientDisconnected sv (h_id h))) as K.
  { unfold Kept, clientDisconnected. rewrite LO. cbn [setList sv_gone]. apply lookup_insert_same. exact (AP _ _ LO). }
  revert K. generalize (clientDisconnected sv (h_id h)). intros v K. eapply kept_same; [|exact K].
  match goal with |- sameList _ (setMap (countOut ?b h) _) => destruct (countOut_list b h) as [A1 [A2 [A3 A4]]] end.
  unfold sameList. cbn [setMap setStreams sv_reg sv_gone sv_total sv_shown] in *. rewrite A1, A2, A3, A4. repeat split.
Qed.
Lemma number_again : forall sv h w n s, Nums sv -> Kept (h_id h) n sv ->
  exists e, In e (sv_shown (clientConnected sv (h_id h) s w)) /\ e_sess e = s /\ e_num e = n /\ e_again e = true /\ e_what e = w.
Proof.
  intros sv h w n s N K. destruct (connected_number sv (h_id h) s w N) as [num [total [SH [_ [_ [_ C]]]]]]. unfold Kept in K. rewrite K in *.
  destruct C as [-> _]. rewrite SH. eexists. split; [apply in_or_app; right; left; reflexivity|]. repeat split.
Qed.
Lemma accept_again : forall sv h n, Nums sv -> Kept (h_id h) n sv ->
  exists e, In e (sv_shown (accept sv h)) /\ e_sess e = h_sess h /\ e_num e = n /\ e_again e = true /\ e_what e = Configures (h_type h).
Proof.
  intros sv h n N K. unfold accept. cbv zeta. apply number_again.
  - eapply nums_same; [|exact N]. repeat split.
  - eapply kept_same; [|exact K]. repeat split.
Qed.
Lemma step_again : forall sv h n m, Wf sv -> Nums sv -> Kept (h_id h) n sv -> connected sv h ->
  (m = Config (h_sess h) /\ h_used h = false) \/ m = Stream (h_sess h) -> snd (step sv m) = Done ->
  exists e, In e (sv_shown (fst (step sv m))) /\ e_sess e = h_sess h /\ e_num e = n /\ e_again e = true.
Proof.
  intros sv h n m W N K C E D.
  assert (exists e w, In e (sv_shown (fst (step sv m))) /\ e_sess e = h_sess h /\ e_num e = n /\ e_again e = true /\ e_what e = w) as [e [w Q]];
    [|exists e; tauto].
  destruct E as [[-> U]| ->]; cbn [step] in *; unfold withHandler in *; rewrite (found sv h W C) in *.
  - unfold onConfig, connectConfig in *. rewrite U in *. destruct (limitReached sv); [discriminate|].
    destruct (controlRejected sv h); [discriminate|]. destruct (exclusiveRejected sv h).
    + destruct (h_drop h && negb (h_again h)); [|discriminate]. cbn [fst].
      destruct (accept_again (releaseOthers sv h) h n) as [e Q]; [apply nums_fold; exact N| |exists e; eexists; exact Q].
      unfold releaseOthers. apply (list_fold (Kept (h_id h) n)); [apply kept_same|intros; apply kept_gone; assumption|exact K].
    + cbn [fst]. destruct (accept_again sv h n N K) as [e Q]. exists e. eexists. exact Q.
  - unfold onStream in *. destruct (hasId (h_id h) (sv_streams sv)); [discriminate|]. cbv zeta in *. cbn [fst].
    match goal with |- context [clientConnected ?v _ _ ?w] => destruct (number_again v h w n (h_sess h)) as [e Q] end.
    + eapply nums_same; [|exact N]. repeat split.
    + eapply kept_same; [|exact K]. repeat split.
    + exists e. eexists. exact Q.
Qed.
