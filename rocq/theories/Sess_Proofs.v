(** The connected clients: their ids and sessions, and the closed forms of the steps. *)
From Verif Require Import Base Sess_Model Sess_Spec.
Local Open Scope Z_scope.

Lemma cid_eqb_spec : forall a b, cid_eqb a b = true <-> a = b.
Proof.
  intros [n|n] [m|m]; cbn [cid_eqb]; split; intro H; try discriminate; try congruence.
  - apply Nat.eqb_eq in H. congruence.
  - injection H as ->. apply Nat.eqb_refl.
  - apply Nat.eqb_eq in H. congruence.
  - injection H as ->. apply Nat.eqb_refl.
Qed.
Lemma cid_eqb_refl : forall a, cid_eqb a a = true.
Proof. intros a. apply cid_eqb_spec. reflexivity. Qed.
Lemma cid_eqb_neq : forall a b, cid_eqb a b = false <-> a <> b.
Proof.
  intros a b. split; intro H.
  - intro E. apply cid_eqb_spec in E. congruence.
  - destruct (cid_eqb a b) eqn:E; [|reflexivity]. apply cid_eqb_spec in E. contradiction.
Qed.
Lemma cid_dec : forall a b : cid, {a = b} + {a <> b}.
Proof.
  intros a b. destruct (cid_eqb a b) eqn:E.
  - left. apply cid_eqb_spec. exact E.
  - right. apply cid_eqb_neq. exact E.
Qed.
Lemma ctype_eqb_spec : forall a b, ctype_eqb a b = true <-> a = b.
Proof. intros [] []; cbn; split; intro H; congruence. Qed.
Lemma ctype_eqb_refl : forall a, ctype_eqb a a = true.
Proof. intros []; reflexivity. Qed.

(** ** Keyed lists *)
Lemma lookup_in : forall A i (m : list (cid * A)) v, lookup i m = Some v -> In (i, v) m.
Proof.
  intros A i m v. induction m as [|[k w] t IH]; cbn [lookup]; [discriminate|].
  destruct (cid_eqb i k) eqn:E; intro H.
  - apply cid_eqb_spec in E. injection H as ->. left. congruence.
  - right. apply IH. exact H.
Qed.
Lemma lookup_none : forall A i (m : list (cid * A)), lookup i m = None <-> ~ In i (map fst m).
Proof.
  intros A i m. induction m as [|[k w] t IH]; cbn [lookup map fst]; [split; [intros _ []|reflexivity]|].
  destruct (cid_eqb i k) eqn:E.
  - apply cid_eqb_spec in E. split; [discriminate|]. intro H. exfalso. apply H. left. congruence.
  - apply cid_eqb_neq in E. rewrite IH. cbn [In]. intuition congruence.
Qed.
Lemma in_lookup : forall A i (m : list (cid * A)) v,
  NoDup (map fst m) -> In (i, v) m -> lookup i m = Some v.
Proof.
  intros A i m v. induction m as [|[k w] t IH]; cbn [lookup map fst]; intros N H; [destruct H|].
  inversion N as [|? ? NK NT]; subst.
  destruct H as [H|H].
  - injection H as -> ->. rewrite cid_eqb_refl. reflexivity.
  - destruct (cid_eqb i k) eqn:E; [|apply IH; assumption].
    apply cid_eqb_spec in E. subst k. exfalso. apply NK. apply in_map_iff. exists (i, v). split; [reflexivity|exact H].
Qed.
Lemma in_erase : forall A i (m : list (cid * A)) e, In e (erase i m) <-> In e m /\ fst e <> i.
Proof.
  intros A i m e. unfold erase. rewrite filter_In.
  destruct (cid_eqb i (fst e)) eqn:E; cbn [negb].
  - apply cid_eqb_spec in E. split; [intros [_ H]; discriminate|intros [_ H]; congruence].
  - apply cid_eqb_neq in E. split; intros [H _]; split; auto.
Qed.
Lemma nodup_map_filter : forall A B (g : A -> B) f l, NoDup (map g l) -> NoDup (map g (filter f l)).
Proof.
  intros A B g f l. induction l as [|a t IH]; cbn [map filter]; intro N; [constructor|].
  inversion N as [|? ? NA NT]; subst.
  destruct (f a); [|apply IH; exact NT]. cbn [map]. constructor; [|apply IH; exact NT].
  intro H. apply NA. apply in_map_iff in H. destruct H as [x [E H]]. apply filter_In in H.
  apply in_map_iff. exists x. tauto.
Qed.
Lemma nodup_snoc : forall A (l : list A) a, NoDup l -> ~ In a l -> NoDup (l ++ [a]).
Proof.
  intros A l a. induction l as [|b t IH]; intros N H; cbn [app]; [constructor; [intros []|constructor]|].
  inversion N as [|? ? NB NT]; subst. constructor.
  - intro K. apply in_app_or in K. destruct K as [K|K]; [contradiction|].
    destruct K as [K|[]]. apply H. left. congruence.
  - apply IH; [exact NT|]. intro K. apply H. right. exact K.
Qed.
Lemma nodup_inj : forall A B (g : A -> B) l x y, NoDup (map g l) -> In x l -> In y l -> g x = g y -> x = y.
Proof.
  intros A B g l x y. induction l as [|a t IH]; cbn [map]; intros N X Y E; [destruct X|].
  inversion N as [|? ? NA NT]; subst.
  destruct X as [X|X], Y as [Y|Y].
  - congruence.
  - subst a. exfalso. apply NA. rewrite E. apply in_map. exact Y.
  - subst a. exfalso. apply NA. rewrite <- E. apply in_map. exact X.
  - apply IH; assumption.
Qed.

(** ** Well-formedness *)
Definition sessOf (e : cid * handler) : nat := h_sess (snd e).

Record Wf (sv : server) : Prop := {
  wf_keys : NoDup (map fst (sv_map sv));
  wf_ids : forall e, In e (sv_map sv) -> fst e = h_id (snd e);
  wf_sess : NoDup (map sessOf (sv_map sv));
  wf_old : forall e, In e (sv_map sv) -> (sessOf e < sv_next sv)%nat;
  wf_rights : forall e, In e (sv_map sv) -> h_used (snd e) = true <-> h_rights (snd e) <> None }.

Lemma connected_in : forall sv h, Wf sv -> connected sv h <-> In (h_id h, h) (sv_map sv).
Proof.
  intros sv h W. unfold connected, clients. rewrite in_map_iff. split.
  - intros [[i x] [E H]]. cbn [snd] in E. subst x. pose proof (wf_ids sv W _ H) as K. cbn [fst snd] in K. subst i. exact H.
  - intro H. exists (h_id h, h). split; [reflexivity|exact H].
Qed.
Lemma findSession_some : forall s m i h, findSession s m = Some (i, h) -> In (i, h) m /\ h_sess h = s.
Proof.
  intros s m i h. induction m as [|[k x] t IH]; cbn [findSession]; [discriminate|].
  destruct (Nat.eqb (h_sess x) s) eqn:E; intro H.
  - injection H as -> ->. apply Nat.eqb_eq in E. split; [left; reflexivity|exact E].
  - destruct (IH H) as [A B]. split; [right; exact A|exact B].
Qed.
Lemma findSession_none : forall s m, findSession s m = None -> forall e, In e m -> sessOf e <> s.
Proof.
  intros s m. induction m as [|[k x] t IH]; cbn [findSession]; intros H e K; [destruct K|].
  destruct (Nat.eqb (h_sess x) s) eqn:E; [discriminate|]. apply Nat.eqb_neq in E.
  destruct K as [K|K]; [subst e; exact E|apply IH; assumption].
Qed.
Lemma in_findSession : forall m i h,
  NoDup (map sessOf m) -> In (i, h) m -> findSession (h_sess h) m = Some (i, h).
Proof.
  intros m i h. induction m as [|[k x] t IH]; cbn [findSession map]; intros N H; [destruct H|].
  inversion N as [|? ? NK NT]; subst.
  destruct H as [H|H].
  - injection H as -> ->. rewrite Nat.eqb_refl. reflexivity.
  - destruct (Nat.eqb (h_sess x) (h_sess h)) eqn:E; [|apply IH; assumption].
    apply Nat.eqb_eq in E. exfalso. apply NK. apply in_map_iff. exists (i, h). split; [unfold sessOf; cbn [snd]; congruence|exact H].
Qed.
Lemma handler_of : forall sv s i h, Wf sv -> findSession s (sv_map sv) = Some (i, h) ->
  In (h_id h, h) (sv_map sv) /\ h_sess h = s /\ i = h_id h.
Proof.
  intros sv s i h W F. apply findSession_some in F. destruct F as [F S0].
  pose proof (wf_ids sv W _ F) as K. cbn [fst snd] in K. subst i. repeat split; assumption.
Qed.
Lemma same_session : forall sv a b, Wf sv -> connected sv a -> connected sv b -> h_sess a = h_sess b -> a = b.
Proof.
  intros sv a b W A B E. rewrite connected_in in A, B by exact W.
  assert ((h_id a, a) = (h_id b, b)) as K.
  { eapply nodup_inj; [exact (wf_sess sv W)|exact A|exact B|exact E]. }
  congruence.
Qed.
Lemma same_id : forall sv a b, Wf sv -> connected sv a -> connected sv b -> h_id a = h_id b -> a = b.
Proof.
  intros sv a b W A B E. rewrite connected_in in A, B by exact W.
  assert ((h_id a, a) = (h_id b, b)) as K.
  { eapply nodup_inj; [exact (wf_keys sv W)|exact A|exact B|exact E]. }
  congruence.
Qed.

(** ** What the helpers leave alone *)
Lemma connected_map : forall sv i s w, sv_map (clientConnected sv i s w) = sv_map sv.
Proof. reflexivity. Qed.
Lemma disconnected_map : forall sv i, sv_map (clientDisconnected sv i) = sv_map sv.
Proof. intros sv i. unfold clientDisconnected. destruct (lookup i (sv_reg sv)); reflexivity. Qed.
Lemma disconnected_next : forall sv i, sv_next (clientDisconnected sv i) = sv_next sv.
Proof. intros sv i. unfold clientDisconnected. destruct (lookup i (sv_reg sv)); reflexivity. Qed.
Lemma countOut_map : forall sv h, sv_map (countOut sv h) = sv_map sv.
Proof. intros sv h. unfold countOut. destruct (h_used h); reflexivity. Qed.
Lemma countOut_next : forall sv h, sv_next (countOut sv h) = sv_next sv.
Proof. intros sv h. unfold countOut. destruct (h_used h); reflexivity. Qed.

Definition without (s : nat) (m : list (cid * handler)) : list (cid * handler) :=
  filter (fun e => negb (Nat.eqb (sessOf e) s)) m.

Lemma in_without : forall s m e, In e (without s m) <-> In e m /\ sessOf e <> s.
Proof.
  intros s m e. unfold without. rewrite filter_In. destruct (Nat.eqb (sessOf e) s) eqn:E; cbn [negb].
  - apply Nat.eqb_eq in E. split; [intros [_ H]; discriminate|intros [_ H]; congruence].
  - apply Nat.eqb_neq in E. tauto.
Qed.
Lemma without_none : forall s m, (forall e, In e m -> sessOf e <> s) -> without s m = m.
Proof.
  intros s m H. unfold without. induction m as [|a t IH]; cbn [filter]; [reflexivity|].
  assert (Nat.eqb (sessOf a) s = false) as E. { apply Nat.eqb_neq. apply H. left. reflexivity. }
  rewrite E. cbn [negb]. f_equal. apply IH. intros e K. apply H. right. exact K.
Qed.
Lemma erase_without : forall sv h, Wf sv -> In (h_id h, h) (sv_map sv) ->
  erase (h_id h) (sv_map sv) = without (h_sess h) (sv_map sv).
Proof.
  intros sv h W H. unfold erase, without. apply filter_ext_in. intros e K. f_equal.
  destruct (cid_eqb (h_id h) (fst e)) eqn:E, (Nat.eqb (sessOf e) (h_sess h)) eqn:F; try reflexivity; exfalso.
  - apply cid_eqb_spec in E. apply Nat.eqb_neq in F. apply F.
    assert ((h_id h, h) = e) as G. { eapply nodup_inj; [exact (wf_keys sv W)|exact H|exact K|exact E]. }
    subst e. reflexivity.
  - apply cid_eqb_neq in E. apply Nat.eqb_eq in F. apply E.
    assert ((h_id h, h) = e) as G. { eapply nodup_inj; [exact (wf_sess sv W)|exact H|exact K|symmetry; exact F]. }
    subst e. reflexivity.
Qed.
Lemma release_map : forall sv s, Wf sv -> sv_map (release sv s) = without s (sv_map sv).
Proof.
  intros sv s W. unfold release. destruct (findSession s (sv_map sv)) as [[i h]|] eqn:F.
  - destruct (handler_of sv s i h W F) as [H [E ->]]. subst s.
    cbn [setMap sv_map]. rewrite countOut_map. cbn [setStreams sv_map].
    destruct (hasId (h_id h) (sv_streams sv) || h_used h); [rewrite disconnected_map|]; apply erase_without; assumption.
  - symmetry. apply without_none. apply findSession_none. exact F.
Qed.
Lemma release_next : forall sv s, sv_next (release sv s) = sv_next sv.
Proof.
  intros sv s. unfold release. destruct (findSession s (sv_map sv)) as [[i h]|]; [|reflexivity].
  cbn [setMap sv_next]. rewrite countOut_next. cbn [setStreams sv_next].
  destruct (hasId i (sv_streams sv) || h_used h); [rewrite disconnected_next|]; reflexivity.
Qed.
Lemma release_max : forall sv s, sv_max (release sv s) = sv_max sv.
Proof.
  intros sv s. unfold release. destruct (findSession s (sv_map sv)) as [[i h]|]; [|reflexivity].
  cbn [setMap sv_max]. unfold countOut, clientDisconnected, setStreams.
  destruct (hasId i (sv_streams sv) || h_used h), (h_used h), (lookup i (sv_reg sv)); reflexivity.
Qed.

(** A part of the clients of a well-formed server, in order. *)
Lemma wf_part : forall sv sv' f, Wf sv -> sv_map sv' = filter f (sv_map sv) -> sv_next sv' = sv_next sv -> Wf sv'.
Proof.
  intros sv sv' f W M N. constructor; rewrite ?M, ?N.
  - apply nodup_map_filter. exact (wf_keys sv W).
  - intros e H. apply filter_In in H. apply (wf_ids sv W). tauto.
  - apply nodup_map_filter. exact (wf_sess sv W).
  - intros e H. apply filter_In in H. apply (wf_old sv W). tauto.
  - intros e H. apply filter_In in H. apply (wf_rights sv W). tauto.
Qed.
Lemma wf_same : forall sv sv', Wf sv -> sv_map sv' = sv_map sv -> sv_next sv' = sv_next sv -> Wf sv'.
Proof.
  intros sv sv' [A B C D E] M N. constructor; rewrite ?M, ?N; assumption.
Qed.
Lemma wf_release : forall sv s, Wf sv -> Wf (release sv s).
Proof.
  intros sv s W. eapply wf_part; [exact W|exact (release_map sv s W)|exact (release_next sv s)].
Qed.

(** Changing a field of one handler that is neither session nor id. *)
Definition mild (f : handler -> handler) : Prop :=
  forall h, h_sess (f h) = h_sess h /\ h_id (f h) = h_id h
            /\ ((h_used h = true <-> h_rights h <> None) -> (h_used (f h) = true <-> h_rights (f h) <> None)).

Lemma mild_kind : forall t d, mild (setKind t d).
Proof. intros t d h. cbn. tauto. Qed.
Lemma mild_used : mild setUsed.
Proof. intros h. cbn. repeat split; intros; congruence. Qed.
Lemma mild_stream : mild setStream.
Proof. intros h. cbn. tauto. Qed.

Lemma in_onSession : forall s f m e, In e (onSession s f m) <->
  exists x, In x m /\ e = (if Nat.eqb (sessOf x) s then (fst x, f (snd x)) else x).
Proof.
  intros s f m e. unfold onSession. rewrite in_map_iff. unfold sessOf.
  split; intros [x [A B]]; exists x; split; auto.
Qed.
Lemma onSession_keys : forall s f m, map fst (onSession s f m) = map fst m.
Proof.
  intros s f m. unfold onSession. rewrite map_map. apply map_ext. intros a.
  destruct (Nat.eqb (h_sess (snd a)) s); reflexivity.
Qed.
Lemma onSession_sess : forall s f m, (forall h, h_sess (f h) = h_sess h) -> map sessOf (onSession s f m) = map sessOf m.
Proof.
  intros s f m H. unfold onSession. rewrite map_map. apply map_ext. intros a. unfold sessOf.
  destruct (Nat.eqb (h_sess (snd a)) s); cbn [snd]; [apply H|reflexivity].
Qed.
Lemma wf_onSession : forall sv sv' s f, Wf sv -> mild f ->
  sv_map sv' = onSession s f (sv_map sv) -> sv_next sv' = sv_next sv -> Wf sv'.
Proof.
  intros sv sv' s f W F M N. constructor; rewrite ?M, ?N.
  - rewrite onSession_keys. exact (wf_keys sv W).
  - intros e H. apply in_onSession in H. destruct H as [x [X ->]]. pose proof (wf_ids sv W _ X) as K.
    destruct (Nat.eqb (sessOf x) s); cbn [fst snd]; [|exact K]. rewrite (proj1 (proj2 (F (snd x)))). exact K.
  - rewrite onSession_sess; [exact (wf_sess sv W)|]. intro h. exact (proj1 (F h)).
  - intros e H. apply in_onSession in H. destruct H as [x [X ->]]. pose proof (wf_old sv W _ X) as K.
    destruct (Nat.eqb (sessOf x) s); [|exact K]. unfold sessOf in *. cbn [snd]. rewrite (proj1 (F (snd x))). exact K.
  - intros e H. apply in_onSession in H. destruct H as [x [X ->]]. pose proof (wf_rights sv W _ X) as K.
    destruct (Nat.eqb (sessOf x) s); [|exact K]. cbn [snd]. exact (proj2 (proj2 (F (snd x))) K).
Qed.
Lemma onSession_other : forall s f m, (forall e, In e m -> sessOf e <> s) -> onSession s f m = m.
Proof.
  intros s f m H. unfold onSession. rewrite <- map_id. apply map_ext_in. intros a K.
  assert (Nat.eqb (h_sess (snd a)) s = false) as E. { apply Nat.eqb_neq. exact (H a K). }
  rewrite E. reflexivity.
Qed.

(** The registration under another id. *)
Definition moved (m : list (cid * handler)) (h : handler) (i : cid) (again : bool) : list (cid * handler) :=
  without (h_sess h) m ++ [(i, setIdentity i again h)].

Lemma rename_map : forall sv h i again, Wf sv -> In (h_id h, h) (sv_map sv) ->
  lookup i (sv_map sv) = None ->
  exists sv2, rename sv (h_id h) i = Some sv2 /\ sv2 = setMap sv (sv_map sv2) /\
    onSession (h_sess h) (setIdentity i again) (sv_map sv2) = moved (sv_map sv) h i again.
Proof.
  intros sv h i again W H L. unfold rename. rewrite (in_lookup _ _ _ _ (wf_keys sv W) H).
  eexists. split; [reflexivity|]. cbn [setMap sv_map]. split; [reflexivity|].
  rewrite erase_without by assumption. unfold insert.
  assert (lookup i (without (h_sess h) (sv_map sv)) = None) as ->.
  { apply lookup_none. apply lookup_none in L. intro K. apply L. apply in_map_iff in K. destruct K as [x [E K]].
    apply in_without in K. apply in_map_iff. exists x. tauto. }
  unfold moved, onSession. rewrite map_app. f_equal.
  - change (onSession (h_sess h) (setIdentity i again) (without (h_sess h) (sv_map sv)) = without (h_sess h) (sv_map sv)).
    apply onSession_other. intros e K. apply in_without in K. tauto.
  - cbn [map snd fst]. rewrite Nat.eqb_refl. reflexivity.
Qed.
Lemma wf_moved : forall sv sv' h i again, Wf sv -> In (h_id h, h) (sv_map sv) -> lookup i (sv_map sv) = None ->
  sv_map sv' = moved (sv_map sv) h i again -> sv_next sv' = sv_next sv -> Wf sv'.
Proof.
  intros sv sv' h i again W H L M N. constructor; rewrite ?M, ?N; unfold moved.
  - rewrite map_app. cbn [map fst]. apply nodup_snoc; [apply nodup_map_filter; exact (wf_keys sv W)|].
    apply lookup_none in L. intro K. apply L. apply in_map_iff in K. destruct K as [x [E K]].
    apply in_without in K. apply in_map_iff. exists x. tauto.
  - intros e K. apply in_app_or in K. destruct K as [K|[K|[]]].
    + apply in_without in K. apply (wf_ids sv W). tauto.
    + subst e. reflexivity.
  - rewrite map_app. cbn [map]. apply nodup_snoc; [apply nodup_map_filter; exact (wf_sess sv W)|].
    intro K. apply in_map_iff in K. destruct K as [x [E K]]. apply in_without in K. unfold sessOf in *. cbn [snd setIdentity h_sess] in E. tauto.
  - intros e K. apply in_app_or in K. destruct K as [K|[K|[]]].
    + apply in_without in K. apply (wf_old sv W). tauto.
    + subst e. exact (wf_old sv W _ H).
  - intros e K. apply in_app_or in K. destruct K as [K|[K|[]]].
    + apply in_without in K. apply (wf_rights sv W). tauto.
    + subst e. exact (wf_rights sv W _ H).
Qed.

(** The closed forms of [takeId]. *)
Inductive take_case (sv : server) (h : handler) (i : cid) (again : bool) : server * bool -> Prop :=
| TC_kept : forall other, In (i, other) (sv_map sv) -> again = false ->
    take_case sv h i again (setMap sv (onSession (h_sess h) (setIdentity (h_id h) again) (sv_map sv)), true)
| TC_own : again = true -> i = h_id h ->
    take_case sv h i again (release sv (h_sess h), false)
| TC_over : forall other, again = true -> In (i, other) (sv_map sv) -> h_sess other <> h_sess h -> i <> h_id h ->
    take_case sv h i again
      (setMap (release sv (h_sess other)) (moved (sv_map (release sv (h_sess other))) h i again), true)
| TC_new : lookup i (sv_map sv) = None ->
    take_case sv h i again (setMap sv (moved (sv_map sv) h i again), true).

Lemma setMap_setMap : forall sv a b, setMap (setMap sv a) b = setMap sv b.
Proof. reflexivity. Qed.

Lemma takeId_case : forall sv h i again, Wf sv -> In (h_id h, h) (sv_map sv) ->
  take_case sv h i again (takeId sv h i again).
Proof.
  intros sv h i again W H. unfold takeId. destruct (lookup i (sv_map sv)) as [o|] eqn:L.
  - pose proof (lookup_in _ _ _ _ L) as LI. pose proof (wf_ids sv W _ LI) as LK. cbn [fst snd] in LK.
    destruct again; [|eapply TC_kept; [exact LI|reflexivity]].
    pose proof (wf_release sv (h_sess o) W) as W1.
    destruct (Nat.eq_dec (h_sess o) (h_sess h)) as [E|E].
    + assert (o = h) as ->.
      { assert ((i, o) = (h_id h, h)) as K; [|congruence].
        eapply nodup_inj; [exact (wf_sess sv W)|exact LI|exact H|exact E]. }
      unfold rename. assert (lookup (h_id h) (sv_map (release sv (h_sess h))) = None) as ->.
      { apply lookup_none. rewrite release_map by exact W. intro K. apply in_map_iff in K. destruct K as [x [X K]].
        apply in_without in K. destruct K as [K N]. apply N.
        assert (x = (h_id h, h)) as ->; [|reflexivity].
        eapply nodup_inj; [exact (wf_keys sv W)|exact K|exact H|exact X]. }
      apply TC_own; [reflexivity|congruence].
    + assert (i <> h_id h) as NI.
      { intro K. apply E. assert ((i, o) = (h_id h, h)) as G; [|congruence].
        eapply nodup_inj; [exact (wf_keys sv W)|exact LI|exact H|cbn; exact K]. }
      assert (In (h_id h, h) (sv_map (release sv (h_sess o)))) as H1.
      { rewrite release_map by exact W. apply in_without. split; [exact H|]. unfold sessOf. cbn [snd]. congruence. }
      assert (lookup i (sv_map (release sv (h_sess o))) = None) as L1.
      { apply lookup_none. rewrite release_map by exact W. intro K. apply in_map_iff in K. destruct K as [x [X K]].
        apply in_without in K. destruct K as [K N]. apply N.
        assert (x = (i, o)) as ->; [|reflexivity].
        eapply nodup_inj; [exact (wf_keys sv W)|exact K|exact LI|exact X]. }
      destruct (rename_map _ h i true W1 H1 L1) as [sv2 [R [S2 O]]]. cbv zeta. rewrite R, O, S2, setMap_setMap.
      eapply TC_over; [reflexivity|exact LI|exact E|exact NI].
  - destruct (rename_map sv h i again W H L) as [sv2 [R [S2 O]]]. rewrite R, O, S2, setMap_setMap.
    apply TC_new. exact L.
Qed.

(** ** The steps keep the server well-formed *)
Lemma wf_start : forall max, Wf (start max).
Proof. intros max. constructor; try apply NoDup_nil; intros e []. Qed.

Lemma wf_open : forall sv u, Wf sv -> Wf (fst (onOpen sv u)).
Proof.
  intros sv u W. unfold onOpen. cbn [fst]. unfold insert.
  destruct (lookup (Assigned (sv_next sv)) (sv_map sv)) eqn:L.
  - constructor; cbn [sv_map sv_next]; try apply W. intros e H. pose proof (wf_old sv W e H). lia.
  - constructor; cbn [sv_map sv_next].
    + rewrite map_app. cbn [map fst]. apply nodup_snoc; [apply W|]. apply lookup_none. exact L.
    + intros e H. apply in_app_or in H. destruct H as [H|[H|[]]]; [apply (wf_ids sv W); exact H|subst e; reflexivity].
    + rewrite map_app. cbn [map]. apply nodup_snoc; [apply W|]. intro K. apply in_map_iff in K.
      destruct K as [x [E K]]. pose proof (wf_old sv W x K) as O. unfold sessOf in *. cbn [snd h_sess] in E. lia.
    + intros e H. apply in_app_or in H. destruct H as [H|[H|[]]]; [pose proof (wf_old sv W e H); lia|subst e; cbn; lia].
    + intros e H. apply in_app_or in H. destruct H as [H|[H|[]]]; [apply (wf_rights sv W); exact H|subst e; cbn; split; congruence].
Qed.
Lemma wf_take : forall sv h i again, Wf sv -> In (h_id h, h) (sv_map sv) -> Wf (fst (takeId sv h i again)).
Proof.
  intros sv h i again W H. destruct (takeId_case sv h i again W H) as [o LI A|A E|o A LI N NI|L]; cbn [fst].
  - assert (setMap sv (onSession (h_sess h) (setIdentity (h_id h) again) (sv_map sv)) =
            setMap sv (onSession (h_sess h) (setIdentity (h_id h) again) (sv_map sv))) as _ by reflexivity.
    constructor; cbn [setMap sv_map sv_next].
    + rewrite onSession_keys. apply W.
    + intros e K. apply in_onSession in K. destruct K as [x [X ->]]. pose proof (wf_ids sv W _ X) as Q.
      destruct (Nat.eqb (sessOf x) (h_sess h)) eqn:E; [|exact Q]. cbn [fst snd setIdentity h_id].
      apply Nat.eqb_eq in E. assert (x = (h_id h, h)) as ->; [|reflexivity].
      eapply nodup_inj; [exact (wf_sess sv W)|exact X|exact H|exact E].
    + rewrite onSession_sess; [apply W|reflexivity].
    + intros e K. apply in_onSession in K. destruct K as [x [X ->]]. pose proof (wf_old sv W _ X) as Q.
      destruct (Nat.eqb (sessOf x) (h_sess h)); exact Q.
    + intros e K. apply in_onSession in K. destruct K as [x [X ->]]. pose proof (wf_rights sv W _ X) as Q.
      destruct (Nat.eqb (sessOf x) (h_sess h)); exact Q.
  - apply wf_release. exact W.
  - pose proof (wf_release sv (h_sess o) W) as W1.
    eapply (wf_moved (release sv (h_sess o))); [exact W1| | |reflexivity|reflexivity].
    + rewrite release_map by exact W. apply in_without. split; [exact H|]. unfold sessOf. cbn [snd]. congruence.
    + apply lookup_none. rewrite release_map by exact W. intro K. apply in_map_iff in K. destruct K as [x [X K]].
      apply in_without in K. destruct K as [K Q]. apply Q. assert (x = (i, o)) as ->; [|reflexivity].
      eapply nodup_inj; [exact (wf_keys sv W)|exact K|exact LI|exact X].
  - eapply (wf_moved sv); [exact W|exact H|exact L|reflexivity|reflexivity].
Qed.
Lemma take_next : forall sv h i again, Wf sv -> In (h_id h, h) (sv_map sv) -> sv_next (fst (takeId sv h i again)) = sv_next sv.
Proof.
  intros sv h i again W H. destruct (takeId_case sv h i again W H); cbn [fst setMap sv_next]; rewrite ?release_next; reflexivity.
Qed.
Lemma wf_props : forall sv h p, Wf sv -> In (h_id h, h) (sv_map sv) -> Wf (fst (onProps sv h p)).
Proof.
  intros sv h p W H. unfold onProps. destruct (p_identity p) as [[i again]|].
  - pose proof (wf_take sv h i again W H) as W1. destruct (takeId sv h i again) as [sv1 ok]. cbn [fst] in W1.
    destruct ok; cbn [fst]; [|exact W1]. eapply wf_onSession; [exact W1|apply (mild_kind (announced p) (announcedDrop p))|reflexivity|reflexivity].
  - cbn [fst]. eapply wf_onSession; [exact W|apply (mild_kind (announced p) (announcedDrop p))|reflexivity|reflexivity].
Qed.
Lemma wf_fold_release : forall l sv, Wf sv -> Wf (fold_left release l sv).
Proof. induction l as [|s t IH]; intros sv W; cbn [fold_left]; [exact W|]. apply IH. apply wf_release. exact W. Qed.
Lemma fold_release_next : forall l sv, sv_next (fold_left release l sv) = sv_next sv.
Proof. induction l as [|s t IH]; intros sv; cbn [fold_left]; [reflexivity|]. rewrite IH. apply release_next. Qed.
Lemma fold_release_max : forall l sv, sv_max (fold_left release l sv) = sv_max sv.
Proof. induction l as [|s t IH]; intros sv; cbn [fold_left]; [reflexivity|]. rewrite IH. apply release_max. Qed.
Lemma wf_accept : forall sv h, Wf sv -> Wf (accept sv h).
Proof. intros sv h W. eapply wf_onSession; [exact W|exact mild_used|reflexivity|reflexivity]. Qed.
Lemma wf_config : forall sv h, Wf sv -> Wf (fst (onConfig sv h)).
Proof.
  intros sv h W. unfold onConfig, connectConfig. destruct (h_used h); [exact W|].
  destruct (limitReached sv); [exact W|]. destruct (controlRejected sv h); [exact W|].
  destruct (exclusiveRejected sv h); [|apply wf_accept; exact W].
  destruct (h_drop h && negb (h_again h)); [|exact W]. apply wf_accept. apply wf_fold_release. exact W.
Qed.
Lemma wf_stream : forall sv h, Wf sv -> Wf (fst (onStream sv h)).
Proof.
  intros sv h W. unfold onStream. destruct (hasId (h_id h) (sv_streams sv)); [exact W|].
  eapply wf_onSession; [exact W|exact mild_stream|reflexivity|reflexivity].
Qed.
Lemma wf_step : forall sv m, Wf sv -> Wf (fst (step sv m)).
Proof.
  intros sv m W. destruct m as [u|s p|s|s|s|]; cbn [step].
  - apply wf_open. exact W.
  - unfold withHandler. destruct (findSession s (sv_map sv)) as [[i h]|] eqn:F; [|exact W].
    destruct (handler_of sv s i h W F) as [H _]. apply wf_props; assumption.
  - unfold withHandler. destruct (findSession s (sv_map sv)) as [[i h]|] eqn:F; [|exact W]. apply wf_config. exact W.
  - unfold withHandler. destruct (findSession s (sv_map sv)) as [[i h]|] eqn:F; [|exact W]. apply wf_stream. exact W.
  - unfold withHandler. destruct (findSession s (sv_map sv)) as [[i h]|] eqn:F; [|exact W]. apply wf_release. exact W.
  - unfold onSignal. destruct (forallb _ _); exact W.
Qed.
Lemma run_cons : forall sv m ms, run sv (m :: ms) = run (fst (step sv m)) ms.
Proof. reflexivity. Qed.
Lemma wf_run : forall ms sv, Wf sv -> Wf (run sv ms).
Proof. induction ms as [|m t IH]; intros sv W; [exact W|]. rewrite run_cons. apply IH. apply wf_step. exact W. Qed.

(** An invariant of a history. *)
Lemma run_invariant : forall (inv : server -> Prop) (ok : server -> msg -> Prop),
  (forall sv m, inv sv -> ok sv m -> inv (fst (step sv m))) ->
  forall ms sv, inv sv -> along ok sv ms -> inv (run sv ms).
Proof.
  intros inv ok S0. induction ms as [|m t IH]; intros sv H A; [exact H|].
  destruct A as [A B]. rewrite run_cons. apply IH; [apply S0; assumption|exact B].
Qed.

(** ** The release of the other control clients *)
Lemma fold_release_map : forall l sv, Wf sv ->
  sv_map (fold_left release l sv) = filter (fun e => negb (existsb (Nat.eqb (sessOf e)) l)) (sv_map sv).
Proof.
  induction l as [|s t IH]; intros sv W; cbn [fold_left existsb].
  - cbn [negb]. clear W. induction (sv_map sv) as [|a m IH]; cbn [filter]; [reflexivity|]. rewrite <- IH. reflexivity.
  - rewrite IH by (apply wf_release; exact W). rewrite release_map by exact W. unfold without.
    clear. induction (sv_map sv) as [|a m IH]; cbn [filter]; [reflexivity|].
    destruct (Nat.eqb (sessOf a) s) eqn:E; cbn [negb orb].
    + exact IH.
    + cbn [filter]. rewrite IH. reflexivity.
Qed.
Lemma releaseOthers_map : forall sv h, Wf sv ->
  sv_map (releaseOthers sv h) = filter (fun e => negb (isOtherControl h (snd e))) (sv_map sv).
Proof.
  intros sv h W. unfold releaseOthers. rewrite fold_release_map by exact W.
  apply filter_ext_in. intros e K. f_equal.
  destruct (isOtherControl h (snd e)) eqn:E.
  - apply existsb_exists. exists (sessOf e). split; [|apply Nat.eqb_refl].
    apply in_map_iff. exists (snd e). split; [reflexivity|]. apply filter_In. split; [|exact E].
    apply in_map. exact K.
  - apply Bool.not_true_is_false. intro X. apply existsb_exists in X. destruct X as [s [I0 Q]].
    apply Nat.eqb_eq in Q. subst s. apply in_map_iff in I0. destruct I0 as [o [O I0]]. apply filter_In in I0.
    destruct I0 as [I0 F]. apply in_map_iff in I0. destruct I0 as [y [Y I0]]. subst o.
    assert (y = e) as ->; [|congruence].
    eapply nodup_inj; [exact (wf_sess sv W)|exact I0|exact K|exact O].
Qed.
