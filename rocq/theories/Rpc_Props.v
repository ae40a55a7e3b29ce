(** C14: no remote call changes a device without the required rights. *)
From Coq Require Import List Bool Arith ZArith Lia.
From Verif Require Import Rpc_Model Rpc_Spec Rpc_Proofs Rpc_Hist.
Import ListNotations.

(** One call. Whatever it changes on a component that is there before and
    after, its client may change: it is not view-only, the device of the
    component is not locked, and the user has the permissions. Exempt are the
    operation mode, streaming sources, Update and the nested objects of batches
    (see [direct]), for which the claim is false. *)
Theorem c14_rights_partial : forall c ok st p r st' o q x,
  call c ok st p r = (st', o) -> direct r -> present st q -> present st' q ->
  ~ same st st' q x -> justified st c q x.
Proof. exact call_direct. Qed.

(** Components come and go only under a component the client may write, on an
    unlocked device, for every call. *)
Theorem c14_presence : forall c ok st p r st' o q,
  call c ok st p r = (st', o) -> ~ (present st q <-> present st' q) -> justified_presence st c q.
Proof. exact presence_call. Qed.

(** A lock held by somebody else changes only by ForceUnlock. *)
Theorem c14_other_lock : forall c ok st p r st' o q nd nd' h,
  call c ok st p r = (st', o) -> lookup st q = Some nd -> lookup st' q = Some nd' ->
  n_lock nd = Some h -> h <> c_user c -> n_lock nd' <> n_lock nd -> direct r -> r = RForceUnlock.
Proof.
  intros c ok st p r st' o q nd nd' h E El El' Lk Ne Df D. apply call_inv in E.
  destruct E as [[-> _]|[(ids & _ & _ & _ & _ & ->)|(n0 & self & Ep & Es & E)]];
    [exfalso; congruence|exfalso; unfold after_removal, lookup, with_ext in El'; cbn [s_nodes] in El';
       unfold lookup in El; rewrite El in El'; injection El' as <-; congruence|].
  assert (Oth : forall l, existsb (held_by_other (c_user c)) (devices_under st p) = false ->
     lookup (with_nodes st (map (fun x => if under p (fst x) && kind_eqb (n_kind (snd x)) KDevice
                                   then (fst x, set_lock l (snd x)) else x) (s_nodes st))) q = Some nd' -> False).
  { intros l H F. rewrite lookup_map in F by (intro x; destruct (_ && _); reflexivity).
    rewrite El in F. cbn [option_map fst snd] in F.
    destruct (under p q && kind_eqb (n_kind nd) KDevice) eqn:B; cbn [snd] in F; [|congruence].
    assert (I : In (q, nd) (devices_under st p)).
    { unfold devices_under. apply filter_In. split; [|exact B].
      unfold lookup in El. destruct (find _ (s_nodes st)) as [[k n2]|] eqn:Fd; [|discriminate].
      injection El as <-. apply find_key in Fd. destruct Fd as [F1 F2]. cbn [fst] in F1. subst k. exact F2. }
    assert (T : existsb (held_by_other (c_user c)) (devices_under st p) = true).
    { apply existsb_exists. exists (q, nd). split; [exact I|]. unfold held_by_other. cbn [snd]. rewrite Lk.
      apply negb_true_iff. apply Nat.eqb_neq. exact Ne. }
    congruence. }
  destruct (match r with RLock | RUnlock | RForceUnlock => true | _ => false end) eqn:R.
  - destruct r; try discriminate R; [| |reflexivity]; exfalso; cbn [handle] in E.
    + destruct (negb _); [injection E as <- <-; congruence|]. destruct (view_only c); [injection E as <- <-; congruence|].
      destruct (existsb _ _) eqn:H; injection E as <- <-; [congruence|]. eapply Oth; [reflexivity|exact El'].
    + destruct (negb _); [injection E as <- <-; congruence|]. destruct (view_only c); [injection E as <- <-; congruence|].
      destruct (existsb _ _) eqn:H; [injection E as <- <-; congruence|].
      destruct (_ && _); injection E as <- <-; [congruence|]. eapply Oth; [reflexivity|exact El'].
  - exfalso. apply Df. clear Df Oth Lk Ne.
    assert (U : forall st0 f, lookup st0 q = Some nd -> (forall n, n_lock (f n) = n_lock n) ->
                lookup (upd st0 p f) q = Some nd' -> n_lock nd' = n_lock nd).
    { intros st0 f F K F'. rewrite lookup_upd in F'. destruct (path_eqb q p); rewrite F in F'; cbn [option_map] in F';
        injection F' as <-; [apply K|reflexivity]. }
    assert (S0 : forall y : out, (st, y) = (st', o) -> n_lock nd' = n_lock nd).
    { intros y H. injection H as <- _. congruence. }
    assert (FoldU : forall (g : write -> node -> node) l st0, (forall w n, n_lock (g w n) = n_lock n) ->
       forall a, lookup st0 q = Some a -> exists b, lookup (fold_left (fun s w => upd s p (g w)) l st0) q = Some b /\ n_lock b = n_lock a).
    { intros g l st0 K. revert st0. induction l as [|w l IH]; intros st0 a F; cbn [fold_left]; [exists a; auto|].
      destruct (path_eqb q p) eqn:Pq.
      - destruct (IH (upd st0 p (g w)) (g w a)) as (b & B1 & B2); [rewrite lookup_upd, Pq, F; reflexivity|].
        exists b. rewrite B2, K. auto.
      - apply (IH (upd st0 p (g w)) a). rewrite lookup_upd, Pq. exact F. }
    assert (NoAdd : forall id k, lookup st (p ++ [id]) = None ->
       lookup (with_nodes st (s_nodes st ++ [(p ++ [id], new_node k self)])) q = Some nd' -> n_lock nd' = n_lock nd).
    { intros id k Q F. rewrite lookup_add in F by exact Q. destruct (path_eqb_spec q (p ++ [id])) as [->|_]; congruence. }
    assert (NoRem : forall id, lookup (with_nodes st (filter (fun x => negb (under (p ++ [id]) (fst x))) (s_nodes st))) q = Some nd' ->
       n_lock nd' = n_lock nd).
    { intros id F. rewrite lookup_remove in F. destruct (under _ q); congruence. }
    destruct r; try discriminate R; cbn [direct] in D; try contradiction; cbn [handle] in E.
    all: try (match type of E with context [fold_left _ _ _] => fail 1 | _ => idtac end;
         repeat (match type of E with context [match ?b with _ => _ end] => destruct b eqn:?; cbn beta iota in E end);
         try (eapply S0; exact E);
         injection E as <- <-;
         first [refine (U st _ El _ El'); intro; reflexivity | eapply NoAdd; eassumption | eapply NoRem; exact El' | idtac]).
    + destruct (locked st p); [eapply S0; exact E|]. destruct (negb _); [eapply S0; exact E|]. destruct (view_only c); [eapply S0; exact E|].
      destruct (n_objs n0 false s) as [ob|]; [|eapply S0; exact E].
      destruct (FoldU (fun w => set_obj false (s ++ q_sub (w_name w)) (with_val (q_name (w_name w)) (w_val w))) l st (fun _ _ => eq_refl) nd El)
        as (b & B1 & B2).
      destruct ok; [destruct (ob_upd ob)|]; injection E as <- <-.
      * rewrite B1 in El'. injection El' as <-. exact B2.
      * rewrite lookup_upd in El'. destruct (path_eqb q p); rewrite B1 in El'; cbn [option_map] in El'; injection El' as <-; exact B2.
      * rewrite B1 in El'. injection El' as <-. exact B2.
    + assert (F : lookup (with_ext st ((c_session c, id) :: s_ext st)) q = Some nd') by exact El'.
      unfold lookup, with_ext in F. cbn [s_nodes] in F. unfold lookup in El. rewrite El in F. injection F as <-. reflexivity.
Qed.

(** A view-only client changes nothing, however many calls it makes, unless it
    sets operation modes or streaming sources. *)
Theorem c14_view_only_partial : forall st h,
  Forall (fun x => c_conn (r_client x) = ViewOnly /\ ~ unguarded (r_rpc x)) h -> after st h = st.
Proof.
  intros st h. apply after_same. intros [c ok p r] [C U]. unfold step. cbn [r_client r_ok r_path r_rpc] in *.
  destruct (call c ok st p r) as [st' o] eqn:E. eapply view_only_call; eassumption.
Qed.

(** Users without write and execute permissions change nothing, except streaming
    sources and their own signals. *)
Theorem c14_powerless_partial : forall st h,
  Forall (fun x => powerless st (c_user (r_client x)) /\
                   match r_rpc x with RSource _ | RRemoveExternal _ => False | _ => True end) h ->
  after st h = st.
Proof.
  intros st h. apply after_same. intros [c ok p r] [P U]. unfold step. cbn [r_client r_ok r_path r_rpc] in *.
  destruct (call c ok st p r) as [st' o] eqn:E. eapply powerless_call; eassumption.
Qed.

(** Nothing on locked devices changes until one is unlocked, except operation
    modes and streaming sources. *)
Theorem c14_locked_partial : forall st h,
  all_locked st ->
  Forall (fun x => ~ unguarded (r_rpc x) /\ ~ unlocks (r_rpc x)) h -> after st h = st.
Proof.
  intros st h A. apply after_same. intros [c ok p r] [U K]. unfold step. cbn [r_client r_ok r_path r_rpc] in *.
  destruct (call c ok st p r) as [st' o] eqn:E. eapply locked_call; eassumption.
Qed.

(** A call that fails changes nothing, but for three calls. *)
Theorem c14_failed_partial : forall c ok st p r st' o,
  call c ok st p r = (st', o) -> is_err o -> ~ partial_effects r -> st' = st.
Proof. intros c ok st p r st' [| |e] E F U; try contradiction. eapply failed_call; eassumption. Qed.

(** A value is returned only to a user who may read the object. *)
Theorem c14_reads : forall c ok st p r st',
  call c ok st p r = (st', OVal) ->
  match r with
  | RGet q => allowed st (c_user c) p (q_info q) (q_sub q) [Read]
  | RCall q _ _ => allowed st (c_user c) p (q_info q) (q_sub q) [Read; Execute]
  | RAccepts s => allowed st (c_user c) p false [] [Read] /\ allowed st (c_user c) s false [] [Read]
  | _ => allowed st (c_user c) p false [] [Read]
  end.
Proof. exact value_call. Qed.

(** Update and the batches, which the first theorem leaves out: they change
    something only if the client may change the addressed component, and only at
    or below it. *)
Theorem c14_scope : forall c ok st p r st' o,
  call c ok st p r = (st', o) ->
  match r with RUpdate _ | RClearAll _ | RBegin _ | REnd _ _ => True | _ => False end ->
  st' <> st ->
  may_change st c p /\ forall q, (forall t, q <> p ++ t) -> lookup st' q = lookup st q.
Proof.
  intros c ok st p r st' o E R N. apply call_inv in E.
  destruct E as [[-> _]|[(ids & -> & _)|(nd & self & Ep & Es & E)]]; [congruence|contradiction|].
  assert (U : forall st0 k f q, (exists t, k = p ++ t) -> (forall t, q <> p ++ t) -> lookup (upd st0 k f) q = lookup st0 q).
  { intros st0 k f q (t & ->) K. rewrite lookup_upd. destruct (path_eqb_spec q (p ++ t)) as [->|_]; [|reflexivity].
    exfalso. exact (K t eq_refl). }
  assert (P0 : exists t, p = p ++ t) by (exists []; rewrite app_nil_r; reflexivity).
  assert (G : forall k : state * out,
    (if locked st p then (st, OErr ELocked)
     else if negb (may self (c_user c) [Read; Write]) then (st, OErr EDenied)
     else if view_only c then (st, OErr EDenied) else k) = (st', o) -> may_change st c p /\ k = (st', o)).
  { intros k H. destruct (locked st p) eqn:L; [injection H as <- <-; congruence|].
    destruct (may self (c_user c) [Read; Write]) eqn:M; cbn [negb] in H; [|injection H as <- <-; congruence].
    destruct (view_only c) eqn:V; [injection H as <- <-; congruence|].
    split; [|exact H]. split; [apply view_only_spec; exact V|]. split; [apply unlocked; exact L|].
    eapply may_allowed; eassumption. }
  destruct r; try contradiction; cbn [handle] in E; apply G in E; destruct E as [MC E]; (split; [exact MC|]); intros q K.
  - destruct (n_objs nd false s); [destruct ok|]; injection E as <- <-; try congruence. apply U; assumption.
  - destruct (n_objs nd false s); [destruct ok|]; injection E as <- <-; try congruence. apply U; assumption.
  - destruct (n_objs nd false s) as [ob|]; [|injection E as <- <-; congruence].
    assert (W : forall st0, lookup (fold_left (fun st w =>
        upd st p (set_obj false (s ++ q_sub (w_name w)) (with_val (q_name (w_name w)) (w_val w)))) l st0) q = lookup st0 q).
    { clear - U P0 K. induction l as [|w l IH]; intro st0; [reflexivity|]. cbn [fold_left]. rewrite IH. apply U; assumption. }
    destruct ok; [destruct (ob_upd ob)|]; injection E as <- <-; try apply W. rewrite U by assumption. apply W.
  - destruct ok; injection E as <- <-; [|congruence].
    assert (W : forall st0, lookup (fold_left (apply_write p) l st0) q = lookup st0 q).
    { clear - U P0 K. induction l as [|w l IH]; intro st0; [reflexivity|]. cbn [fold_left]. rewrite IH. unfold apply_write.
      apply U; [eexists; reflexivity|exact K]. }
    apply W.
Qed.

(** The signals of a client are added and removed only by that client, and not
    if it is view-only. *)
Theorem c14_external : forall c ok st p r st' o x,
  call c ok st p r = (st', o) -> ~ (In x (s_ext st) <-> In x (s_ext st')) ->
  fst x = c_session c /\ c_conn c <> ViewOnly /\
  match r with
  | RConnectExternal id _ => ~ device_locked st p /\ allowed st (c_user c) p false [] [Read; Write] /\ snd x = id
  | RRemoveExternal ids => ~ device_locked st [] /\ In (snd x) ids
  | _ => False
  end.
Proof.
  intros c ok st p r st' o x E N. apply call_inv in E.
  destruct E as [[-> _]|[(ids & -> & L & V & _ & ->)|(nd & self & Ep & Es & E)]]; [exfalso; apply N; tauto| |].
  - unfold after_removal in N. cbn [with_ext s_ext] in N. rewrite filter_In in N.
    destruct (Nat.eqb (fst x) (c_session c) && existsb (Nat.eqb (snd x)) ids) eqn:B.
    + apply andb_true_iff in B. destruct B as [B1 B2]. apply Nat.eqb_eq in B1. apply existsb_exists in B2.
      destruct B2 as (y & I & Y). apply Nat.eqb_eq in Y. subst y.
      split; [exact B1|]. split; [apply view_only_spec; exact V|]. split; [apply unlocked; exact L|exact I].
    + exfalso. apply N. cbn [negb]. tauto.
  - destruct (match r with RConnectExternal _ _ => true | _ => false end) eqn:R.
    + destruct r; try discriminate. cbn [handle] in E.
      destruct (view_only c) eqn:V; [injection E as <- <-; exfalso; apply N; tauto|].
      destruct (locked st p) eqn:L; [injection E as <- <-; exfalso; apply N; tauto|].
      destruct (may self (c_user c) [Read; Write]) eqn:M; cbn [negb] in E; [|injection E as <- <-; exfalso; apply N; tauto].
      assert (X : s_ext st' = (c_session c, id) :: s_ext st) by (destruct fails; injection E as <- <-; reflexivity).
      rewrite X in N. cbn [In] in N.
      destruct x as [s k]. cbn [fst snd].
      assert (Y : (c_session c, id) = (s, k)).
      { destruct (Nat.eq_dec (c_session c) s) as [<-|D1]; [destruct (Nat.eq_dec id k) as [<-|D2]; [reflexivity|]|];
          exfalso; apply N; (split; [tauto|]); intros [Z|Z]; [congruence|exact Z|congruence|exact Z]. }
      injection Y as <- <-. split; [reflexivity|]. split; [apply view_only_spec; exact V|].
      split; [apply unlocked; exact L|]. split; [eapply may_allowed; eassumption|reflexivity].
    + exfalso. apply N. assert (X : s_ext st' = s_ext st); [|rewrite X; tauto].
      assert (FU : forall (g : state -> write -> state), (forall s w, s_ext (g s w) = s_ext s) ->
                forall l s, s_ext (fold_left g l s) = s_ext s).
      { intros g H l. induction l as [|w l IH]; intro s; [reflexivity|]. cbn [fold_left]. rewrite IH. apply H. }
      assert (MR : forall n u m s q s2 o2, mode_rec n u m s q = (s2, o2) -> s_ext s2 = s_ext s).
      { clear. induction n as [|n IH]; intros u m s q s2 o2 H; cbn [mode_rec] in H; [injection H as <- <-; reflexivity|].
        destruct (lookup s q) as [nd|]; [|injection H as <- <-; reflexivity].
        destruct (n_objs nd false []); [|injection H as <- <-; reflexivity].
        destruct (may _ u [Write]); [|injection H as <- <-; reflexivity].
        change (s_ext s) with (s_ext (upd s q (set_mode m))).
        revert H. generalize (upd s q (set_mode m)). generalize (sub_devices s q). intro l.
        induction l as [|a l IHl]; intros s0 H; cbn [mode_each] in H; [injection H as <- <-; reflexivity|].
        destruct (match lookup s0 a with Some d => n_mirrored d | None => false end).
        - apply IHl in H. rewrite H. reflexivity.
        - destruct (mode_rec n u m s0 a) as [s1 [| |e]] eqn:Q.
          + apply IHl in H. rewrite H. eapply IH. exact Q.
          + apply IHl in H. rewrite H. eapply IH. exact Q.
          + injection H as <- <-. eapply IH. exact Q. }
      destruct r; try discriminate R; cbn [handle] in E.
      all: try (match type of E with mode_rec _ _ _ _ _ = _ => eapply MR; exact E end).
      all: try (match type of E with context [fold_left ?g ?l ?s] =>
        assert (H : s_ext (fold_left g l s) = s_ext s) by (apply FU; intros; reflexivity);
        remember (fold_left g l s) as s1 end).
      all: repeat (match type of E with context [match ?b with _ => _ end] => destruct b; cbn beta iota in E end).
      all: try (injection E as <- <-; first [reflexivity|exact H|subst; exact H]).
Qed.

(** The calls for operation modes change nothing else, and only what the user
    may write or what is mirrored. *)
Theorem c14_modes : forall c ok st p r st' o m,
  r = RMode m \/ r = RModeRecursive m -> call c ok st p r = (st', o) -> mode_rel (c_user c) m st st'.
Proof. exact mode_call. Qed.

Lemma allowed_may : forall st u p i s l nd o,
  lookup st p = Some nd -> n_objs nd i s = Some o -> allowed st u p i s l -> may o u l = true.
Proof.
  intros st u p i s l nd o E O (nd' & o' & E' & O' & A).
  rewrite E in E'. injection E' as <-. rewrite O in O'. injection O' as <-.
  unfold may. apply forallb_forall. exact A.
Qed.

Lemma unlocked_conv : forall st p, ~ device_locked st p -> locked st p = false.
Proof. intros st p H. destruct (locked st p) eqn:L; [|reflexivity]. exfalso. apply H. apply locked_spec. exact L. Qed.

Lemma view_only_conv : forall c, c_conn c <> ViewOnly -> view_only c = false.
Proof. intros c H. unfold view_only. destruct (c_conn c); congruence. Qed.

Lemma prop_parent_inl : forall nd q e, prop_parent nd q = inl e -> e = EInterface \/ e = ENotFound.
Proof.
  intros nd q e H. unfold prop_parent in H. destruct (q_info q && _); [injection H as <-; auto|].
  destruct (n_objs nd _ _); [discriminate|injection H as <-; auto].
Qed.

(** The checks ask for nothing else: a client that may change a component is
    refused neither for its rights nor for a lock. *)
Theorem c14_not_refused : forall c ok st p r st' o,
  call c ok st p r = (st', o) -> may_change st c p ->
  match r with
  | RSet _ q _ | RClear _ q => allowed st (c_user c) p (q_info q) (q_sub q) [Read; Write]
  | RGet q => allowed st (c_user c) p (q_info q) (q_sub q) [Read]
  | RCall q _ _ => allowed st (c_user c) p (q_info q) (q_sub q) [Read; Execute]
  | RConnect s | RAccepts s => allowed st (c_user c) s false [] [Read]
  | RLock | RUnlock | RForceUnlock | RModeRecursive _ | RRemoveExternal _ => False
  | _ => True
  end -> ~ refusal o.
Proof.
  intros c ok st p r st' o E (V & L & A) R F. apply view_only_conv in V. apply unlocked_conv in L.
  unfold call in E.
  destruct (match r with RUnknown => true | RRemoveExternal _ => true | _ => false end) eqn:Z.
  { destruct r; try discriminate; try contradiction. injection E as <- <-. destruct F; discriminate. }
  assert (E' : (match lookup st p with
      | None => (st, OErr ENotFound)
      | Some nd => match n_objs nd false [] with
          | None => (st, OErr ENotFound)
          | Some self => if match target_kind r with Some k => kind_eqb (n_kind nd) k | None => true end
              then handle c ok st p nd self r else (st, OErr EInterface) end end) = (st', o)).
  { destruct r; try discriminate Z; exact E. }
  clear E Z. rename E' into E.
  destruct (lookup st p) as [nd|] eqn:Ep; [|injection E as <- <-; destruct F; discriminate].
  destruct (n_objs nd false []) as [self|] eqn:Es; [|injection E as <- <-; destruct F; discriminate].
  destruct (match target_kind r with Some k => kind_eqb (n_kind nd) k | None => true end);
    [|injection E as <- <-; destruct F; discriminate].
  pose proof (allowed_may _ _ _ _ _ _ _ _ Ep Es A) as M.
  assert (M1 : may self (c_user c) [Read] = true /\ may self (c_user c) [Write] = true).
  { unfold may in *. cbn [forallb] in *. apply andb_true_iff in M. destruct M as [M1 M2].
    rewrite M1. apply andb_true_iff in M2. destruct M2 as [M2 _]. rewrite M2. auto. }
  destruct M1 as [MR MW].
  destruct r; try contradiction; cbn [handle] in E; rewrite ?L, ?V, ?M, ?MR, ?MW in E; cbn [negb andb] in E.
  all: try (match type of E with context [prop_parent ?nd0 ?q] =>
    destruct (prop_parent nd0 q) as [e|ob] eqn:Q;
    [|pose proof (allowed_may _ _ _ _ _ _ _ _ Ep (prop_parent_inr _ _ _ Q) R) as M'; rewrite M' in E; rewrite ?andb_false_r in E; cbn [negb] in E] end).
  all: try (match goal with Q : prop_parent _ _ = inl _ |- _ =>
     apply prop_parent_inl in Q; destruct Q; subst; injection E as <- <-; destruct F; discriminate end).
  all: try (repeat (match type of E with context [match ?b with _ => _ end] => destruct b eqn:?; cbn beta iota in E end);
     try discriminate; injection E as <- <-; destruct F; discriminate).
  all: (destruct (lookup st s) as [sg|] eqn:El; [|injection E as <- <-; destruct F; discriminate]);
    destruct (n_kind sg); try (injection E as <- <-; destruct F; discriminate);
    (destruct (n_objs sg false []) as [so|] eqn:So; [|injection E as <- <-; destruct F; discriminate]);
    rewrite ?(allowed_may _ _ _ _ _ _ _ _ El So R) in E;
    try destruct ok; injection E as <- <-; destruct F; discriminate.
Qed.

(** A write that is not refused is done: the object now has the value, and all
    other values of all objects are as before. *)
Theorem c14_set_done : forall c st p prot q v nd o,
  lookup st p = Some nd -> n_objs nd false [] <> None -> n_objs nd (q_info q) (q_sub q) = Some o ->
  (q_info q = true -> n_kind nd = KDevice) ->
  c_conn c <> ViewOnly -> ~ device_locked st p -> allowed st (c_user c) p (q_info q) (q_sub q) [Read; Write] ->
  exists st', call c true st p (RSet prot q v) = (st', OOk) /\
    forall p' i s k, ofield st' p' i s (fun ob => ob_vals ob k) =
      if path_eqb p' p && Bool.eqb i (q_info q) && path_eqb s (q_sub q) && Nat.eqb k (q_name q)
      then Some (Some (Some v)) else ofield st p' i s (fun ob => ob_vals ob k).
Proof.
  intros c st p prot q v nd o Ep Es Eo K V L A. unfold call. rewrite Ep.
  destruct (n_objs nd false []) as [self|] eqn:S0; [|congruence]. cbn [target_kind handle].
  rewrite (unlocked_conv _ _ L), (view_only_conv _ V).
  assert (Q : prop_parent nd q = inr o).
  { unfold prop_parent. rewrite Eo. destruct (q_info q); [rewrite (K eq_refl)|]; reflexivity. }
  rewrite Q, (allowed_may _ _ _ _ _ _ _ _ Ep Eo A). eexists. split; [reflexivity|].
  intros p' i s k. unfold ofield, field. rewrite lookup_upd.
  destruct (path_eqb_spec p' p) as [->|_]; cbn [andb]; [|reflexivity].
  rewrite Ep. cbn [option_map set_obj n_objs].
  destruct (Bool.eqb i (q_info q)) eqn:Bi; cbn [andb]; [|reflexivity].
  destruct (path_eqb_spec s (q_sub q)) as [->|_]; [|reflexivity].
  apply Bool.eqb_prop in Bi. subst i. rewrite Eo. cbn [option_map with_val ob_vals]. unfold put.
  destruct (Nat.eqb k (q_name q)); reflexivity.
Qed.

(** * A concrete device: root [], sub-devices [1] and [2], a function block [3]
      with a nested object [7], an input port [4] and a signal [5]. User 1 may do
      everything but the nested object, user 2 may read, user 3 nothing. *)
Definition ex_obj (f : user -> perm -> bool) : obj := {| ob_perm := f; ob_vals := fun _ => None; ob_upd := 0; ob_calls := 0 |}.
Definition full (u : user) (x : perm) : bool :=
  match u with 1 => true | 2 => match x with Read => true | _ => false end | _ => false end.
Definition readonly (u : user) (x : perm) : bool :=
  match u with 1 | 2 => match x with Read => true | _ => false end | _ => false end.
Definition ex_node (k : kind) (f : user -> perm -> bool) (l : option user) (cn : option (option path)) : node :=
  {| n_kind := k; n_mirrored := false;
     n_objs := fun i s => match i, s with false, [] => Some (ex_obj f) | false, [7] => Some (ex_obj readonly) | _, _ => None end;
     n_attr := fun _ => 0%Z; n_lock := l; n_mode := 0; n_conn := cn; n_src := 0; n_rec := false; n_disc := false |}.
Definition ex_st (root sub : option user) : state :=
  {| s_nodes := [([], ex_node KDevice full root None); ([1], ex_node KDevice full sub None);
                 ([2], ex_node KDevice readonly root None); ([3], ex_node KBlock full None None);
                 ([4], ex_node KPort full None (Some None)); ([5], ex_node KSignal full None None)];
     s_ext := [] |}.
Definition cl (u : user) (k : conn) : client := {| c_user := u; c_conn := k; c_session := 9 |}.
Definition nm (s : path) (k : nat) : pname := {| q_info := false; q_sub := s; q_name := k |}.
Definition wr (rel s : path) (k : nat) (v : Z) : write := {| w_rel := rel; w_name := nm s k; w_val := Some v |}.

(** The history theorems have cases: a view-only client, a user without rights,
    and a locked tree, each with calls that would change something otherwise. *)
Example ex_calls : list rpc := [RSet false (nm [] 0) 5; RAttr AName 3; RUpdate [wr [] [] 0 1%Z]; RAddBlock 8; RLock].
Example c14_history_meets : forall (h := fun c => map (fun r => {| r_client := c; r_ok := true; r_path := []; r_rpc := r |}) ex_calls),
  Forall (fun x => c_conn (r_client x) = ViewOnly /\ ~ unguarded (r_rpc x)) (h (cl 1 ViewOnly)) /\
  Forall (fun x => powerless (ex_st None None) (c_user (r_client x)) /\
                   match r_rpc x with RSource _ | RRemoveExternal _ => False | _ => True end) (h (cl 2 Control)) /\
  all_locked (ex_st (Some 1) (Some 1)) /\
  Forall (fun x => ~ unguarded (r_rpc x) /\ ~ unlocks (r_rpc x)) (h (cl 1 Control)) /\
  lookup (after (ex_st None None) (h (cl 1 Control))) [8] <> None.
Proof.
  intro h. split; [|split; [|split; [|split]]].
  - repeat (constructor; [split; [reflexivity|exact (fun x => x)]|]). constructor.
  - assert (P : powerless (ex_st None None) 2).
    { intros p nd i s o E O. unfold lookup in E. cbn [ex_st s_nodes] in E.
      assert (H : In nd (map snd (s_nodes (ex_st None None)))).
      { destruct (find (fun x => path_eqb (fst x) p) (s_nodes (ex_st None None))) as [x|] eqn:F;
          cbn [ex_st s_nodes] in F; rewrite F in E; [|discriminate]. injection E as <-.
        apply in_map. apply find_some in F. exact (proj1 F). }
      cbn [ex_st s_nodes map snd In] in H.
      repeat (destruct H as [<-|H]; [cbn [ex_node n_objs] in O; destruct i; [discriminate|];
        destruct s as [|z s]; [injection O as <-; split; reflexivity|];
        do 8 (destruct z as [|z]; try discriminate O); destruct s; [injection O as <-; split; reflexivity|discriminate]|]).
      contradiction. }
    repeat (constructor; [split; [exact P|exact Logic.I]|]). constructor.
  - split; [eexists; split; reflexivity|]. intros p nd I K. cbn [ex_st s_nodes In] in I.
    repeat (destruct I as [X|I]; [injection X as <- <-; first [discriminate K|discriminate]|]). contradiction.
  - repeat (constructor; [split; exact (fun x => x)|]). constructor.
  - vm_compute. discriminate.
Qed.

Lemma ex_unlocked : forall r s p, locked (ex_st r s) p = false -> ~ device_locked (ex_st r s) p.
Proof. intros r s p L D. apply locked_spec in D. congruence. Qed.

(** User 1 may change the root, a write succeeds and changes it; user 2 and a
    locked device are refused. *)
Example c14_single_meets :
  may_change (ex_st None None) (cl 1 Control) [] /\
  snd (call (cl 1 Control) true (ex_st None None) [] (RSet false (nm [] 0) 5)) = OOk /\
  ~ same (ex_st None None) (fst (call (cl 1 Control) true (ex_st None None) [] (RSet false (nm [] 0) 5))) [] (Values false []) /\
  snd (call (cl 2 Control) true (ex_st None None) [] (RSet false (nm [] 0) 5)) = OErr EDenied /\
  snd (call (cl 1 Control) true (ex_st (Some 1) None) [3] (RSet false (nm [] 0) 5)) = OErr ELocked /\
  snd (call (cl 2 Control) true (ex_st None None) [] (RGet (nm [7] 0))) = OVal /\
  snd (call (cl 3 Control) true (ex_st None None) [] (RGet (nm [7] 0))) = OErr EDenied.
Proof.
  split; [|split; [reflexivity|split; [|repeat split; reflexivity]]].
  - split; [discriminate|]. split; [apply ex_unlocked; reflexivity|].
    exists (ex_node KDevice full None None), (ex_obj full). split; [reflexivity|]. split; [reflexivity|].
    intros x _. destruct x; reflexivity.
  - intros [H _]. unfold ofield, field in H. cbn in H. injection H as H.
    pose proof (f_equal (fun f => f 0) H) as G. discriminate G.
Qed.

(** A lock of user 1 is taken away from them only by ForceUnlock: such a call. *)
Example c14_force_meets :
  field (ex_st (Some 2) (Some 2)) [1] n_lock = Some (Some 2) /\
  field (fst (call (cl 1 Control) true (ex_st (Some 2) (Some 2)) [] RForceUnlock)) [1] n_lock = Some None /\
  snd (call (cl 1 Control) true (ex_st (Some 2) (Some 2)) [] RUnlock) = OErr EDenied.
Proof. repeat split; reflexivity. Qed.

(** * Where the claim fails *)

Lemma not_allowed : forall st u p i s nd o x l, lookup st p = Some nd -> n_objs nd i s = Some o ->
  In x l -> ob_perm o u x = false -> ~ allowed st u p i s l.
Proof.
  intros st u p i s nd o x l E O I F (nd' & o' & E' & O' & A).
  rewrite E in E'. injection E' as <-. rewrite O in O'. injection O' as <-. rewrite (A x I) in F. discriminate.
Qed.

(** A view-only client changes the operation mode of a locked device. *)
Theorem c14_mode_refuted : exists c ok st p r st' o,
  call c ok st p r = (st', o) /\ c_conn c = ViewOnly /\ device_locked st p /\ o = OOk /\ ~ same st st' p Mode.
Proof.
  exists (cl 1 ViewOnly), true, (ex_st (Some 2) (Some 2)), [], (RMode 4). eexists. eexists.
  split; [reflexivity|]. split; [reflexivity|]. split; [apply locked_spec; reflexivity|]. split; [reflexivity|].
  vm_compute. discriminate.
Qed.

(** A view-only client without any permission changes the streaming source of a
    port of a locked device. *)
Theorem c14_source_refuted : exists c ok st p r st' o,
  call c ok st p r = (st', o) /\ c_conn c = ViewOnly /\ device_locked st p /\
  ~ allowed st (c_user c) p false [] [Read] /\ o = OOk /\ ~ same st st' p Source.
Proof.
  exists (cl 3 ViewOnly), true, (ex_st (Some 1) (Some 1)), [4], (RSource 6). eexists. eexists.
  split; [reflexivity|]. split; [reflexivity|]. split; [apply locked_spec; reflexivity|].
  split; [eapply (not_allowed _ _ _ _ _ _ _ Read); [reflexivity|reflexivity|left; reflexivity|reflexivity]|].
  split; [reflexivity|]. vm_compute. discriminate.
Qed.

(** EndUpdate writes a nested object on which the user has no write permission;
    so do ClearPropertyValues and BeginUpdate with a path. SetPropertyValue on
    the same property is refused. *)
Theorem c14_nested_refuted : exists c st p s q v,
  ~ allowed st (c_user c) p false s [Write] /\
  snd (call c true st p (RSet false q v)) = OErr EDenied /\
  q_info q = false /\ q_sub q = s /\
  ofield (after st [{| r_client := c; r_ok := true; r_path := p; r_rpc := RBegin [] |};
             {| r_client := c; r_ok := true; r_path := p; r_rpc := REnd [] [{| w_rel := []; w_name := q; w_val := Some v |}] |}])
    p false s (fun o => ob_vals o (q_name q)) = Some (Some (Some v)) /\
  ofield (fst (call c true st p (RBegin s))) p false s ob_upd <> ofield st p false s ob_upd.
Proof.
  exists (cl 1 Control), (ex_st None None), [3], [7], (nm [7] 0), 5%Z.
  split; [eapply (not_allowed _ _ _ _ _ _ _ Write); [reflexivity|reflexivity|left; reflexivity|reflexivity]|].
  split; [reflexivity|]. split; [reflexivity|]. split; [reflexivity|]. split; [reflexivity|]. vm_compute. discriminate.
Qed.

(** Update of a device writes to a sub-device that is locked by somebody else
    and on which the user has no write permission. *)
Theorem c14_update_refuted : exists c st p q k v,
  device_locked st q /\ ~ allowed st (c_user c) q false [] [Write] /\
  (exists t, q = p ++ t) /\
  exists l st', call c true st p (RUpdate l) = (st', OOk) /\
    ofield st' q false [] (fun o => ob_vals o k) = Some (Some (Some v)).
Proof.
  pose (st := {| s_nodes := [([], ex_node KDevice full None None); ([2], ex_node KDevice readonly (Some 2) None)]; s_ext := [] |}).
  exists (cl 1 Control), st, [], [2], 0, 5%Z.
  split; [apply locked_spec; reflexivity|].
  split; [eapply (not_allowed _ _ _ _ _ _ _ Write); [reflexivity|reflexivity|left; reflexivity|reflexivity]|].
  split; [exists [2]; reflexivity|]. exists [wr [2] [] 0 5%Z]. eexists. split; [reflexivity|]. reflexivity.
Qed.

(** SetOperationModeRecursive is refused half-way and the first devices keep the
    new mode; a failing connection leaves the signal of the client behind; a
    failing EndUpdate has written its values. *)
Theorem c14_half_way_refuted : exists c st,
  (exists st' e, call c true st [] (RModeRecursive 4) = (st', OErr e) /\ ~ same st st' [] Mode) /\
  (exists st' e, call c true st [4] (RConnectExternal 6 true) = (st', OErr e) /\ s_ext st' <> s_ext st) /\
  (exists st' e, call c true st [] (REnd [] [wr [] [] 0 5%Z]) = (st', OErr e) /\
     ofield st' [] false [] (fun o => ob_vals o 0) = Some (Some (Some 5%Z))).
Proof.
  exists (cl 1 Control), (ex_st None None).
  split; [|split]; eexists; eexists; (split; [vm_compute; reflexivity|]); vm_compute; first [reflexivity|discriminate].
Qed.

Print Assumptions c14_rights_partial.
Print Assumptions c14_presence.
Print Assumptions c14_other_lock.
Print Assumptions c14_view_only_partial.
Print Assumptions c14_powerless_partial.
Print Assumptions c14_locked_partial.
Print Assumptions c14_failed_partial.
Print Assumptions c14_reads.
Print Assumptions c14_scope.
Print Assumptions c14_external.
Print Assumptions c14_modes.
Print Assumptions c14_not_refused.
Print Assumptions c14_set_done.
Print Assumptions c14_mode_refuted.
Print Assumptions c14_source_refuted.
Print Assumptions c14_nested_refuted.
Print Assumptions c14_update_refuted.
Print Assumptions c14_half_way_refuted.
