From Coq Require Import List Bool Arith ZArith Lia.
From Verif Require Import Rpc_Model Rpc_Spec Rpc_Proofs.
Import ListNotations.

Definition after_removal (c : client) (st : state) (ids : list nat) : state :=
  with_ext st (filter (fun x => negb (Nat.eqb (fst x) (c_session c) && existsb (Nat.eqb (snd x)) ids)) (s_ext st)).

Lemma call_inv : forall c ok st p r st' o, call c ok st p r = (st', o) ->
  (st' = st /\ exists e, o = OErr e) \/
  (exists ids, r = RRemoveExternal ids /\ locked st [] = false /\ view_only c = false /\ o = OOk /\ st' = after_removal c st ids) \/
  (exists nd self, lookup st p = Some nd /\ n_objs nd false [] = Some self /\ handle c ok st p nd self r = (st', o)).
Proof.
  intros c ok st p r st' o E. unfold call in E.
  destruct (match r with RUnknown => true | RRemoveExternal _ => true | _ => false end) eqn:Z.
  { destruct r; try discriminate.
    - destruct (locked st []) eqn:L; [injection E as <- <-; left; eauto|].
      destruct (view_only c) eqn:V; [injection E as <- <-; left; eauto|].
      injection E as <- <-. right. left. exists ids. repeat split; auto.
    - injection E as <- <-; left; eauto. }
  assert (E' : (match lookup st p with
      | None => (st, OErr ENotFound)
      | Some nd => match n_objs nd false [] with
          | None => (st, OErr ENotFound)
          | Some self => if match target_kind r with Some k => kind_eqb (n_kind nd) k | None => true end
              then handle c ok st p nd self r else (st, OErr EInterface) end end) = (st', o)).
  { destruct r; try discriminate Z; exact E. }
  clear E Z. rename E' into E.
  destruct (lookup st p) as [nd|] eqn:Ep; [|injection E as <- <-; left; eauto].
  destruct (n_objs nd false []) as [self|] eqn:Es; [|injection E as <- <-; left; eauto].
  destruct (match target_kind r with Some k => kind_eqb (n_kind nd) k | None => true end);
    [|injection E as <- <-; left; eauto].
  right. right. exists nd, self. auto.
Qed.

Ltac chop E :=
  repeat (match type of E with
          | context [match ?b with _ => _ end] => destruct b eqn:?; cbn beta iota in E
          end); try (injection E as <- <-; auto; fail); try discriminate E.

(** * View-only clients *)

Lemma view_only_call : forall c ok st p r st' o,
  c_conn c = ViewOnly -> ~ unguarded r -> call c ok st p r = (st', o) -> st' = st.
Proof.
  intros c ok st p r st' o C U E. apply call_inv in E.
  assert (V : view_only c = true) by (unfold view_only; rewrite C; reflexivity).
  destruct E as [[-> _]|[(ids & _ & _ & V' & _)|(nd & self & Ep & Es & E)]]; [reflexivity|congruence|].
  destruct r; cbn [unguarded] in U; try (exfalso; apply U; exact Logic.I);
    cbn [handle] in E; rewrite ?V in E; cbn [negb andb] in E; try (injection E as <- <-; auto; fail).
  - chop E.
  - chop E.
  - chop E.
  - destruct (prop_parent nd q); [injection E as <- <-; auto|].
    destruct (negb _); [injection E as <- <-; auto|]. destruct (negb callable); [injection E as <- <-; auto|].
    destruct const; cbn [negb andb] in E; chop E.
  - destruct (locked st p); [injection E as <- <-; auto|]. destruct (negb _); injection E as <- <-; auto.
  - destruct (locked st p); [injection E as <- <-; auto|]. destruct (negb _); injection E as <- <-; auto.
  - destruct (locked st p); [injection E as <- <-; auto|]. destruct (negb _); injection E as <- <-; auto.
  - destruct (locked st p); [injection E as <- <-; auto|]. destruct (negb _); injection E as <- <-; auto.
  - destruct (locked st p); [injection E as <- <-; auto|]. destruct (negb _); injection E as <- <-; auto.
  - destruct (locked st p); [injection E as <- <-; auto|]. destruct (negb _); injection E as <- <-; auto.
  - destruct (locked st p); [injection E as <- <-; auto|]. destruct (negb _); injection E as <- <-; auto.
  - chop E.
  - chop E.
  - destruct (negb _); injection E as <- <-; auto.
  - destruct (negb _); injection E as <- <-; auto.
  - destruct (negb _); injection E as <- <-; auto.
  - destruct (locked st p); [injection E as <- <-; auto|]. destruct (negb _); injection E as <- <-; auto.
  - destruct (locked st p); [injection E as <- <-; auto|]. destruct (negb _); injection E as <- <-; auto.
  - destruct (lookup st s) as [sg|]; [|injection E as <- <-; auto]. destruct (n_kind sg); injection E as <- <-; auto.
  - destruct (locked st p); [injection E as <- <-; auto|]. destruct (negb _); injection E as <- <-; auto.
  - chop E.
Qed.

(** * Users without rights *)

Lemma powerless_may : forall st u p nd i s o, powerless st u -> lookup st p = Some nd -> n_objs nd i s = Some o ->
  may o u [Read; Write] = false /\ may o u [Read; Execute] = false /\ may o u [Write] = false.
Proof.
  intros st u p nd i s o P E O. destruct (P p nd i s o E O) as [W X].
  unfold may. cbn [forallb]. rewrite W, X. cbn [andb]. rewrite andb_false_r. auto.
Qed.

Lemma powerless_call : forall c ok st p r st' o,
  powerless st (c_user c) -> match r with RSource _ | RRemoveExternal _ => False | _ => True end ->
  call c ok st p r = (st', o) -> st' = st.
Proof.
  intros c ok st p r st' o P U E. apply call_inv in E.
  destruct E as [[-> _]|[(ids & -> & _)|(nd & self & Ep & Es & E)]]; [reflexivity|contradiction|].
  destruct (powerless_may _ _ _ _ _ _ _ P Ep Es) as (M1 & M2 & M3).
  destruct r; try contradiction;
    cbn [handle] in E; rewrite ?M1, ?M3 in E; cbn [negb andb] in E; try (injection E as <- <-; auto; fail).
  - destruct (locked st p); [injection E as <- <-; auto|]. destruct (view_only c); [injection E as <- <-; auto|].
    destruct (prop_parent nd q) as [e|ob] eqn:Q; [injection E as <- <-; auto|]. apply prop_parent_inr in Q.
    destruct (powerless_may _ _ _ _ _ _ _ P Ep Q) as (N1 & _). rewrite N1 in E. injection E as <- <-; auto.
  - destruct (locked st p); [injection E as <- <-; auto|]. destruct (view_only c); [injection E as <- <-; auto|].
    destruct (prop_parent nd q) as [e|ob] eqn:Q; [injection E as <- <-; auto|]. apply prop_parent_inr in Q.
    destruct (powerless_may _ _ _ _ _ _ _ P Ep Q) as (N1 & _). rewrite N1 in E. injection E as <- <-; auto.
  - chop E.
  - destruct (prop_parent nd q) as [e|ob] eqn:Q; [injection E as <- <-; auto|]. apply prop_parent_inr in Q.
    destruct (powerless_may _ _ _ _ _ _ _ P Ep Q) as (_ & N1 & _). rewrite N1 in E. injection E as <- <-; auto.
  - destruct (locked st p); injection E as <- <-; auto.
  - destruct (locked st p); injection E as <- <-; auto.
  - destruct (locked st p); injection E as <- <-; auto.
  - destruct (locked st p); injection E as <- <-; auto.
  - destruct (locked st p); injection E as <- <-; auto.
  - destruct (locked st p); injection E as <- <-; auto.
  - destruct (locked st p); injection E as <- <-; auto.
  - chop E.
  - chop E.
  - destruct (locked st p); injection E as <- <-; auto.
  - destruct (locked st p); injection E as <- <-; auto.
  - cbn [mode_rec] in E. rewrite Ep, Es, M3 in E. injection E as <- <-; auto.
  - destruct (lookup st s) as [sg|]; [|injection E as <- <-; auto].
    destruct (n_kind sg); chop E.
  - destruct (view_only c); [injection E as <- <-; auto|]. destruct (locked st p); injection E as <- <-; auto.
  - destruct (locked st p); injection E as <- <-; auto.
  - destruct (lookup st s) as [sg|]; [|injection E as <- <-; auto].
    destruct (n_kind sg); destruct (n_objs sg false []); chop E.
  - destruct (view_only c); [injection E as <- <-; auto|]. destruct (locked st p); injection E as <- <-; auto.
  - destruct (view_only c); [injection E as <- <-; auto|]. destruct (locked st p); injection E as <- <-; auto.
Qed.

(** * Locked devices *)

Lemma all_locked_locked : forall st p, all_locked st -> locked st p = true.
Proof.
  intros st p [R A]. apply locked_spec. pose proof (parent_device_spec st (length p) p eq_refl) as G.
  destruct (parent_device (length p) st p) as [nd|].
  - destruct G as (d & Dd & El). exists d, nd. split; [exact Dd|]. split; [exact El|].
    destruct Dd as (_ & (nd' & El' & K) & _). rewrite El in El'. injection El' as <-.
    unfold lookup in El. destruct (find _ (s_nodes st)) as [[k n2]|] eqn:F; [|discriminate].
    injection El as <-. apply find_key in F. destruct F as [F1 F2]. cbn [fst] in F1. subst k. eapply A; eassumption.
  - exfalso. exact (G [] p eq_refl R).
Qed.

Lemma set_lock_same : forall nd l, n_lock nd = l -> set_lock l nd = nd.
Proof. intros [] l H. cbn in H. subst. reflexivity. Qed.

Lemma relock : forall st u p, all_locked st -> existsb (held_by_other u) (devices_under st p) = false ->
  with_nodes st (map (fun x => if under p (fst x) && kind_eqb (n_kind (snd x)) KDevice
                               then (fst x, set_lock (Some u) (snd x)) else x) (s_nodes st)) = st.
Proof.
  intros [l e] u p [_ A] H. unfold with_nodes. cbn [s_nodes s_ext] in *. f_equal.
  unfold devices_under in H. cbn [s_nodes] in H.
  induction l as [|[k nd] l IH]; [reflexivity|]. cbn [map fst snd]. cbn [filter fst snd] in H.
  destruct (under p k && kind_eqb (n_kind nd) KDevice) eqn:B.
  - cbn [existsb] in H. apply orb_false_iff in H. destruct H as [H1 H2]. f_equal.
    + f_equal. apply set_lock_same. apply andb_true_iff in B. destruct B as [_ B].
      assert (K : n_kind nd = KDevice) by (destruct (n_kind nd); try discriminate; reflexivity).
      specialize (A k nd (or_introl eq_refl) K). unfold held_by_other in H1. cbn [snd] in H1.
      destruct (n_lock nd) as [h|]; [|congruence]. apply negb_false_iff in H1. apply Nat.eqb_eq in H1. subst. reflexivity.
    + apply IH; [|exact H2]. intros q nd' I K. apply (A q nd'); [right; exact I|exact K].
  - f_equal. apply IH; [|exact H]. intros q nd' I K. apply (A q nd'); [right; exact I|exact K].
Qed.

Lemma locked_call : forall c ok st p r st' o,
  all_locked st -> ~ unguarded r -> ~ unlocks r -> call c ok st p r = (st', o) -> st' = st.
Proof.
  intros c ok st p r st' o A U K E. apply call_inv in E.
  pose proof (all_locked_locked st p A) as L. pose proof (all_locked_locked st [] A) as L0.
  destruct E as [[-> _]|[(ids & -> & L1 & _)|(nd & self & Ep & Es & E)]]; [reflexivity|congruence|].
  destruct r; cbn [unguarded unlocks] in U, K; try (exfalso; apply U; exact Logic.I); try (exfalso; apply K; exact Logic.I);
    cbn [handle] in E; rewrite ?L in E; cbn [negb andb] in E; try (injection E as <- <-; auto; fail).
  - chop E.
  - destruct (prop_parent nd q); [injection E as <- <-; auto|].
    destruct (negb _); [injection E as <- <-; auto|]. destruct (negb callable); [injection E as <- <-; auto|].
    destruct const; cbn [negb andb] in E; chop E.
  - chop E.
  - chop E.
  - destruct (negb _); [injection E as <- <-; auto|]. destruct (view_only c); [injection E as <- <-; auto|].
    destruct (existsb _ _) eqn:H; injection E as <- <-; [auto|]. apply relock; assumption.
  - destruct (lookup st s) as [sg|]; [|injection E as <- <-; auto].
    destruct (n_kind sg); chop E.
  - destruct (view_only c); injection E as <- <-; auto.
  - destruct (lookup st s) as [sg|]; [|injection E as <- <-; auto].
    destruct (n_kind sg); destruct (n_objs sg false []); chop E.
  - destruct (view_only c); injection E as <- <-; auto.
  - destruct (view_only c); injection E as <- <-; auto.
Qed.

(** * Histories *)

Lemma after_same : forall (P : request -> Prop) st,
  (forall x, P x -> fst (step st x) = st) -> forall h, Forall P h -> after st h = st.
Proof.
  intros P st K h. induction h as [|x h IH]; intro F; [reflexivity|].
  inversion F as [|? ? F1 F2]; subst. unfold after in *. cbn [fold_left]. rewrite (K x F1). apply IH. exact F2.
Qed.

(** * Calls that fail *)

Lemma failed_call : forall c ok st p r st' e,
  ~ partial_effects r -> call c ok st p r = (st', OErr e) -> st' = st.
Proof.
  intros c ok st p r st' e U E. apply call_inv in E.
  destruct E as [[-> _]|[(ids & _ & _ & _ & X & _)|(nd & self & Ep & Es & E)]]; [reflexivity|discriminate|].
  destruct r; cbn [partial_effects] in U; try (exfalso; apply U; exact Logic.I);
    cbn [handle] in E; try (injection E as <- <-; auto; fail); chop E.
Qed.

(** * Reads *)

Lemma value_call : forall c ok st p r st',
  call c ok st p r = (st', OVal) ->
  match r with
  | RGet q => allowed st (c_user c) p (q_info q) (q_sub q) [Read]
  | RCall q _ _ => allowed st (c_user c) p (q_info q) (q_sub q) [Read; Execute]
  | RAccepts s => allowed st (c_user c) p false [] [Read] /\ allowed st (c_user c) s false [] [Read]
  | _ => allowed st (c_user c) p false [] [Read]
  end.
Proof.
  intros c ok st p r st' E. apply call_inv in E.
  destruct E as [[_ (e & X)]|[(ids & _ & _ & _ & X & _)|(nd & self & Ep & Es & E)]]; [discriminate|discriminate|].
  destruct r; cbn [handle] in E; try (chop E; fail).
  - destruct (prop_parent nd q) as [e|ob] eqn:Q; [discriminate|]. apply prop_parent_inr in Q.
    destruct (may ob _ _) eqn:M; [|discriminate]. eapply may_allowed; eassumption.
  - destruct (prop_parent nd q) as [e|ob] eqn:Q; [discriminate|]. apply prop_parent_inr in Q.
    destruct (may ob _ _) eqn:M; cbn [negb] in E; [|discriminate]. eapply may_allowed; eassumption.
  - destruct (may self _ _) eqn:M; [|discriminate]. eapply may_allowed; eassumption.
  - destruct (may self _ _) eqn:M; [|discriminate]. eapply may_allowed; eassumption.
  - exfalso. assert (G : forall n st p st', mode_rec n (c_user c) m st p <> (st', OVal)).
    { clear. induction n as [|n IH]; intros st p st' E; [discriminate|]. cbn [mode_rec] in E.
      destruct (lookup st p) as [nd|]; [|discriminate]. destruct (n_objs nd false []) as [self|]; [|discriminate].
      destruct (may self (c_user c) [Write]); [|discriminate].
      revert E. generalize (upd st p (set_mode m)). generalize (sub_devices st p). intro l.
      induction l as [|q l IHl]; intros st0 E; [discriminate|]. cbn [mode_each] in E.
      destruct (match lookup st0 q with Some d => n_mirrored d | None => false end); [eapply IHl; exact E|].
      destruct (mode_rec n (c_user c) m st0 q) as [st1 [| |e]]; [| |discriminate]; eapply IHl; exact E. }
    exact (G _ _ _ _ E).
  - destruct (lookup st s) as [sg|] eqn:El; [|discriminate].
    destruct (n_kind sg) eqn:K; destruct (n_objs sg false []) as [so|] eqn:So; try discriminate.
    destruct (may self _ _) eqn:M; cbn [negb] in E; [|discriminate].
    destruct (may so _ _) eqn:M2; [|discriminate]. split; eapply may_allowed; eassumption.
Qed.

(** * Operation modes *)

Lemma mode_rel_refl : forall u m st, mode_rel u m st st.
Proof. intros u m st q. left. reflexivity. Qed.

Lemma mode_rel_trans : forall u m a b c, mode_rel u m a b -> mode_rel u m b c -> mode_rel u m a c.
Proof.
  intros u m a b c H K.
  assert (BackL : forall q nd, lookup b q = Some nd -> exists nd', lookup a q = Some nd' /\ n_objs nd = n_objs nd' /\ n_mirrored nd = n_mirrored nd').
  { intros q nd E. destruct (H q) as [E1|(nd1 & E1 & E2 & _)].
    - exists nd. rewrite <- E1. auto.
    - rewrite E2 in E. injection E as <-. exists nd1. auto. }
  intro q. destruct (K q) as [E|(nd & E1 & E2 & R)].
  - rewrite E. apply H.
  - assert (R' : allowed a u q false [] [Write] \/ in_mirror a q).
    { destruct R as [(nd0 & o & F1 & F2 & F3)|(d & t & nd0 & -> & F1 & F2)].
      - left. destruct (BackL _ _ F1) as (nd' & G1 & G2 & _). exists nd', o. rewrite <- G2. auto.
      - right. destruct (BackL _ _ F1) as (nd' & G1 & _ & G2). exists d, t, nd'. rewrite <- G2. auto. }
    destruct (H q) as [E3|(nd1 & E3 & E4 & _)].
    + right. exists nd. rewrite <- E3. auto.
    + right. exists nd1. split; [exact E3|]. split; [|exact R'].
      rewrite E4 in E1. injection E1 as <-. exact E2.
Qed.

Lemma mode_below_rel : forall u m st q, (exists nd, lookup st q = Some nd /\ n_mirrored nd = true) ->
  mode_rel u m st (set_mode_below st q m).
Proof.
  intros u m st q (nd & E & M) x. unfold set_mode_below.
  rewrite lookup_map by (intro y; destruct (_ && _); reflexivity). cbn [fst snd].
  destruct (lookup st x) as [nx|] eqn:F; [|left; reflexivity]. cbn [option_map].
  destruct (under q x && kind_eqb (n_kind nx) KDevice) eqn:B; [|left; reflexivity].
  right. exists nx. split; [reflexivity|]. split; [reflexivity|]. right.
  apply andb_true_iff in B. destruct B as [B _]. apply under_spec in B. destruct B as (t & ->).
  exists q, t, nd. auto.
Qed.

Lemma mode_rec_rel : forall n u m st p st' o, mode_rec n u m st p = (st', o) -> mode_rel u m st st'.
Proof.
  induction n as [|n IH]; intros u m st p st' o E; cbn [mode_rec] in E.
  - injection E as <- <-. apply mode_rel_refl.
  - destruct (lookup st p) as [nd|] eqn:Ep; [|injection E as <- <-; apply mode_rel_refl].
    destruct (n_objs nd false []) as [self|] eqn:Es; [|injection E as <- <-; apply mode_rel_refl].
    destruct (may self u [Write]) eqn:M; [|injection E as <- <-; apply mode_rel_refl].
    assert (R0 : mode_rel u m st (upd st p (set_mode m))).
    { intro q. rewrite lookup_upd. destruct (path_eqb_spec q p) as [->|_]; [|left; reflexivity].
      right. exists nd. rewrite Ep. split; [reflexivity|]. split; [reflexivity|]. left. eapply may_allowed; eassumption. }
    eapply mode_rel_trans; [exact R0|].
    revert E. generalize (upd st p (set_mode m)). generalize (sub_devices st p). intro l. clear - IH.
    induction l as [|q l IHl]; intros st0 E; cbn [mode_each] in E.
    + injection E as <- <-. apply mode_rel_refl.
    + destruct (match lookup st0 q with Some d => n_mirrored d | None => false end) eqn:B.
      * eapply mode_rel_trans; [|eapply IHl; exact E]. apply mode_below_rel.
        destruct (lookup st0 q) as [d|]; [|discriminate]. exists d. auto.
      * destruct (mode_rec n u m st0 q) as [st1 [| |e]] eqn:R.
        -- eapply mode_rel_trans; [eapply IH; exact R|eapply IHl; exact E].
        -- eapply mode_rel_trans; [eapply IH; exact R|eapply IHl; exact E].
        -- injection E as <- <-. eapply IH. exact R.
Qed.

Lemma mode_call : forall c ok st p r st' o m,
  r = RMode m \/ r = RModeRecursive m -> call c ok st p r = (st', o) -> mode_rel (c_user c) m st st'.
Proof.
  intros c ok st p r st' o m H E. apply call_inv in E.
  destruct E as [[-> _]|[(ids & -> & _)|(nd & self & Ep & Es & E)]]; [apply mode_rel_refl|destruct H; discriminate|].
  destruct H as [->| ->]; cbn [handle] in E.
  - destruct (may self (c_user c) [Write]) eqn:M; injection E as <- <-; [|apply mode_rel_refl].
    intro q. rewrite lookup_upd. destruct (path_eqb_spec q p) as [->|_]; [|left; reflexivity].
    right. exists nd. rewrite Ep. split; [reflexivity|]. split; [reflexivity|]. left. eapply may_allowed; eassumption.
  - eapply mode_rec_rel. exact E.
Qed.

(** * Components that appear and vanish *)

Lemma upd_present : forall st p f q, present (upd st p f) q <-> present st q.
Proof.
  intros st p f q. unfold present. rewrite lookup_upd. destruct (path_eqb q p); [|tauto].
  destruct (lookup st q); cbn [option_map]; split; congruence.
Qed.

Lemma map_present : forall st g q, (forall x : path * node, fst (g x) = fst x) ->
  present (with_nodes st (map g (s_nodes st))) q <-> present st q.
Proof.
  intros st g q K. unfold present. rewrite lookup_map by exact K.
  destruct (lookup st q); cbn [option_map]; split; congruence.
Qed.

Lemma writes_present : forall (f : state -> write -> state),
  (forall st w q, present (f st w) q <-> present st q) ->
  forall l st q, present (fold_left f l st) q <-> present st q.
Proof.
  intros f K l. induction l as [|w l IH]; intros st q; [tauto|]. cbn [fold_left]. rewrite IH. apply K.
Qed.

Lemma presence_call : forall c ok st p r st' o q,
  call c ok st p r = (st', o) -> ~ (present st q <-> present st' q) -> justified_presence st c q.
Proof.
  intros c ok st p r st' o q E N. apply call_inv in E.
  destruct E as [[-> _]|[(ids & _ & _ & _ & _ & ->)|(nd & self & Ep & Es & E)]];
    [exfalso; apply N; tauto|exfalso; apply N; unfold present; reflexivity|].
  assert (Keep : (present st' q <-> present st q) -> justified_presence st c q).
  { intro H. exfalso. apply N. rewrite H. tauto. }
  assert (G : forall k : state * out,
    (if locked st p then (st, OErr ELocked)
     else if negb (may self (c_user c) [Read; Write]) then (st, OErr EDenied)
     else if view_only c then (st, OErr EDenied) else k) = (st', o) ->
    st = st' \/ (locked st p = false /\ allowed st (c_user c) p false [] [Read; Write] /\ view_only c = false /\ k = (st', o))).
  { intros k H. destruct (locked st p); [injection H as <- <-; auto|].
    destruct (may self (c_user c) [Read; Write]) eqn:M; cbn [negb] in H; [|injection H as <- <-; auto].
    destruct (view_only c); [injection H as <- <-; auto|].
    right. split; [reflexivity|]. split; [eapply may_allowed; eassumption|]. auto. }
  assert (J : locked st p = false -> allowed st (c_user c) p false [] [Read; Write] -> view_only c = false ->
              forall id, (exists t, q = (p ++ [id]) ++ t) -> justified_presence st c q).
  { intros L A V id (t & ->). split; [apply view_only_spec; exact V|]. exists p, (id :: t).
    split; [rewrite <- app_assoc; reflexivity|]. split; [discriminate|]. split; [apply unlocked; exact L|exact A]. }
  assert (Add : forall k, locked st p = false -> allowed st (c_user c) p false [] [Read; Write] -> view_only c = false ->
     forall id, lookup st (p ++ [id]) = None ->
     st' = with_nodes st (s_nodes st ++ [(p ++ [id], new_node k self)]) -> justified_presence st c q).
  { intros k L A V id Q ->. unfold present in N. rewrite lookup_add in N by exact Q.
    destruct (path_eqb_spec q (p ++ [id])) as [->|D]; [|exfalso; apply N; tauto].
    apply (J L A V id). exists []. rewrite app_nil_r. reflexivity. }
  assert (Rem : locked st p = false -> allowed st (c_user c) p false [] [Read; Write] -> view_only c = false ->
     forall id, st' = with_nodes st (filter (fun x => negb (under (p ++ [id]) (fst x))) (s_nodes st)) -> justified_presence st c q).
  { intros L A V id ->. unfold present in N. rewrite lookup_remove in N.
    destruct (under (p ++ [id]) q) eqn:U; [|exfalso; apply N; tauto].
    apply under_spec in U. apply (J L A V id U). }
  assert (LM : forall l, present (with_nodes st (map (fun x => if under p (fst x) && kind_eqb (n_kind (snd x)) KDevice
                                         then (fst x, set_lock l (snd x)) else x) (s_nodes st))) q <-> present st q).
  { intro l. apply map_present. intro x. destruct (_ && _); reflexivity. }
  assert (Ub : forall st1, (present st1 q <-> present st q) -> st' = st1 -> justified_presence st c q).
  { intros st1 H ->. auto. }
  destruct r; cbn [handle] in E.
  - destruct (locked st p); [|destruct (view_only c); [|destruct (prop_parent nd q0); [|destruct (may o0 _ _); [destruct ok|]]]];
      injection E as <- <-; apply Keep; [tauto|tauto|tauto|apply upd_present|tauto|tauto].
  - destruct (locked st p); [|destruct (view_only c); [|destruct (prop_parent nd q0); [|destruct (may o0 _ _); [destruct ok|]]]];
      injection E as <- <-; apply Keep; [tauto|tauto|tauto|apply upd_present|tauto|tauto].
  - chop E; injection E as <- <-; apply Keep; tauto.
  - chop E; injection E as <- <-; apply Keep; try tauto; apply upd_present.
  - apply G in E. destruct E as [<-|(L & A & V & E)]; [apply Keep; tauto|].
    destruct (n_objs nd false s); [destruct ok|]; injection E as <- <-; apply Keep; try tauto; apply upd_present.
  - apply G in E. destruct E as [<-|(L & A & V & E)]; [apply Keep; tauto|].
    destruct (n_objs nd false s); [destruct ok|]; injection E as <- <-; apply Keep; try tauto; apply upd_present.
  - apply G in E. destruct E as [<-|(L & A & V & E)]; [apply Keep; tauto|].
    destruct (n_objs nd false s) as [ob|]; [|injection E as <- <-; apply Keep; tauto].
    assert (W : present (end_writes p s l st) q <-> present st q) by (apply writes_present; intros; apply upd_present).
    destruct ok; [destruct (ob_upd ob)|]; injection E as <- <-; apply Keep; [exact W| |exact W].
    rewrite upd_present. exact W.
  - apply G in E. destruct E as [<-|(L & A & V & E)]; [apply Keep; tauto|].
    destruct a; try destruct ok; injection E as <- <-; apply Keep; try tauto; apply upd_present.
  - apply G in E. destruct E as [<-|(L & A & V & E)]; [apply Keep; tauto|].
    destruct ok; injection E as <- <-; apply Keep; [|tauto]. apply writes_present. intros. apply upd_present.
  - apply G in E. destruct E as [<-|(L & A & V & E)]; [apply Keep; tauto|].
    destruct (n_kind nd); try (injection E as <- <-; apply Keep; tauto);
      (destruct (lookup st (p ++ [id])) eqn:Q; [injection E as <- <-; apply Keep; tauto|]);
      (destruct ok; injection E as <- <-; [|apply Keep; tauto]); eapply Add; eauto.
  - apply G in E. destruct E as [<-|(L & A & V & E)]; [apply Keep; tauto|].
    destruct (n_kind nd); try (injection E as <- <-; apply Keep; tauto);
      (destruct (lookup st (p ++ [id])) as [d|] eqn:Q; [|injection E as <- <-; apply Keep; tauto]);
      (destruct (n_kind d); try (injection E as <- <-; apply Keep; tauto));
      (destruct ok; injection E as <- <-; [|apply Keep; tauto]); eapply Rem; eauto.
  - chop E; injection E as <- <-; apply Keep; tauto.
  - chop E; injection E as <- <-; apply Keep; tauto.
  - destruct (negb _); [|destruct (view_only c); [|destruct (existsb _ _)]]; injection E as <- <-; apply Keep; try tauto; apply LM.
  - destruct (negb _); [|destruct (view_only c); [|destruct (existsb _ _); [|destruct (_ && _)]]]; injection E as <- <-; apply Keep; try tauto; apply LM.
  - destruct (negb _); [|destruct (view_only c); [|destruct (_ && _)]]; injection E as <- <-; apply Keep; try tauto; apply LM.
  - apply G in E. destruct E as [<-|(L & A & V & E)]; [apply Keep; tauto|].
    destruct (lookup st (p ++ [id])) eqn:Q; [injection E as <- <-; apply Keep; tauto|].
    destruct ok; injection E as <- <-; [|apply Keep; tauto]. eapply Add; eauto.
  - apply G in E. destruct E as [<-|(L & A & V & E)]; [apply Keep; tauto|].
    destruct (lookup st (p ++ [id])) as [d|] eqn:Q; [|injection E as <- <-; apply Keep; tauto].
    destruct (n_kind d); try (injection E as <- <-; apply Keep; tauto).
    destruct ok; injection E as <- <-; [|apply Keep; tauto]. eapply Rem; eauto.
  - destruct (may self _ _); injection E as <- <-; apply Keep; [apply upd_present|tauto].
  - apply Keep. apply mode_rec_rel in E. unfold present. destruct (E q) as [F|(n0 & F1 & F2 & _)].
    + rewrite F. tauto.
    + rewrite F1, F2. split; discriminate.
  - chop E; injection E as <- <-; apply Keep; try tauto; apply upd_present.
  - destruct (view_only c); [|destruct (locked st p); [|destruct (negb _); [|destruct fails]]]; injection E as <- <-; apply Keep; try tauto.
    all: unfold present; try (rewrite lookup_upd); cbn [with_ext]; try reflexivity.
    all: match goal with |- context [path_eqb ?a ?b] => destruct (path_eqb a b) end; try reflexivity;
      unfold lookup, with_ext; cbn [s_nodes]; destruct (find _ (s_nodes st)); cbn [option_map]; split; congruence.
  - destruct (n_conn nd) as [[|]|]; injection E as <- <-; apply Keep; try tauto; apply upd_present.
  - apply G in E. destruct E as [<-|(L & A & V & E)]; [apply Keep; tauto|].
    destruct ok; injection E as <- <-; apply Keep; [apply upd_present|tauto].
  - chop E; injection E as <- <-; apply Keep; tauto.
  - injection E as <- <-; apply Keep; tauto.
  - chop E; injection E as <- <-; apply Keep; try tauto; apply upd_present.
  - chop E; injection E as <- <-; apply Keep; try tauto; apply upd_present.
  - injection E as <- <-; apply Keep; tauto.
Qed.
