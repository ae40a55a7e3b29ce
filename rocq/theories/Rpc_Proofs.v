From Coq Require Import List Bool Arith ZArith Lia.
From Verif Require Import Rpc_Model Rpc_Spec.
Import ListNotations.

Lemma path_eqb_spec : forall p q, reflect (p = q) (path_eqb p q).
Proof.
  induction p as [|x p IH]; intros [|y q]; cbn [path_eqb]; try (constructor; congruence).
  destruct (Nat.eqb_spec x y) as [->|N]; cbn [andb]; [|constructor; congruence].
  destruct (IH q) as [->|N]; constructor; congruence.
Qed.

Lemma path_eqb_refl : forall p, path_eqb p p = true.
Proof. intro p. destruct (path_eqb_spec p p); congruence. Qed.

Lemma path_eqb_neq : forall p q, p <> q -> path_eqb p q = false.
Proof. intros p q N. destruct (path_eqb_spec p q); congruence. Qed.

Lemma under_spec : forall p q, under p q = true <-> exists t, q = p ++ t.
Proof.
  induction p as [|x p IH]; intro q; cbn [under].
  - split; [intros _; exists q; reflexivity|reflexivity].
  - destruct q as [|y q]; [split; [discriminate|intros (t & E); discriminate]|].
    rewrite andb_true_iff, Nat.eqb_eq, IH. split.
    + intros [-> (t & ->)]. exists t. reflexivity.
    + intros (t & E). cbn [app] in E. injection E as -> ->. split; [reflexivity|exists t; reflexivity].
Qed.

(** * Looking up *)

Lemma find_map : forall (g : path * node -> path * node) l q,
  (forall x, fst (g x) = fst x) ->
  find (fun x => path_eqb (fst x) q) (map g l) = option_map g (find (fun x => path_eqb (fst x) q) l).
Proof.
  intros g l q K. induction l as [|x l IH]; [reflexivity|].
  cbn [map find]. rewrite K. destruct (path_eqb (fst x) q); [reflexivity|exact IH].
Qed.

Lemma find_key : forall l q (x : path * node), find (fun x => path_eqb (fst x) q) l = Some x -> fst x = q /\ In x l.
Proof.
  intros l q x H. apply find_some in H. destruct H as [H1 H2]. split; [|exact H1].
  destruct (path_eqb_spec (fst x) q); congruence.
Qed.

Lemma lookup_map : forall st (g : path * node -> path * node) q,
  (forall x, fst (g x) = fst x) ->
  lookup (with_nodes st (map g (s_nodes st))) q = option_map (fun nd => snd (g (q, nd))) (lookup st q).
Proof.
  intros st g q K. unfold lookup. cbn [with_nodes s_nodes]. rewrite find_map by exact K.
  destruct (find (fun x => path_eqb (fst x) q) (s_nodes st)) as [[k nd]|] eqn:F; [|reflexivity].
  apply find_key in F. destruct F as [F _]. cbn [fst] in F. subst k. reflexivity.
Qed.

Lemma upd_with : forall st p f,
  upd st p f = with_nodes st (map (fun x => if path_eqb (fst x) p then (fst x, f (snd x)) else x) (s_nodes st)).
Proof. reflexivity. Qed.

Lemma lookup_upd : forall st p f q,
  lookup (upd st p f) q = if path_eqb q p then option_map f (lookup st q) else lookup st q.
Proof.
  intros st p f q. rewrite upd_with, lookup_map.
  - cbn [fst snd]. destruct (path_eqb q p); destruct (lookup st q); reflexivity.
  - intro x. destruct (path_eqb (fst x) p); reflexivity.
Qed.

Lemma lookup_upd_same : forall st p f, lookup (upd st p f) p = option_map f (lookup st p).
Proof. intros. rewrite lookup_upd, path_eqb_refl. reflexivity. Qed.

Lemma lookup_upd_other : forall st p f q, q <> p -> lookup (upd st p f) q = lookup st q.
Proof. intros. rewrite lookup_upd, path_eqb_neq by assumption. reflexivity. Qed.

Lemma lookup_ext : forall st l q, lookup (with_ext st l) q = lookup st q.
Proof. reflexivity. Qed.

Lemma lookup_add : forall st k nd q, lookup st k = None ->
  lookup (with_nodes st (s_nodes st ++ [(k, nd)])) q = if path_eqb q k then Some nd else lookup st q.
Proof.
  intros st k nd q H. unfold lookup in *. cbn [with_nodes s_nodes].
  assert (G : forall l, find (fun x : path * node => path_eqb (fst x) q) (l ++ [(k, nd)]) =
     match find (fun x => path_eqb (fst x) q) l with
     | Some x => Some x
     | None => if path_eqb k q then Some (k, nd) else None end).
  { induction l as [|x l IH]; [reflexivity|]. cbn [app find]. destruct (path_eqb (fst x) q); [reflexivity|exact IH]. }
  rewrite G. destruct (path_eqb_spec q k) as [->|N].
  - destruct (find (fun x => path_eqb (fst x) k) (s_nodes st)); [discriminate|]. rewrite path_eqb_refl. reflexivity.
  - rewrite (path_eqb_neq k q) by congruence. destruct (find (fun x => path_eqb (fst x) q) (s_nodes st)); reflexivity.
Qed.

Lemma lookup_remove : forall st k q,
  lookup (with_nodes st (filter (fun x => negb (under k (fst x))) (s_nodes st))) q =
  if under k q then None else lookup st q.
Proof.
  intros st k q. unfold lookup. cbn [with_nodes s_nodes].
  assert (G : forall l, find (fun x : path * node => path_eqb (fst x) q) (filter (fun x => negb (under k (fst x))) l) =
     if under k q then None else find (fun x => path_eqb (fst x) q) l).
  { induction l as [|x l IH]; [destruct (under k q); reflexivity|].
    cbn [filter find]. destruct (path_eqb_spec (fst x) q) as [E|N].
    - rewrite E. destruct (under k q) eqn:U; cbn [negb].
      + exact IH.
      + cbn [find]. rewrite E, path_eqb_refl. reflexivity.
    - destruct (under k (fst x)); cbn [negb find]; [exact IH|]. rewrite (path_eqb_neq _ _ N). exact IH. }
  rewrite G. destruct (under k q); reflexivity.
Qed.

(** * Nearest device *)

Lemma removelast_snoc : forall (p : path) x, removelast (p ++ [x]) = p.
Proof. intros. apply removelast_last. Qed.

Lemma is_device_dec : forall st p, {nd | lookup st p = Some nd /\ n_kind nd = KDevice} + {~ is_device st p}.
Proof.
  intros st p. unfold is_device. destruct (lookup st p) as [nd|] eqn:E.
  - destruct (n_kind nd) eqn:K; try (right; intros (x & F & G); congruence). left. exists nd. auto.
  - right. intros (x & F & _). discriminate.
Qed.

Lemma parent_device_spec : forall st n p, length p = n ->
  match parent_device n st p with
  | Some nd => exists d, device_of st p d /\ lookup st d = Some nd
  | None => forall d t, p = d ++ t -> ~ is_device st d
  end.
Proof.
  intros st n. induction n as [|n IH]; intros p L.
  - destruct p; [|discriminate]. cbn [parent_device].
    assert (N : ~ is_device st [] -> forall d t, [] = d ++ t :> path -> ~ is_device st d).
    { intros N d t E. symmetry in E. apply app_eq_nil in E. destruct E as [-> _]. exact N. }
    destruct (is_device_dec st []) as [(nd & E & K)|D].
    + rewrite E, K. exists []. split; [|exact E]. split; [exists []; reflexivity|].
      split; [exists nd; auto|]. intros d' t' E' _. symmetry in E'. apply app_eq_nil in E'. destruct E' as [-> _]. cbn. lia.
    + destruct (lookup st []) as [nd|] eqn:E; [|apply N; exact D].
      destruct (n_kind nd) eqn:K; try (apply N; exact D). exfalso. apply D. exists nd. auto.
  - destruct (@exists_last nat p) as (p' & x & ->); [intros ->; discriminate|].
    rewrite app_length in L. cbn [length] in L. assert (L' : length p' = n) by lia.
    specialize (IH p' L'). cbn [parent_device]. rewrite removelast_snoc.
    destruct (is_device_dec st (p' ++ [x])) as [(nd & E & K)|D].
    + rewrite E, K. exists (p' ++ [x]). split; [|exact E]. split; [exists []; rewrite app_nil_r; reflexivity|].
      split; [exists nd; auto|]. intros d' t' E' _. rewrite E'. rewrite app_length. lia.
    + assert (G : forall d t, p' ++ [x] = d ++ t -> is_device st d -> exists t', p' = d ++ t').
      { intros d t E Dd. destruct (@exists_last nat t) as (t' & y & ->).
        - intros ->. rewrite app_nil_r in E. subst d. contradiction.
        - rewrite app_assoc in E. apply app_inj_tail in E. destruct E as [E _]. exists t'. exact E. }
      assert (R : match parent_device n st p' with
        | Some nd => exists d, device_of st (p' ++ [x]) d /\ lookup st d = Some nd
        | None => forall d t, p' ++ [x] = d ++ t -> ~ is_device st d end).
      { destruct (parent_device n st p') as [nd|].
        - destruct IH as (d & ((t & Et) & Dd & M) & El). exists d. split; [|exact El].
          split; [exists (t ++ [x]); rewrite Et, app_assoc; reflexivity|]. split; [exact Dd|].
          intros d' t' E' D'. destruct (G _ _ E' D') as (t2 & E2). eapply M; eassumption.
        - intros d t E Dd. destruct (G _ _ E Dd) as (t2 & E2). exact (IH _ _ E2 Dd). }
      destruct (lookup st (p' ++ [x])) as [nd|] eqn:E; [|exact R].
      destruct (n_kind nd) eqn:K; try exact R. exfalso. apply D. exists nd. auto.
Qed.

Lemma app_same_length : forall (a b c d : path), a ++ b = c ++ d -> length a = length c -> a = c.
Proof.
  induction a as [|x a IH]; intros b [|y c] d E L; try discriminate; [reflexivity|].
  cbn [app] in E. injection E as -> E. cbn [length] in L. f_equal. eapply IH; [exact E|lia].
Qed.

Lemma device_of_fun : forall st p d d', device_of st p d -> device_of st p d' -> d = d'.
Proof.
  intros st p d d' ((t & E) & D & M) ((t' & E') & D' & M').
  pose proof (M _ _ E' D') as A. pose proof (M' _ _ E D) as B. subst p.
  eapply app_same_length; [exact E'|lia].
Qed.

Lemma locked_spec : forall st p, locked st p = true <-> device_locked st p.
Proof.
  intros st p. unfold locked, device_locked. pose proof (parent_device_spec st (length p) p eq_refl) as G.
  destruct (parent_device (length p) st p) as [nd|].
  - destruct G as (d & Dd & El). split.
    + intro H. exists d, nd. split; [exact Dd|]. split; [exact El|]. destruct (n_lock nd); discriminate.
    + intros (d' & nd' & D' & El' & L). assert (d' = d) by (eapply device_of_fun; eassumption). subst d'.
      rewrite El in El'. injection El' as <-. destruct (n_lock nd); [reflexivity|congruence].
  - split; [discriminate|]. intros (d & nd & ((t & E) & Dd & _) & _). exfalso. exact (G _ _ E Dd).
Qed.

Lemma unlocked : forall st p, locked st p = false -> ~ device_locked st p.
Proof. intros st p H D. apply locked_spec in D. congruence. Qed.

(** * Parts *)

Lemma same_refl : forall st p x, same st st p x.
Proof. intros st p x. destruct x; cbn [same]; repeat split. Qed.

Lemma same_trans : forall a b c p x, same a b p x -> same b c p x -> same a c p x.
Proof.
  intros a b c p x H K. destruct x; cbn [same] in *; intuition congruence.
Qed.

Lemma same_lookup : forall st st' p x, lookup st p = lookup st' p -> same st st' p x.
Proof. intros st st' p x H. destruct x; cbn [same]; unfold ofield, field; rewrite H; repeat split. Qed.

Lemma same_upd_other : forall st p f q x, q <> p -> same st (upd st p f) q x.
Proof. intros. apply same_lookup. rewrite lookup_upd_other by assumption. reflexivity. Qed.

(** The parts an edit of a node can touch. *)
Definition keeps (f : node -> node) (x : part) : Prop :=
  forall nd,
  match x with
  | Body => n_attr (f nd) = n_attr nd /\ n_conn (f nd) = n_conn nd /\ n_rec (f nd) = n_rec nd /\ n_disc (f nd) = n_disc nd
  | Mode => n_mode (f nd) = n_mode nd
  | Lock => n_lock (f nd) = n_lock nd
  | Source => n_src (f nd) = n_src nd
  | Values i s => option_map ob_vals (n_objs (f nd) i s) = option_map ob_vals (n_objs nd i s) /\
                  option_map ob_upd (n_objs (f nd) i s) = option_map ob_upd (n_objs nd i s)
  | Calls i s => option_map ob_calls (n_objs (f nd) i s) = option_map ob_calls (n_objs nd i s)
  end.

Lemma same_keeps : forall st st' q f x, keeps f x -> lookup st' q = option_map f (lookup st q) -> same st st' q x.
Proof.
  intros st st' q f x K H. destruct x; cbn [same]; unfold ofield, field; rewrite H;
    destruct (lookup st q) as [nd|]; cbn [option_map]; try (repeat split; reflexivity);
    specialize (K nd); cbn in K.
  - destruct K as (K1 & K2 & K3 & K4). rewrite K1, K2, K3, K4. repeat split.
  - rewrite K. reflexivity.
  - rewrite K. reflexivity.
  - rewrite K. reflexivity.
  - destruct K as (K1 & K2). rewrite K1, K2. repeat split.
  - rewrite K. reflexivity.
Qed.

Lemma same_upd : forall st p f q x, keeps f x -> same st (upd st p f) q x.
Proof.
  intros st p f q x K. destruct (path_eqb_spec q p) as [->|N].
  - apply same_keeps with (f := f); [exact K|]. apply lookup_upd_same.
  - apply same_upd_other. exact N.
Qed.

Lemma keeps_set_obj : forall i s g x,
  (forall j t, x = Values j t -> (j, t) <> (i, s) \/ (forall o, ob_vals (g o) = ob_vals o /\ ob_upd (g o) = ob_upd o)) ->
  (forall j t, x = Calls j t -> (j, t) <> (i, s) \/ (forall o, ob_calls (g o) = ob_calls o)) ->
  keeps (set_obj i s g) x.
Proof.
  intros i s g x V C nd. destruct x as [| | | |j t|j t]; cbn [set_obj n_attr n_conn n_rec n_disc n_mode n_lock n_src n_objs]; auto.
  - specialize (V j t eq_refl). destruct (Bool.eqb j i && path_eqb t s) eqn:B; [|split; reflexivity].
    apply andb_true_iff in B. destruct B as [B1 B2]. apply Bool.eqb_prop in B1.
    destruct (path_eqb_spec t s) as [->|]; [|discriminate]. subst j.
    destruct V as [V|V]; [congruence|]. destruct (n_objs nd i s) as [o|]; [|split; reflexivity].
    cbn [option_map]. destruct (V o) as [-> ->]. split; reflexivity.
  - specialize (C j t eq_refl). destruct (Bool.eqb j i && path_eqb t s) eqn:B; [|reflexivity].
    apply andb_true_iff in B. destruct B as [B1 B2]. apply Bool.eqb_prop in B1.
    destruct (path_eqb_spec t s) as [->|]; [|discriminate]. subst j.
    destruct C as [C|C]; [congruence|]. destruct (n_objs nd i s) as [o|]; [|reflexivity].
    cbn [option_map]. rewrite (C o). reflexivity.
Qed.

Lemma part_dec : forall x y : part, {x = y} + {x <> y}.
Proof. decide equality; try (apply list_eq_dec; apply Nat.eq_dec); apply Bool.bool_dec. Qed.

(** A write of values touches only the values of one object. *)
Lemma keeps_values : forall i s g x,
  (forall o, ob_calls (g o) = ob_calls o) -> x <> Values i s -> keeps (set_obj i s g) x.
Proof.
  intros i s g x C N. apply keeps_set_obj.
  - intros j t ->. left. intro E. apply N. injection E as -> ->. reflexivity.
  - intros j t _. right. exact C.
Qed.

Lemma keeps_calls : forall i s g x,
  (forall o, ob_vals (g o) = ob_vals o /\ ob_upd (g o) = ob_upd o) -> x <> Calls i s -> keeps (set_obj i s g) x.
Proof.
  intros i s g x C N. apply keeps_set_obj.
  - intros j t _. right. exact C.
  - intros j t ->. left. intro E. apply N. injection E as -> ->. reflexivity.
Qed.

Lemma keeps_attr : forall a v x, x <> Body -> keeps (set_attr a v) x.
Proof. intros a v x N nd. destruct x; cbn; auto. congruence. Qed.
Lemma keeps_conn : forall v x, x <> Body -> keeps (set_conn v) x.
Proof. intros v x N nd. destruct x; cbn; auto. congruence. Qed.
Lemma keeps_rec : forall v x, x <> Body -> keeps (set_rec v) x.
Proof. intros v x N nd. destruct x; cbn; auto. congruence. Qed.
Lemma keeps_disc : forall v x, x <> Body -> keeps (set_disc v) x.
Proof. intros v x N nd. destruct x; cbn; auto. congruence. Qed.
Lemma keeps_lock : forall v x, x <> Lock -> keeps (set_lock v) x.
Proof. intros v x N nd. destruct x; cbn; auto. congruence. Qed.
Lemma keeps_mode : forall v x, x <> Mode -> keeps (set_mode v) x.
Proof. intros v x N nd. destruct x; cbn; auto. congruence. Qed.
Lemma keeps_src : forall v x, x <> Source -> keeps (set_src v) x.
Proof. intros v x N nd. destruct x; cbn; auto. congruence. Qed.

(** * Rights *)

Lemma may_allowed : forall st u p nd i s o l,
  lookup st p = Some nd -> n_objs nd i s = Some o -> may o u l = true -> allowed st u p i s l.
Proof.
  intros st u p nd i s o l E O M. exists nd, o. split; [exact E|]. split; [exact O|].
  intros x I. unfold may in M. rewrite forallb_forall in M. apply M. exact I.
Qed.

Lemma view_only_spec : forall c, view_only c = false -> c_conn c <> ViewOnly.
Proof. intros c H E. unfold view_only in H. rewrite E in H. discriminate. Qed.

Lemma prop_parent_inr : forall nd q o, prop_parent nd q = inr o -> n_objs nd (q_info q) (q_sub q) = Some o.
Proof.
  intros nd q o H. unfold prop_parent in H.
  destruct (q_info q && _); [discriminate|]. destruct (n_objs nd (q_info q) (q_sub q)); congruence.
Qed.

(** The three ways a change of one node can come about. *)
Lemma one_node : forall st c p f q x y,
  view_only c = false -> locked st p = false ->
  (forall z, z <> y -> keeps f z) -> y <> Lock -> rights st (c_user c) p y ->
  ~ same st (upd st p f) q x -> justified st c q x.
Proof.
  intros st c p f q x y V L K NL R N.
  destruct (path_eqb_spec q p) as [->|D]; [|exfalso; apply N; apply same_upd_other; exact D].
  destruct (part_dec x y) as [->|D]; [|exfalso; apply N; apply same_upd; apply K; exact D].
  split; [apply view_only_spec; exact V|]. apply unlocked in L. destruct y; try congruence; split; assumption.
Qed.

(** Locking and unlocking. *)
Lemma lock_nodes : forall st c p l q x,
  view_only c = false -> allowed st (c_user c) p false [] [Read; Write] ->
  ~ same st (with_nodes st (map (fun x => if under p (fst x) && kind_eqb (n_kind (snd x)) KDevice
                                     then (fst x, set_lock l (snd x)) else x) (s_nodes st))) q x ->
  justified st c q x.
Proof.
  intros st c p l q x V A N.
  set (g := fun x : path * node => if under p (fst x) && kind_eqb (n_kind (snd x)) KDevice
                                     then (fst x, set_lock l (snd x)) else x) in *.
  assert (LM : lookup (with_nodes st (map g (s_nodes st))) q = option_map (fun nd => snd (g (q, nd))) (lookup st q)).
  { apply lookup_map. intro y. unfold g. destruct (_ && _); reflexivity. }
  destruct (under p q) eqn:U.
  - destruct (part_dec x Lock) as [->|D].
    + split; [apply view_only_spec; exact V|]. apply under_spec in U. destruct U as (t & ->). exists p, t. auto.
    + exfalso. apply N. apply same_keeps with (f := fun nd => snd (g (q, nd))); [|exact LM].
      intro nd. unfold g. cbn [fst snd]. destruct (_ && _); cbn [snd].
      * apply (keeps_lock l x D nd).
      * destruct x; auto.
  - exfalso. apply N. apply same_lookup. rewrite LM. unfold g. cbn [fst snd]. rewrite U.
    destruct (lookup st q); reflexivity.
Qed.

Definition end_writes (p s : path) (l : list write) (st : state) : state :=
  fold_left (fun st w => upd st p (set_obj false (s ++ q_sub (w_name w)) (with_val (q_name (w_name w)) (w_val w)))) l st.

Lemma end_writes_same : forall p l st q x,
  Forall (fun w => q_sub (w_name w) = []) l -> q <> p \/ x <> Values false [] ->
  same st (end_writes p [] l st) q x.
Proof.
  intros p l. induction l as [|w l IH]; intros st q x F D; [apply same_refl|].
  inversion F as [|? ? F1 F2]; subst. unfold end_writes. cbn [fold_left].
  eapply same_trans; [|apply IH; assumption].
  destruct D as [D|D]; [apply same_upd_other; exact D|].
  apply same_upd. rewrite F1. apply keeps_values; [reflexivity|exact D].
Qed.

Lemma end_writes_lookup : forall p s l st q, lookup st q <> None -> lookup (end_writes p s l st) q <> None.
Proof.
  intros p s l. induction l as [|w l IH]; intros st q H; [exact H|].
  unfold end_writes. cbn [fold_left]. apply IH. rewrite lookup_upd. destruct (path_eqb q p); [|exact H].
  destruct (lookup st q); [discriminate|congruence].
Qed.

Lemma call_direct : forall c ok st p r st' o q x,
  call c ok st p r = (st', o) -> direct r -> present st q -> present st' q ->
  ~ same st st' q x -> justified st c q x.
Proof.
  intros c ok st p r st' o q x E D P P' N.
  unfold call in E.
  assert (Keep : st = st' -> justified st c q x) by (intros <-; exfalso; apply N; apply same_refl).
  destruct (match r with RUnknown => true | RRemoveExternal _ => true | _ => false end) eqn:Z.
  { destruct r; try discriminate.
    - destruct (locked st []); [injection E as <- <-; auto|].
      destruct (view_only c); [injection E as <- <-; auto|].
      injection E as <- <-. exfalso. apply N. apply same_lookup. reflexivity.
    - injection E as <- <-; auto. }
  assert (E' : (match lookup st p with
      | None => (st, OErr ENotFound)
      | Some nd => match n_objs nd false [] with
          | None => (st, OErr ENotFound)
          | Some self => if match target_kind r with Some k => kind_eqb (n_kind nd) k | None => true end
              then handle c ok st p nd self r else (st, OErr EInterface) end end) = (st', o)).
  { destruct r; try discriminate Z; exact E. }
  clear E Z. rename E' into E.
  destruct (lookup st p) as [nd|] eqn:Ep; [|injection E as <- <-; auto].
  destruct (n_objs nd false []) as [self|] eqn:Es; [|injection E as <- <-; auto].
  destruct (match target_kind r with Some k => kind_eqb (n_kind nd) k | None => true end);
    [|injection E as <- <-; auto].
  assert (G : forall k : state * out,
    (if locked st p then (st, OErr ELocked)
     else if negb (may self (c_user c) [Read; Write]) then (st, OErr EDenied)
     else if view_only c then (st, OErr EDenied) else k) = (st', o) ->
    st = st' \/ (locked st p = false /\ allowed st (c_user c) p false [] [Read; Write] /\ view_only c = false /\ k = (st', o))).
  { intros k H. destruct (locked st p); [injection H as <- <-; auto|].
    destruct (may self (c_user c) [Read; Write]) eqn:M; cbn [negb] in H; [|injection H as <- <-; auto].
    destruct (view_only c); [injection H as <- <-; auto|].
    right. split; [reflexivity|]. split; [eapply may_allowed; eassumption|]. auto. }
  assert (G' : forall k : state * out,
    (if view_only c then (st, OErr EDenied)
     else if locked st p then (st, OErr ELocked)
     else if negb (may self (c_user c) [Read; Write]) then (st, OErr EDenied) else k) = (st', o) ->
    st = st' \/ (locked st p = false /\ allowed st (c_user c) p false [] [Read; Write] /\ view_only c = false /\ k = (st', o))).
  { intros k H. destruct (view_only c); [injection H as <- <-; auto|]. destruct (locked st p); [injection H as <- <-; auto|].
    destruct (may self (c_user c) [Read; Write]) eqn:M; cbn [negb] in H; [|injection H as <- <-; auto].
    right. split; [reflexivity|]. split; [eapply may_allowed; eassumption|]. auto. }
  destruct r as [prot qn v|prot qn|qn|qn callable const|s|s|s l|a v|l|id|id| | | | | |id|id|m|m|s|id fails|s| |s|ids|b|b| ];
    cbn [handle] in E; cbn [direct] in D; try contradiction;
    try (injection E as <- <-; auto; fail).
  - (* RSet *)
    destruct (locked st p) eqn:L; [injection E as <- <-; auto|].
    destruct (view_only c) eqn:V; [injection E as <- <-; auto|].
    destruct (prop_parent nd qn) as [e|ob] eqn:Q; [injection E as <- <-; auto|].
    destruct (may ob (c_user c) [Read; Write]) eqn:M; [|injection E as <- <-; auto].
    destruct ok; [|injection E as <- <-; auto]. injection E as <- <-.
    apply prop_parent_inr in Q.
    eapply one_node with (y := Values (q_info qn) (q_sub qn)); try eassumption; [|discriminate|].
    + intros z Nz. apply keeps_values; [reflexivity|exact Nz].
    + cbn [rights]. eapply may_allowed; eassumption.
  - (* RClear *)
    destruct (locked st p) eqn:L; [injection E as <- <-; auto|].
    destruct (view_only c) eqn:V; [injection E as <- <-; auto|].
    destruct (prop_parent nd qn) as [e|ob] eqn:Q; [injection E as <- <-; auto|].
    destruct (may ob (c_user c) [Read; Write]) eqn:M; [|injection E as <- <-; auto].
    destruct ok; [|injection E as <- <-; auto]. injection E as <- <-.
    apply prop_parent_inr in Q.
    eapply one_node with (y := Values (q_info qn) (q_sub qn)); try eassumption; [|discriminate|].
    + intros z Nz. apply keeps_values; [reflexivity|exact Nz].
    + cbn [rights]. eapply may_allowed; eassumption.
  - (* RGet *)
    destruct (prop_parent nd qn) as [e|ob]; [injection E as <- <-; auto|].
    destruct (may ob (c_user c) [Read]); injection E as <- <-; auto.
  - (* RCall *)
    destruct (prop_parent nd qn) as [e|ob] eqn:Q; [injection E as <- <-; auto|].
    destruct (may ob (c_user c) [Read; Execute]) eqn:M; cbn [negb] in E; [|injection E as <- <-; auto].
    destruct callable; cbn [negb] in E; [|injection E as <- <-; auto].
    destruct const; cbn [negb andb] in E.
    { destruct ok; injection E as <- <-; auto. }
    destruct (q_info qn) eqn:QI; [injection E as <- <-; auto|].
    destruct (locked st p) eqn:L; [injection E as <- <-; auto|].
    destruct (view_only c) eqn:V; [injection E as <- <-; auto|].
    destruct ok; [|injection E as <- <-; auto]. injection E as <- <-.
    apply prop_parent_inr in Q.
    eapply one_node with (y := Calls false (q_sub qn)); try eassumption; [|discriminate|].
    + intros z Nz. apply keeps_calls; [intro ob'; split; reflexivity|exact Nz].
    + cbn [rights]. rewrite QI in Q. eapply may_allowed; eassumption.
  - (* RClearAll *)
    subst s. apply G in E. destruct E as [E|(L & A & V & E)]; [auto|].
    rewrite Es in E. destruct ok; [|injection E as <- <-; auto]. injection E as <- <-.
    eapply one_node with (y := Values false []); try eassumption; [|discriminate].
    intros z Nz. apply keeps_values; [reflexivity|exact Nz].
  - (* RBegin *)
    subst s. apply G in E. destruct E as [E|(L & A & V & E)]; [auto|].
    rewrite Es in E. destruct ok; [|injection E as <- <-; auto]. injection E as <- <-.
    eapply one_node with (y := Values false []); try eassumption; [|discriminate].
    intros z Nz. apply keeps_values; [reflexivity|exact Nz].
  - (* REnd *)
    destruct D as [-> D]. apply G in E. destruct E as [E|(L & A & V & E)]; [auto|].
    rewrite Es in E. cbn [app] in E.
    assert (W : q = p /\ x = Values false []).
    { destruct (path_eqb_spec q p) as [->|Nq]; [destruct (part_dec x (Values false [])) as [->|Nx]|];
        [auto| |]; exfalso; apply N.
      - assert (S1 : same st (end_writes p [] l st) p x) by (apply end_writes_same; [exact D|right; exact Nx]).
        destruct ok; [destruct (ob_upd self)|]; injection E as <- <-; try exact S1.
        eapply same_trans; [exact S1|]. apply same_upd. apply keeps_values; [reflexivity|exact Nx].
      - assert (S1 : same st (end_writes p [] l st) q x) by (apply end_writes_same; [exact D|left; exact Nq]).
        destruct ok; [destruct (ob_upd self)|]; injection E as <- <-; try exact S1.
        eapply same_trans; [exact S1|]. apply same_upd_other. exact Nq. }
    destruct W as [-> ->]. split; [apply view_only_spec; exact V|]. split; [apply unlocked; exact L|exact A].
  - (* RAttr *)
    apply G in E. destruct E as [E|(L & A & V & E)]; [auto|].
    destruct a; try (destruct ok; [|injection E as <- <-; auto]); injection E as <- <-; auto;
      (eapply one_node with (y := Body); try eassumption; [|discriminate]; intros z Nz; apply keeps_attr; exact Nz).
  - (* RAddBlock *)
    apply G in E. destruct E as [E|(L & A & V & E)]; [auto|].
    assert (E2 : st = st' \/ (lookup st (p ++ [id]) = None /\
      st' = with_nodes st (s_nodes st ++ [(p ++ [id], new_node KBlock self)]))).
    { destruct (n_kind nd); try (injection E as <- <-; left; reflexivity);
        (destruct (lookup st (p ++ [id])) eqn:Q; [injection E as <- <-; left; reflexivity|]);
        (destruct ok; injection E as <- <-; auto). }
    destruct E2 as [E2|[Q ->]]; [auto|]. exfalso. apply N. apply same_lookup. rewrite lookup_add by exact Q.
    destruct (path_eqb_spec q (p ++ [id])) as [->|_]; [|reflexivity]. congruence.
  - (* RRemoveBlock *)
    apply G in E. destruct E as [E|(L & A & V & E)]; [auto|].
    assert (E2 : st = st' \/ st' = with_nodes st (filter (fun x => negb (under (p ++ [id]) (fst x))) (s_nodes st))).
    { destruct (n_kind nd); try (injection E as <- <-; left; reflexivity);
        (destruct (lookup st (p ++ [id])) as [d|] eqn:Q; [|injection E as <- <-; left; reflexivity]);
        (destruct (n_kind d); try (injection E as <- <-; left; reflexivity));
        (destruct ok; injection E as <- <-; auto). }
    destruct E2 as [E2| ->]; [auto|]. exfalso. apply N. apply same_lookup.
    unfold present in P'. rewrite lookup_remove in P' |- *. destruct (under (p ++ [id]) q); [congruence|reflexivity].
  - (* RRead *) destruct (may self (c_user c) [Read]); injection E as <- <-; auto.
  - (* RReadDevice *) destruct (may self (c_user c) [Read]); injection E as <- <-; auto.
  - (* RLock *)
    destruct (may self (c_user c) [Read; Write]) eqn:M; cbn [negb] in E; [|injection E as <- <-; auto].
    destruct (view_only c) eqn:V; [injection E as <- <-; auto|].
    destruct (existsb _ _); injection E as <- <-; auto.
    eapply lock_nodes; [exact V|eapply may_allowed; eassumption|exact N].
  - (* RUnlock *)
    destruct (may self (c_user c) [Read; Write]) eqn:M; cbn [negb] in E; [|injection E as <- <-; auto].
    destruct (view_only c) eqn:V; [injection E as <- <-; auto|].
    destruct (existsb _ _); [injection E as <- <-; auto|].
    destruct (_ && _); injection E as <- <-; auto.
    eapply lock_nodes; [exact V|eapply may_allowed; eassumption|exact N].
  - (* RForceUnlock *)
    destruct (may self (c_user c) [Read; Write]) eqn:M; cbn [negb] in E; [|injection E as <- <-; auto].
    destruct (view_only c) eqn:V; [injection E as <- <-; auto|].
    destruct (_ && _); injection E as <- <-; auto.
    eapply lock_nodes; [exact V|eapply may_allowed; eassumption|exact N].
  - (* RAddDevice *)
    apply G in E. destruct E as [E|(L & A & V & E)]; [auto|].
    destruct (lookup st (p ++ [id])) eqn:Q; [injection E as <- <-; auto|].
    destruct ok; injection E as <- <-; auto. exfalso. apply N. apply same_lookup. rewrite lookup_add by exact Q.
    destruct (path_eqb_spec q (p ++ [id])) as [->|_]; [|reflexivity]. congruence.
  - (* RRemoveDevice *)
    apply G in E. destruct E as [E|(L & A & V & E)]; [auto|].
    destruct (lookup st (p ++ [id])) as [d|] eqn:Q; [|injection E as <- <-; auto].
    destruct (n_kind d); try (injection E as <- <-; auto; fail).
    destruct ok; injection E as <- <-; auto. exfalso. apply N. apply same_lookup.
    unfold present in P'. rewrite lookup_remove in P' |- *. destruct (under (p ++ [id]) q); [congruence|reflexivity].
  - (* RConnect *)
    destruct (lookup st s) as [sg|]; [|injection E as <- <-; auto].
    destruct (n_kind sg); try (injection E as <- <-; auto; fail).
    apply G' in E. destruct E as [E|(L & A & V & E)]; [auto|].
    destruct (n_objs sg false []) as [so|]; [|injection E as <- <-; auto].
    destruct (may so (c_user c) [Read]); [|injection E as <- <-; auto].
    destruct ok; injection E as <- <-; auto.
    eapply one_node with (y := Body); try eassumption; [|discriminate]. intros z Nz. apply keeps_conn. exact Nz.
  - (* RConnectExternal *)
    apply G' in E. destruct E as [E|(L & A & V & E)]; [auto|].
    destruct fails; injection E as <- <-.
    + exfalso. apply N. apply same_lookup. reflexivity.
    + apply (one_node st c p (set_conn (Some None)) q x Body V L).
      * intros z Nz. apply keeps_conn. exact Nz.
      * discriminate.
      * exact A.
      * intro S. apply N. eapply same_trans; [exact S|]. apply same_lookup. rewrite !lookup_upd. reflexivity.
  - (* RDisconnect *)
    apply G in E. destruct E as [E|(L & A & V & E)]; [auto|].
    destruct ok; injection E as <- <-; auto.
    eapply one_node with (y := Body); try eassumption; [|discriminate]. intros z Nz. apply keeps_conn. exact Nz.
  - (* RAccepts *)
    destruct (lookup st s) as [sg|]; [|injection E as <- <-; auto].
    destruct (n_kind sg); try (injection E as <- <-; auto; fail).
    destruct (n_objs sg false []) as [so|]; [|injection E as <- <-; auto].
    destruct (negb _); [injection E as <- <-; auto|]. destruct (may so _ _); injection E as <- <-; auto.
  - (* RRecord *)
    apply G' in E. destruct E as [E|(L & A & V & E)]; [auto|].
    destruct ok; injection E as <- <-; auto.
    eapply one_node with (y := Body); try eassumption; [|discriminate]. intros z Nz. apply keeps_rec. exact Nz.
  - (* RDiscovery *)
    apply G' in E. destruct E as [E|(L & A & V & E)]; [auto|].
    destruct ok; injection E as <- <-; auto.
    eapply one_node with (y := Body); try eassumption; [|discriminate]. intros z Nz. apply keeps_disc. exact Nz.
Qed.
