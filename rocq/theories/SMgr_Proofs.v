From Verif Require Import Base Bytes PStr_Model PStr_Proofs SMgr_Model SMgr_Spec.
Local Open Scope Z_scope.

(** ** Maps *)

Lemma lookup_update : forall {A} x y (a : A) l,
  lookup x (update y a l) = if x =? y then match lookup y l with Some _ => Some a | None => None end else lookup x l.
Proof.
  induction l as [|[z b] l IH]; cbn [update map lookup fst]; [now destruct (x =? y)|].
  fold (update y a l). destruct (Z.eqb_spec z y) as [E|E].
  - subst z. cbn [lookup]. destruct (Z.eqb_spec y x) as [F|F].
    + subst. now rewrite Z.eqb_refl.
    + rewrite IH. destruct (Z.eqb_spec x y); [congruence|reflexivity].
  - cbn [lookup]. rewrite IH. destruct (Z.eqb_spec z x) as [F|F]; [|reflexivity].
    subst z. destruct (Z.eqb_spec x y); [congruence|reflexivity].
Qed.
Lemma keys_update : forall {A} x (a : A) l, map fst (update x a l) = map fst l.
Proof.
  induction l as [|[z b] l IH]; cbn [update map fst]; auto. fold (update x a l). rewrite IH.
  destruct (Z.eqb_spec z x); cbn [fst]; congruence.
Qed.
Lemma lookup_app : forall {A} x (l1 l2 : list (Z * A)),
  lookup x (l1 ++ l2) = match lookup x l1 with Some a => Some a | None => lookup x l2 end.
Proof. induction l1 as [|[z b] l IH]; intros; cbn [app lookup]; auto. destruct (z =? x); auto. Qed.
Lemma lookup_In : forall {A} x (a : A) l, lookup x l = Some a -> In (x, a) l.
Proof.
  induction l as [|[z b] l IH]; cbn [lookup]; [discriminate|]. destruct (Z.eqb_spec z x); [|right; auto].
  intros E. inversion E; subst. now left.
Qed.
Lemma lookup_None : forall {A} x (l : list (Z * A)), lookup x l = None <-> ~ In x (map fst l).
Proof.
  induction l as [|[z b] l IH]; cbn [lookup map fst In]; [tauto|]. destruct (Z.eqb_spec z x); [|rewrite IH; tauto].
  split; [discriminate|]. intros H. exfalso. auto.
Qed.
Lemma In_lookup : forall {A} x (a : A) l, NoDup (map fst l) -> In (x, a) l -> lookup x l = Some a.
Proof.
  induction l as [|[z b] l IH]; cbn [map fst In lookup]; intros N H; [tauto|]. inversion N; subst.
  destruct H as [H|H].
  - inversion H; subst. now rewrite Z.eqb_refl.
  - destruct (Z.eqb_spec z x); auto. subst. exfalso. apply H2. apply in_map_iff. exists (x, a). auto.
Qed.
Lemma lookup_filter_key : forall {A} x (f : Z -> bool) (l : list (Z * A)),
  lookup x (filter (fun e => f (fst e)) l) = if f x then lookup x l else None.
Proof.
  induction l as [|[z b] l IH]; cbn [filter lookup fst]; [now destruct (f x)|].
  destruct (Z.eqb_spec z x) as [E|E].
  - subst z. destruct (f x) eqn:F; cbn [lookup]; [now rewrite Z.eqb_refl|auto].
  - destruct (f z) eqn:F; cbn [lookup]; [apply Z.eqb_neq in E; now rewrite E|auto].
Qed.
Lemma lookup_map : forall {A B} (f : Z -> A -> B) x (l : list (Z * A)),
  lookup x (map (fun e => (fst e, f (fst e) (snd e))) l) = option_map (f x) (lookup x l).
Proof.
  induction l as [|[z b] l IH]; cbn [map lookup fst snd]; auto. destruct (Z.eqb_spec z x); [subst|]; auto.
Qed.
Lemma NoDup_keys_filter : forall {A} (f : Z * A -> bool) l, NoDup (map fst l) -> NoDup (map fst (filter f l)).
Proof.
  induction l as [|e l IH]; cbn [map filter]; intros N; auto. inversion N; subst.
  destruct (f e); cbn [map]; auto. constructor; auto. intros H. apply H1. apply in_map_iff in H.
  destruct H as (y & Y1 & Y2). apply filter_In in Y2. apply in_map_iff. exists y. tauto.
Qed.
Lemma NoDup_snoc : forall {A} (x : A) l, NoDup l -> ~ In x l -> NoDup (l ++ [x]).
Proof.
  induction l as [|y l IH]; cbn [app]; intros N H; [constructor; auto|]. inversion N; subst. constructor.
  - intros K. apply in_app_or in K. destruct K as [K|[K|[]]]; auto. subst. apply H. now left.
  - apply IH; auto. intros K. apply H. now right.
Qed.
Lemma mem_app : forall x l1 l2, mem x (l1 ++ l2) = mem x l1 || mem x l2.
Proof. intros. unfold mem. apply existsb_app. Qed.
Lemma mem_del : forall x y l, mem x (del y l) = negb (y =? x) && mem x l.
Proof.
  intros. destruct (mem x (del y l)) eqn:E.
  - apply mem_In, In_del in E. destruct E as [E1 E2]. apply mem_In in E1. rewrite E1.
    destruct (Z.eqb_spec y x); [congruence|reflexivity].
  - destruct (Z.eqb_spec y x); [reflexivity|]. cbn [negb andb]. symmetry. apply mem_not_In. intros H.
    apply mem_not_In in E. apply E. apply In_del. auto.
Qed.
Lemma del_absent : forall x l, ~ In x l -> del x l = l.
Proof.
  induction l as [|y l IH]; intros H; auto. unfold del. cbn [filter]. fold (del x l).
  destruct (Z.eqb_spec y x); [exfalso; apply H; now left|]. cbn [negb]. rewrite IH; auto. intros K. apply H. now right.
Qed.

(** ** The state means the history *)

Record Inv (R : Z -> bool) (S : Z -> list Z) (N : Z -> Z) (K : Z -> option Z * option Z)
           (D : Z -> bool) (C : Z -> bool) (m : mgr) : Prop := {
  i_regs : forall s, match lookup s (regs m) with
                     | Some r => R s = true /\ subs r = S s /\ num r = N s /\ (lastV r, lastD r) = K s
                     | None => R s = false
                     end;
  i_keys : NoDup (map fst (regs m));
  i_clients : forall c, mem c (clients m) = C c;
  i_cnodup : NoDup (clients m);
  i_servers : forall c, lookup c (servers m) = None <-> C c = false;
  i_skeys : NoDup (map fst (servers m));
  i_subs : forall s c, In c (S s) -> C c = true;
  i_snodup : forall s, NoDup (S s);
  i_none : forall s, R s = false -> S s = [];
  i_desc : forall s, D s = true -> R s = true -> fst (K s) <> None;
  i_known : forall s c v, D s = true -> In c (S s) -> lookup c (servers m) = Some v -> In (N s) (knows v)
}.

Lemma Inv_ext : forall R S N K D C R' S' N' K' D' C' m, Inv R S N K D C m ->
  (forall s, R' s = R s) -> (forall s, S' s = S s) -> (forall s, R s = true -> N' s = N s) ->
  (forall s, R s = true -> K' s = K s) -> (forall s, S s <> [] -> D' s = true -> D s = true) ->
  (forall s, S s = [] -> D' s = false) -> (forall c, C' c = C c) -> Inv R' S' N' K' D' C' m.
Proof.
  intros R S N K D C R' S' N' K' D' C' m HI ER ES EN EK ED EZ EC. destruct HI.
  assert (AR : forall s c, In c (S s) -> R s = true).
  { intros s c H. destruct (R s) eqn:E; auto. rewrite (i_none0 s E) in H. destruct H. }
  constructor; auto.
  - intros s. specialize (i_regs0 s). destruct (lookup s (regs m)); [|now rewrite ER].
    destruct i_regs0 as (A & B & E & F). rewrite ER, ES, EN, EK; auto.
  - intros c. rewrite EC. auto.
  - intros c. rewrite EC. auto.
  - intros s c. rewrite ES, EC. apply i_subs0.
  - intros s. rewrite ES. auto.
  - intros s. rewrite ES, ER. auto.
  - intros s H. rewrite ER. intros G. rewrite EK; auto.
    destruct (S s) eqn:E; [rewrite (EZ s E) in H; discriminate|]. apply i_desc0; auto. apply ED; auto. congruence.
  - intros s c v H. rewrite ES. intros G L. rewrite EN by eauto.
    destruct (S s) eqn:E; [destruct G|]. rewrite <- E in G. eapply i_known0; eauto. apply ED; auto. congruence.
Qed.

Definition queue_of (c : Z) (m : mgr) : list (Z * packet) :=
  match lookup c (servers m) with Some v => queue v | None => [] end.

(** *** One packet to one client *)

Definition taught (n : Z) (p : packet) (v : psrv) : Prop := is_desc p = true -> In n (knows v).

Lemma add_ok : forall n p v, (is_data p = true -> In n (knows v)) ->
  exists v', addDaqPacket n p v = Some v' /\ queue v' = queue v ++ [(n, p)]
    /\ (forall x, In x (knows v) -> In x (knows v')) /\ (is_desc p = true -> In n (knows v'))
    /\ (forall x, In x (knows v') -> In x (knows v) \/ is_desc p = true).
Proof.
  intros n p v H. unfold addDaqPacket. destruct p as [[a|] d|e|e]; cbn [is_desc is_data] in *.
  - eexists. split; [reflexivity|]. cbn [knows queue In]. repeat split; auto.
  - eexists. split; [reflexivity|]. cbn [knows queue]. repeat split; auto; discriminate.
  - eexists. split; [reflexivity|]. cbn [knows queue]. repeat split; auto; discriminate.
  - specialize (H eq_refl). apply mem_In in H. rewrite H.
    eexists. split; [reflexivity|]. cbn [knows queue]. repeat split; auto; discriminate.
Qed.

(** Same manager up to the packet servers, which only learned. *)
Record Grown (m m' : mgr) : Prop := {
  g_regs : regs m' = regs m;
  g_clients : clients m' = clients m;
  g_counter : counter m' = counter m;
  g_cfg : cfgCache m' = cfgCache m /\ cfgThreshold m' = cfgThreshold m;
  g_skeys : map fst (servers m') = map fst (servers m);
  g_knows : forall c v', lookup c (servers m') = Some v' -> exists v, lookup c (servers m) = Some v
              /\ (forall x, In x (knows v) -> In x (knows v')) /\ cacheMax v' = cacheMax v /\ threshold v' = threshold v
}.
Lemma Grown_refl : forall m, Grown m m.
Proof. intros. constructor; auto. intros c v H. exists v. auto. Qed.
Lemma Grown_trans : forall a b c, Grown a b -> Grown b c -> Grown a c.
Proof.
  intros a b c [] []. constructor; try congruence.
  - destruct g_cfg0, g_cfg1. split; congruence.
  - intros x v H. apply g_knows1 in H. destruct H as (v1 & H1 & H2 & H3 & H4). apply g_knows0 in H1.
    destruct H1 as (v2 & G1 & G2 & G3 & G4). exists v2. repeat split; auto; congruence.
Qed.
Lemma Grown_update : forall m c v v', lookup c (servers m) = Some v ->
  (forall x, In x (knows v) -> In x (knows v')) -> cacheMax v' = cacheMax v -> threshold v' = threshold v ->
  Grown m (set_servers (update c v' (servers m)) m).
Proof.
  intros m c v v' L H E1 E2. constructor; cbn [set_servers regs clients counter servers cfgCache cfgThreshold]; auto.
  - apply keys_update.
  - intros x w. rewrite lookup_update. destruct (Z.eqb_spec x c) as [->|]; [|intros; exists w; auto].
    rewrite L. intros F. inversion F; subst. exists v. auto.
Qed.
Lemma add_cfg : forall n p v v', addDaqPacket n p v = Some v' -> cacheMax v' = cacheMax v /\ threshold v' = threshold v.
Proof.
  intros n p v v' H. unfold addDaqPacket in H. destruct p as [[a|] d|e|e]; try (inversion H; subst; auto; fail).
  destruct (mem n (knows v)); inversion H; subst; auto.
Qed.

Lemma push_all_ok : forall cs n p m, NoDup cs ->
  (forall c, In c cs -> exists v, lookup c (servers m) = Some v /\ (is_data p = true -> In n (knows v))) ->
  exists m', push_all cs n p m = (m', true) /\ Grown m m'
   /\ (forall c, queue_of c m' = queue_of c m ++ (if mem c cs then [(n, p)] else []))
   /\ (forall c v, In c cs -> lookup c (servers m') = Some v -> is_desc p = true -> In n (knows v)).
Proof.
  induction cs as [|c cs IH]; intros n p m ND H; cbn [push_all].
  - exists m. split; [reflexivity|]. split; [apply Grown_refl|]. split; [intros; cbn; now rewrite app_nil_r|intros c v []].
  - inversion ND; subst. destruct (H c (or_introl eq_refl)) as (v & L & A). rewrite L.
    destruct (add_ok n p v A) as (v' & E & Q & G1 & G2 & G3). rewrite E.
    destruct (add_cfg _ _ _ _ E) as [C1 C2].
    pose proof (Grown_update m c v v' L G1 C1 C2) as GU.
    destruct (IH n p (set_servers (update c v' (servers m)) m) H3) as (m' & E' & GR & QQ & KK).
    { intros x X. destruct (H x (or_intror X)) as (w & W1 & W2). exists w. split; auto.
      cbn [set_servers servers]. rewrite lookup_update. destruct (Z.eqb_spec x c); [congruence|auto]. }
    exists m'. split; [auto|]. split; [eapply Grown_trans; eauto|]. split.
    + intros x. rewrite QQ. unfold queue_of at 1. cbn [set_servers servers]. rewrite lookup_update.
      unfold mem at 2. cbn [existsb]. fold (mem x cs). destruct (Z.eqb_spec x c) as [->|Hx].
      * rewrite L, Q. unfold queue_of. rewrite L. apply mem_not_In in H2. rewrite H2. cbn [orb]. now rewrite app_nil_r.
      * cbn [orb]. reflexivity.
    + intros x w [X|X] L' D; [|eauto]. subst x. apply (g_knows _ _ GR) in L'. destruct L' as (w' & L1 & L2 & _).
      apply L2. cbn [set_servers servers] in L1. rewrite lookup_update, Z.eqb_refl, L in L1. inversion L1; subst. auto.
Qed.

Lemma emptied_grown : forall m c v v', lookup c (servers m) = Some v ->
  (forall x, In x (knows v) -> In x (knows v')) -> cacheMax v' = cacheMax v -> threshold v' = threshold v ->
  Grown m (set_servers (update c (emptied v') (servers m)) m).
Proof. intros. eapply Grown_update; eauto. Qed.

Lemma sent_messages : forall c x v, flat_map (sent_to c) (messages x v) = if x =? c then queue v else [].
Proof.
  intros c x v. unfold messages. induction (queue v) as [|[n p] l IH]; cbn [map flat_map]; [now destruct (x =? c)|].
  rewrite IH. unfold sent_to. destruct (x =? c); reflexivity.
Qed.

Lemma edge_messages : forall s c v, flat_map (edge s) (messages c v) = [].
Proof. intros. unfold messages. induction (queue v) as [|e l IH]; cbn [map flat_map edge app]; auto. Qed.

Lemma send_one_ok : forall c n p m v, lookup c (servers m) = Some v -> (is_data p = true -> In n (knows v)) ->
  exists m' o, sendDaqPacket c n p m = (m', o, true) /\ Grown m m'
   /\ (forall x, flat_map (sent_to x) o ++ queue_of x m' = queue_of x m ++ (if x =? c then [(n, p)] else []))
   /\ (forall x y z, ~ In (Available x y z) o /\ ~ In (Unavailable x y z) o) /\ (forall s, flat_map (edge s) o = [])
   /\ queue_of c m' = []
   /\ (forall w, lookup c (servers m') = Some w -> is_desc p = true -> In n (knows w)).
Proof.
  intros c n p m v L A. unfold sendDaqPacket. rewrite L.
  destruct (add_ok n p v A) as (v' & E & Q & G1 & G2 & G3). rewrite E.
  destruct (add_cfg _ _ _ _ E) as [C1 C2].
  eexists _, _. split; [reflexivity|]. split; [eapply emptied_grown; eauto|]. split; [|split; [|split; [|split]]].
  - intros x. rewrite sent_messages. unfold queue_of at 1. cbn [set_servers servers]. rewrite lookup_update.
    rewrite (Z.eqb_sym x c). destruct (Z.eqb_spec c x) as [->|].
    + rewrite L. cbn [emptied queue]. rewrite app_nil_r, Q. unfold queue_of. now rewrite L.
    + cbn [app]. fold (queue_of x m). now rewrite app_nil_r.
  - intros x y z. unfold messages. split; intros H; apply in_map_iff in H; destruct H as (? & H & _); discriminate.
  - intros s. apply edge_messages.
  - unfold queue_of. cbn [set_servers servers]. rewrite lookup_update, Z.eqb_refl, L. reflexivity.
  - intros w. cbn [set_servers servers]. rewrite lookup_update, Z.eqb_refl, L. intros F D. inversion F; subst.
    cbn [emptied knows]. auto.
Qed.

Lemma send_all_ok : forall cs n p m, NoDup cs ->
  (forall c, In c cs -> exists v, lookup c (servers m) = Some v /\ (is_data p = true -> In n (knows v))) ->
  exists m' o, send_all cs n p m = (m', o, true) /\ Grown m m'
   /\ (forall x, flat_map (sent_to x) o ++ queue_of x m' = queue_of x m ++ (if mem x cs then [(n, p)] else []))
   /\ (forall x y z, ~ In (Available x y z) o /\ ~ In (Unavailable x y z) o) /\ (forall s, flat_map (edge s) o = [])
   /\ (forall c, In c cs -> queue_of c m' = [])
   /\ (forall c v, In c cs -> lookup c (servers m') = Some v -> is_desc p = true -> In n (knows v)).
Proof.
  induction cs as [|c cs IH]; intros n p m ND H; cbn [send_all].
  - exists m, []. split; [reflexivity|]. split; [apply Grown_refl|]. split; [intros; cbn; now rewrite app_nil_r|].
    split; [auto|]. split; [auto|]. split; [intros c []|intros c v []].
  - inversion ND; subst. destruct (H c (or_introl eq_refl)) as (v & L & A).
    destruct (send_one_ok c n p m v L A) as (m1 & o1 & E1 & GR1 & Q1 & A1 & T1 & Z1 & K1). rewrite E1.
    destruct (IH n p m1 H3) as (m' & o2 & E2 & GR2 & Q2 & A2 & T2 & Z2 & K2).
    { intros x X. destruct (H x (or_intror X)) as (w & W1 & W2).
      assert (L1 : lookup x (servers m1) = Some w).
      { unfold sendDaqPacket in E1. rewrite L in E1. destruct (addDaqPacket n p v); inversion E1; subst.
        cbn [set_servers servers]. rewrite lookup_update. destruct (Z.eqb_spec x c); [congruence|auto]. }
      exists w. auto. }
    rewrite E2. exists m', (o1 ++ o2). split; [reflexivity|]. split; [eapply Grown_trans; eauto|].
    split; [|split; [|split; [|split]]].
    + intros x. rewrite flat_map_app, <- app_assoc, Q2, app_assoc, Q1, <- app_assoc. f_equal.
      unfold mem at 2. cbn [existsb]. fold (mem x cs). destruct (Z.eqb_spec x c) as [->|]; [|reflexivity].
      apply mem_not_In in H2. rewrite H2. reflexivity.
    + intros x y z. split; intros K; apply in_app_or in K; destruct K as [K|K]; [apply (A1 x y z) in K|apply (A2 x y z) in K|apply (A1 x y z) in K|apply (A2 x y z) in K]; auto.
    + intros s. rewrite flat_map_app, T1, T2. reflexivity.
    + intros x [X|X]; [|auto]. subst x. specialize (Q2 c). apply mem_not_In in H2. rewrite H2, Z1 in Q2. cbn [app] in Q2.
      apply app_eq_nil in Q2. tauto.
    + intros x w [X|X] L' D; [|eauto]. subst x. apply (g_knows _ _ GR2) in L'. destruct L' as (w' & L1 & L2 & _). eauto.
Qed.

(** *** Descriptors remembered for a signal *)

Definition upd {A} (f : Z -> A) (s : Z) (a : A) (x : Z) : A := if x =? s then a else f x.

Lemma upd_same : forall {A} (f : Z -> A) s a, upd f s a s = a.
Proof. intros. unfold upd. now rewrite Z.eqb_refl. Qed.

Lemma note_fields : forall p r, subs (note_descriptors p r) = subs r /\ num (note_descriptors p r) = num r
  /\ (lastV (note_descriptors p r), lastD (note_descriptors p r)) = announce (lastV r, lastD r) p.
Proof. intros [v d|n|n] r; cbn; auto. Qed.

Lemma announce_keeps : forall k p, fst k <> None -> fst (announce k p) <> None.
Proof. intros k [[v|] d|n|n] H; cbn [announce fst]; auto. discriminate. Qed.
Lemma announce_desc : forall k p, is_desc p = true -> fst (announce k p) <> None.
Proof. intros k [[v|] d|n|n] H; cbn in *; discriminate. Qed.

Lemma packet_inv : forall R S N K D C m s p r m', Inv R S N K D C m -> lookup s (regs m) = Some r ->
  let m0 := set_regs (update s (note_descriptors p r) (regs m)) m in
  Grown m0 m' ->
  (forall c v, In c (S s) -> lookup c (servers m') = Some v -> is_desc p = true -> In (N s) (knows v)) ->
  Inv R S N (upd K s (announce (K s) p)) (upd D s (D s || is_desc p)) C m'.
Proof.
  intros R S N K D C m s p r m' HI L m0 GR HK.
  pose proof (i_regs _ _ _ _ _ _ _ HI s) as HR. rewrite L in HR. destruct HR as (R1 & R2 & R3 & R4).
  destruct (note_fields p r) as (F1 & F2 & F3).
  destruct HI, GR. cbn [m0 set_regs regs clients counter servers] in *. constructor; auto.
  - intros x. rewrite g_regs0, lookup_update. unfold upd. destruct (Z.eqb_spec x s) as [->|].
    + rewrite L. rewrite F1, F2, F3, R4. auto.
    + apply i_regs0.
  - rewrite g_regs0, keys_update. auto.
  - intros c. rewrite g_clients0. auto.
  - now rewrite g_clients0.
  - intros c. rewrite lookup_None, g_skeys0, <- lookup_None. auto.
  - rewrite g_skeys0. auto.
  - intros x. unfold upd. destruct (Z.eqb_spec x s) as [->|]; auto. intros H G.
    apply orb_true_iff in H. destruct H as [H|H]; [apply announce_keeps; auto|apply announce_desc; auto].
  - intros x c v. unfold upd. destruct (Z.eqb_spec x s) as [->|Hx]; intros H G LL.
    + apply orb_true_iff in H. destruct H as [H|H]; [|eauto].
      apply g_knows0 in LL. destruct LL as (v0 & L0 & KN & _). eauto.
    + apply g_knows0 in LL. destruct LL as (v0 & L0 & KN & _). eauto.
Qed.

Lemma ready_to_send : forall R S N K D C m s p, Inv R S N K D C m ->
  (S s = [] \/ (is_data p = true -> D s = true)) ->
  forall c, In c (S s) -> exists v, lookup c (servers m) = Some v /\ (is_data p = true -> In (N s) (knows v)).
Proof.
  intros R S N K D C m s p HI HD c Hc. destruct HD as [HD|HD]; [rewrite HD in Hc; destruct Hc|].
  pose proof (i_subs _ _ _ _ _ _ _ HI s c Hc) as CC.
  destruct (lookup c (servers m)) as [v|] eqn:L.
  - exists v. split; auto. intros X. eapply (i_known _ _ _ _ _ _ _ HI); eauto.
  - apply (i_servers _ _ _ _ _ _ _ HI) in L. congruence.
Qed.

Lemma process_ok : forall R S N K D C m s p, Inv R S N K D C m -> R s = true ->
  (S s = [] \/ (is_data p = true -> D s = true)) ->
  exists m', processPacket s p m = (m', true) /\ counter m' = counter m
    /\ (cfgCache m' = cfgCache m /\ cfgThreshold m' = cfgThreshold m)
    /\ (forall c, queue_of c m' = queue_of c m ++ (if mem c (S s) then [(N s, p)] else []))
    /\ Inv R S N (upd K s (announce (K s) p)) (upd D s (D s || is_desc p)) C m'
    /\ clients m' = clients m /\ map (fun e => (num (snd e), fst e)) (regs m') = map (fun e => (num (snd e), fst e)) (regs m).
Proof.
  intros R S N K D C m s p HI HR HD. unfold processPacket.
  pose proof (i_regs _ _ _ _ _ _ _ HI s) as HS. destruct (lookup s (regs m)) as [r|] eqn:L; [|congruence].
  destruct HS as (R1 & R2 & R3 & R4). destruct (note_fields p r) as (F1 & F2 & F3). rewrite F1, F2, R2, R3.
  destruct (push_all_ok (S s) (N s) p (set_regs (update s (note_descriptors p r) (regs m)) m)) as (m' & E & GR & QQ & KK).
  - apply (i_snodup _ _ _ _ _ _ _ HI).
  - apply (ready_to_send R S N K D C m s p HI HD).
  - exists m'. split; [auto|]. split; [now rewrite (g_counter _ _ GR)|]. split; [apply (g_cfg _ _ GR)|]. split; [|split; [|split]].
    + intros c. rewrite QQ. reflexivity.
    + eapply packet_inv; eauto.
    + now rewrite (g_clients _ _ GR).
    + rewrite (g_regs _ _ GR). cbn [set_regs regs]. clear - L F2 HI. pose proof (i_keys _ _ _ _ _ _ _ HI) as ND. clear HI.
      induction (regs m) as [|[z b] l IH]; cbn [update map fst snd]; auto. fold (update s (note_descriptors p r) l).
      cbn [lookup] in L. inversion ND; subst. destruct (Z.eqb_spec z s) as [E|E].
      * inversion L; subst. cbn [fst snd]. rewrite F2. f_equal.
        apply lookup_None in H1. clear - H1. induction l as [|[y a] l IH]; cbn [update map fst snd]; auto.
        fold (update s (note_descriptors p r) l). cbn [lookup] in H1. destruct (y =? s); [discriminate|]. cbn [fst snd]. f_equal. auto.
      * cbn [fst snd]. f_equal. auto.
Qed.

Lemma send_ok : forall R S N K D C m s p, Inv R S N K D C m -> R s = true ->
  (S s = [] \/ (is_data p = true -> D s = true)) ->
  exists m' o, sendPacketToSubscribers s p m = (m', o, true) /\ counter m' = counter m
    /\ (cfgCache m' = cfgCache m /\ cfgThreshold m' = cfgThreshold m)
    /\ (forall c, flat_map (sent_to c) o ++ queue_of c m' = queue_of c m ++ (if mem c (S s) then [(N s, p)] else []))
    /\ Inv R S N (upd K s (announce (K s) p)) (upd D s (D s || is_desc p)) C m'
    /\ clients m' = clients m /\ map (fun e => (num (snd e), fst e)) (regs m') = map (fun e => (num (snd e), fst e)) (regs m)
    /\ (forall x y z, ~ In (Available x y z) o /\ ~ In (Unavailable x y z) o) /\ (forall s, flat_map (edge s) o = [])
    /\ (forall c, In c (S s) -> queue_of c m' = []).
Proof.
  intros R S N K D C m s p HI HR HD. unfold sendPacketToSubscribers.
  pose proof (i_regs _ _ _ _ _ _ _ HI s) as HS. destruct (lookup s (regs m)) as [r|] eqn:L; [|congruence].
  destruct HS as (R1 & R2 & R3 & R4). destruct (note_fields p r) as (F1 & F2 & F3). rewrite F1, F2, R2, R3.
  destruct (send_all_ok (S s) (N s) p (set_regs (update s (note_descriptors p r) (regs m)) m)) as (m' & o & E & GR & QQ & AA & TT & ZZ & KK).
  - apply (i_snodup _ _ _ _ _ _ _ HI).
  - apply (ready_to_send R S N K D C m s p HI HD).
  - exists m', o. split; [auto|]. split; [now rewrite (g_counter _ _ GR)|]. split; [apply (g_cfg _ _ GR)|].
    split; [|split; [|split; [|split; [|split; [|split]]]]]; auto.
    + eapply packet_inv; eauto.
    + now rewrite (g_clients _ _ GR).
    + rewrite (g_regs _ _ GR). cbn [set_regs regs]. clear - L F2 HI. pose proof (i_keys _ _ _ _ _ _ _ HI) as ND. clear HI.
      induction (regs m) as [|[z b] l IH]; cbn [update map fst snd]; auto. fold (update s (note_descriptors p r) l).
      cbn [lookup] in L. inversion ND; subst. destruct (Z.eqb_spec z s) as [E|E].
      * inversion L; subst. cbn [fst snd]. rewrite F2. f_equal.
        apply lookup_None in H1. clear - H1. induction l as [|[y a] l IH]; cbn [update map fst snd]; auto.
        fold (update s (note_descriptors p r) l). cbn [lookup] in H1. destruct (y =? s); [discriminate|]. cbn [fst snd]. f_equal. auto.
      * cbn [fst snd]. f_equal. auto.
Qed.

(** ** One operation *)

Definition HInv (h : list op) (m : mgr) : Prop :=
  Inv (fun s => registered s h) (fun s => subscribers s h) (fun s => number s h) (fun s => latest s h)
      (fun s => described s h) (fun c => connected c h) m
  /\ counter m = w32 (added h).

Definition offers (m : mgr) : list (Z * Z) := map (fun e => (num (snd e), fst e)) (regs m).
Definition change (a b : list Z) : list bool :=
  match a, b with [], _ :: _ => [true] | _ :: _, [] => [false] | _, _ => [] end.

Record StepOK (h : list op) (o : op) (m m' : mgr) (os : list out) : Prop := {
  k_inv : HInv (o :: h) m';
  k_edges : forall s, flat_map (edge s) os = change (subscribers s h) (subscribers s (o :: h));
  k_sent : forall c, connected c (o :: h) = true -> begins c o && negb (connected c h) = false ->
      flat_map (sent_to c) os ++ queue_of c m' = queue_of c m ++ due c h o;
  k_begin : forall c, begins c o && negb (connected c h) = true -> flat_map (sent_to c) os = [] /\ queue_of c m' = [];
  k_told : forall c, connected c (o :: h) = true ->
      fold_left (tell c) os (if begins c o && negb (connected c h) then [] else offers m) = offers m'
}.

Lemma change_refl : forall l, change l l = [].
Proof. now intros [|x l]. Qed.

Lemma tell_quiet : forall c os k, (forall x y z, ~ In (Available x y z) os /\ ~ In (Unavailable x y z) os) ->
  fold_left (tell c) os k = k.
Proof.
  induction os as [|o os IH]; intros k H; cbn [fold_left]; auto. rewrite IH.
  - destruct o; cbn [tell]; auto; exfalso; destruct (H c0 n s); [apply H0|apply H1]; now left.
  - intros x y z. destruct (H x y z). split; intros K; [apply H0|apply H1]; now right.
Qed.

(** *** AddSignal *)
Lemma sent_available : forall c n s l, flat_map (sent_to c) (map (fun x => Available x n s) l) = [].
Proof. induction l; cbn [map flat_map sent_to app]; auto. Qed.
Lemma edge_available : forall e n s l, flat_map (edge e) (map (fun x => Available x n s) l) = [].
Proof. induction l; cbn [map flat_map edge app]; auto. Qed.
Lemma sent_unavailable : forall c n s l, flat_map (sent_to c) (map (fun x => Unavailable x n s) l) = [].
Proof. induction l; cbn [map flat_map sent_to app]; auto. Qed.
Lemma edge_unavailable : forall e n s l, flat_map (edge e) (map (fun x => Unavailable x n s) l) = [].
Proof. induction l; cbn [map flat_map edge app]; auto. Qed.
Lemma tell_available : forall c n s l k, NoDup l ->
  fold_left (tell c) (map (fun x => Available x n s) l) k = if mem c l then k ++ [(n, s)] else k.
Proof.
  induction l as [|x l IH]; intros k N; cbn [map fold_left tell]; auto. inversion N; subst. rewrite IH by auto.
  unfold mem at 2. cbn [existsb]. fold (mem c l). rewrite (Z.eqb_sym c x). destruct (Z.eqb_spec x c) as [->|]; [|reflexivity].
  apply mem_not_In in H1. now rewrite H1.
Qed.
Lemma tell_unavailable : forall c n s l k, NoDup l ->
  fold_left (tell c) (map (fun x => Unavailable x n s) l) k =
  if mem c l then filter (fun e => negb ((fst e =? n) && (snd e =? s))) k else k.
Proof.
  induction l as [|x l IH]; intros k N; cbn [map fold_left tell]; auto. inversion N; subst. rewrite IH by auto.
  unfold mem at 2. cbn [existsb]. fold (mem c l). rewrite (Z.eqb_sym c x). destruct (Z.eqb_spec x c) as [->|]; [|reflexivity].
  apply mem_not_In in H1. now rewrite H1.
Qed.

Lemma w32_succ : forall z, w32 (w32 z + 1) = w32 (z + 1).
Proof. intros. unfold w32. now rewrite Zplus_mod_idemp_l. Qed.

Lemma registered_lookup : forall h m s, HInv h m -> (lookup s (regs m) = None <-> registered s h = false).
Proof.
  intros h m s [HI _]. pose proof (i_regs _ _ _ _ _ _ _ HI s) as H. cbn beta in H.
  destruct (lookup s (regs m)); split; intros; auto; try congruence. destruct H. congruence.
Qed.

Lemma add_step : forall h m s, HInv h m -> let (m', os) := step m (AddSignal s) in StepOK h (AddSignal s) m m' os.
Proof.
  intros h m s HI. cbn [step]. unfold registerSignal.
  pose proof (registered_lookup h m s HI) as RL.
  destruct (lookup s (regs m)) as [r|] eqn:L.
  - assert (RT : registered s h = true) by (destruct (registered s h); auto; destruct RL as [_ RL]; discriminate RL; reflexivity).
    constructor.
    + destruct HI as [HI HC]. split.
      * eapply Inv_ext; [exact HI|..]; cbn beta; cbn [registered subscribers number latest described connected carried fold_left existsb]; intros; auto.
        -- destruct (Z.eqb_spec s s0); [subst; now rewrite RT|reflexivity].
        -- destruct (Z.eqb_spec s s0); [subst; now rewrite RT|reflexivity].
        -- now destruct (registered s0 h).
        -- destruct (subscribers s0 h); [congruence|]. now rewrite orb_false_r in H0.
        -- now rewrite H.
      * cbn [added]. rewrite RT. now rewrite Z.add_0_r.
    + intros e. cbn [flat_map edge app subscribers]. now rewrite change_refl.
    + intros c _ _. cbn [flat_map sent_to app due]. now rewrite app_nil_r.
    + intros c H. discriminate.
    + intros c _. cbn [begins andb]. reflexivity.
  - assert (RF : registered s h = false) by (apply RL; auto).
    destruct HI as [HI HC]. set (n := w32 (counter m + 1)).
    assert (NN : n = w32 (added h + 1)) by (unfold n; rewrite HC; apply w32_succ).
    assert (SE : subscribers s h = []) by (apply (i_none _ _ _ _ _ _ _ HI); auto).
    assert (LE : latest s h = (None, None) \/ True) by auto.
    constructor.
    + split; [|cbn [added counter]; rewrite RF; exact NN].
      constructor; cbn [regs clients servers]; cbn [registered subscribers number latest connected described carried fold_left existsb].
      * intros x. rewrite lookup_app. cbn [lookup]. pose proof (i_regs _ _ _ _ _ _ _ HI x) as IR. cbn beta in IR.
        destruct (lookup x (regs m)) as [rx|] eqn:LX.
        -- assert (x <> s) by congruence. destruct (Z.eqb_spec s x); [congruence|]. cbn [orb andb].
           destruct IR as (A & B & C & D). rewrite A. auto.
        -- destruct (Z.eqb_spec s x) as [->|]; cbn [orb andb]; [|auto]. cbn [subs num lastV lastD]. rewrite RF. cbn [negb].
           split; [auto|]. split; [auto|]. split; [auto|]. clear - RF.
           symmetry. induction h as [|o h IH]; [reflexivity|].
           destruct o; cbn [registered latest] in *; try (rewrite RF); auto.
           ++ apply orb_false_iff in RF. destruct RF as [RF1 RF]. rewrite RF. auto.
           ++ destruct (mem x l); auto.
      * rewrite map_app. cbn [map fst]. apply NoDup_snoc; [apply (i_keys _ _ _ _ _ _ _ HI)|]. now apply lookup_None.
      * apply (i_clients _ _ _ _ _ _ _ HI).
      * apply (i_cnodup _ _ _ _ _ _ _ HI).
      * apply (i_servers _ _ _ _ _ _ _ HI).
      * apply (i_skeys _ _ _ _ _ _ _ HI).
      * apply (i_subs _ _ _ _ _ _ _ HI).
      * apply (i_snodup _ _ _ _ _ _ _ HI).
      * intros x. destruct (s =? x); cbn [orb]; [discriminate|]. apply (i_none _ _ _ _ _ _ _ HI).
      * intros x H G. destruct (Z.eqb_spec s x) as [->|].
        -- rewrite SE in H. discriminate.
        -- cbn [orb] in G. rewrite G. destruct (subscribers x h) eqn:SX; [discriminate|]. rewrite orb_false_r in H.
           apply (i_desc _ _ _ _ _ _ _ HI); auto.
      * intros x c v H G LL. destruct (Z.eqb_spec s x) as [->|].
        -- rewrite SE in G. destruct G.
        -- cbn [andb]. destruct (subscribers x h) eqn:SX; [discriminate|]. rewrite orb_false_r in H.
           eapply (i_known _ _ _ _ _ _ _ HI); eauto. now rewrite SX.
    + intros e. rewrite edge_available. cbn [subscribers]. now rewrite change_refl.
    + intros c _ _. rewrite sent_available. cbn [due app]. rewrite app_nil_r. reflexivity.
    + intros c H. discriminate.
    + intros c CC. cbn [begins andb clients]. rewrite tell_available by apply (i_cnodup _ _ _ _ _ _ _ HI).
      cbn [connected] in CC. rewrite (i_clients _ _ _ _ _ _ _ HI), CC. unfold offers. cbn [regs]. rewrite map_app. reflexivity.
Qed.

(** *** RemoveSignals *)
Lemma flat_map_ext_in_ : forall {A B} (f g : A -> list B) l, (forall x, In x l -> f x = g x) -> flat_map f l = flat_map g l.
Proof.
  induction l as [|x l IH]; intros H; cbn [flat_map]; auto. rewrite H by now left. rewrite IH; auto. intros. apply H. now right.
Qed.

Definition gone (m : mgr) (s : Z) : list out :=
  match lookup s (regs m) with
  | None => []
  | Some r => match subs r with [] => [] | _ => [Stopped s] end ++ map (fun c => Unavailable c (num r) s) (clients m)
  end.
Lemma set_regs_same : forall m, set_regs (regs m) m = m.
Proof. now destruct m. Qed.
Lemma filter_all : forall {A} (f : A -> bool) l, (forall x, In x l -> f x = true) -> filter f l = l.
Proof.
  induction l as [|x l IH]; intros H; cbn [filter]; auto. rewrite H by now left. f_equal. apply IH. intros. apply H. now right.
Qed.
Lemma filter_filter : forall {A} (f g : A -> bool) l, filter f (filter g l) = filter (fun x => g x && f x) l.
Proof. induction l as [|x l IH]; cbn [filter]; auto. destruct (g x); cbn [filter andb]; rewrite IH; reflexivity. Qed.
Lemma remove_all : forall ks m o, NoDup ks ->
  fold_left remove_one ks (m, o) =
  (set_regs (filter (fun e => negb (mem (fst e) ks)) (regs m)) m, o ++ flat_map (gone m) ks).
Proof.
  induction ks as [|k ks IH]; intros m o ND; cbn [fold_left flat_map].
  - rewrite app_nil_r. f_equal. rewrite <- (set_regs_same m) at 1. f_equal. symmetry. apply filter_all. auto.
  - inversion ND; subst. unfold remove_one at 2. unfold gone at 1. destruct (lookup k (regs m)) as [r|] eqn:L.
    + rewrite IH by auto. f_equal.
      * unfold removeSignal, set_regs. cbn [regs counter clients servers cfgCache cfgThreshold]. f_equal.
        unfold erase. rewrite filter_filter. apply filter_ext.
        intros e. unfold mem at 2. cbn [existsb]. fold (mem (fst e) ks). now destruct (fst e =? k).
      * rewrite <- !app_assoc. f_equal. f_equal. f_equal.
        apply flat_map_ext_in_. intros x X. unfold gone, removeSignal. cbn [set_regs regs clients]. rewrite lookup_erase.
        destruct (Z.eqb_spec x k); [congruence|reflexivity].
    + rewrite IH by auto. f_equal. unfold set_regs. f_equal. apply filter_ext_in. intros [x a] X. cbn [fst].
      unfold mem at 2. cbn [existsb]. fold (mem x ks). destruct (Z.eqb_spec x k); [|reflexivity].
      subst. exfalso. apply lookup_None in L. apply L. apply in_map_iff. exists (k, a). auto.
Qed.

Lemma flat_map_nested : forall {A B C} (f : B -> list C) (g : A -> list B) l,
  flat_map f (flat_map g l) = flat_map (fun x => flat_map f (g x)) l.
Proof. induction l as [|x l IH]; cbn [flat_map]; auto. now rewrite flat_map_app, IH. Qed.
Lemma flat_map_nil_ : forall {A B} (f : A -> list B) l, (forall x, In x l -> f x = []) -> flat_map f l = [].
Proof.
  induction l as [|x l IH]; intros H; cbn [flat_map]; auto. rewrite H by now left. apply IH. intros. apply H. now right.
Qed.
Lemma flat_map_single : forall {B} (f : Z -> list B) s l, NoDup l -> (forall x, In x l -> x <> s -> f x = []) ->
  flat_map f l = if mem s l then f s else [].
Proof.
  induction l as [|x l IH]; intros N H; cbn [flat_map]; auto. inversion N; subst.
  unfold mem. cbn [existsb]. fold (mem s l). rewrite (Z.eqb_sym s x). destruct (Z.eqb_spec x s) as [->|E]; cbn [orb].
  - rewrite flat_map_nil_; [apply app_nil_r|]. intros y Y. apply H; [now right|]. congruence.
  - rewrite H by (auto; now left). cbn [app]. apply IH; auto. intros. apply H; auto. now right.
Qed.

Lemma edge_gone : forall h m s x, HInv h m -> flat_map (edge s) (gone m x) =
  if x =? s then match subscribers s h with [] => [] | _ => [false] end else [].
Proof.
  intros h m s x [HI _]. unfold gone. pose proof (i_regs _ _ _ _ _ _ _ HI x) as H. cbn beta in H.
  destruct (lookup x (regs m)) as [r|].
  - destruct H as (_ & B & _). rewrite flat_map_app, edge_unavailable, app_nil_r, B.
    destruct (subscribers x h) eqn:E; cbn [flat_map edge app]; destruct (Z.eqb_spec x s) as [->|]; auto; now rewrite E.
  - cbn [flat_map]. destruct (Z.eqb_spec x s) as [->|]; auto. rewrite (i_none _ _ _ _ _ _ _ HI s H). reflexivity.
Qed.

Lemma sent_gone : forall m c x, flat_map (sent_to c) (gone m x) = [].
Proof.
  intros. unfold gone. destruct (lookup x (regs m)) as [r|]; auto. rewrite flat_map_app, sent_unavailable.
  destruct (subs r); reflexivity.
Qed.

Lemma tell_gone : forall m c ks V, NoDup (clients m) -> mem c (clients m) = true ->
  (forall e, In e V -> exists r, lookup (snd e) (regs m) = Some r /\ num r = fst e) ->
  fold_left (tell c) (flat_map (gone m) ks) V = filter (fun e => negb (mem (snd e) ks)) V.
Proof.
  induction ks as [|k ks IH]; intros V N M H; cbn [flat_map fold_left].
  - symmetry. apply filter_all. auto.
  - rewrite fold_left_app. assert (E : fold_left (tell c) (gone m k) V = filter (fun e => negb (snd e =? k)) V).
    { unfold gone. destruct (lookup k (regs m)) as [r|] eqn:L.
      - rewrite fold_left_app.
        assert (Q : forall w, fold_left (tell c) match subs r with [] => [] | _ :: _ => [Stopped k] end w = w).
        { intros w. now destruct (subs r). }
        rewrite Q, tell_unavailable, M by auto. apply filter_ext_in. intros e X.
        destruct (H e X) as (r' & L' & NR). destruct (Z.eqb_spec (snd e) k) as [E|E]; [|now rewrite andb_false_r].
        rewrite E in L'. assert (r' = r) by congruence. subst r'. rewrite NR, Z.eqb_refl. reflexivity.
      - cbn [fold_left]. symmetry. apply filter_all. intros e X. destruct (H e X) as (r' & L' & NR).
        destruct (Z.eqb_spec (snd e) k) as [E|E]; [congruence|reflexivity]. }
    rewrite E, IH by (auto; intros e X; apply filter_In in X; apply H; tauto).
    rewrite filter_filter. apply filter_ext. intros e. unfold mem at 2. cbn [existsb]. fold (mem (snd e) ks).
    now destruct (snd e =? k).
Qed.

Lemma offers_lookup : forall m e, NoDup (map fst (regs m)) -> In e (offers m) ->
  exists r, lookup (snd e) (regs m) = Some r /\ num r = fst e.
Proof.
  intros m e N H. unfold offers in H. apply in_map_iff in H. destruct H as ([s r] & E & H). subst e. cbn [fst snd].
  exists r. split; auto. now apply In_lookup.
Qed.

Lemma remove_step : forall h m l, HInv h m -> let (m', os) := step m (RemoveSignals l) in StepOK h (RemoveSignals l) m m' os.
Proof.
  intros h m l HI. cbn [step]. set (ks := filter (fun s => mem s l) (map fst (regs m))).
  pose proof (i_keys _ _ _ _ _ _ _ (proj1 HI)) as NK.
  assert (ND : NoDup ks) by (apply NoDup_filter; auto).
  rewrite remove_all by auto. cbn [app].
  assert (KM : forall e, In e (regs m) -> negb (mem (fst e) ks) = negb (mem (fst e) l)).
  { intros e H. f_equal. destruct (mem (fst e) l) eqn:E.
    - apply mem_In. apply filter_In. split; auto. now apply in_map.
    - apply mem_not_In. intros K. apply filter_In in K. destruct K. congruence. }
  assert (KS : forall s, registered s h = true -> mem s ks = mem s l).
  { intros s RS. destruct (mem s l) eqn:E.
    - apply mem_In. apply filter_In. split; auto. destruct (lookup s (regs m)) as [r|] eqn:L.
      + apply in_map_iff. exists (s, r). split; auto. now apply lookup_In.
      + apply (registered_lookup h m s HI) in L. congruence.
    - apply mem_not_In. intros K. apply filter_In in K. destruct K. congruence. }
  assert (RG : filter (fun e => negb (mem (fst e) ks)) (regs m) = filter (fun e => negb (mem (fst e) l)) (regs m)).
  { apply filter_ext_in. auto. }
  rewrite RG. destruct HI as [HI HC]. constructor.
  - split; [|exact HC].
    constructor; cbn [set_regs regs clients servers]; cbn [registered subscribers number latest connected described].
    + intros x. rewrite (lookup_filter_key x (fun z => negb (mem z l))). pose proof (i_regs _ _ _ _ _ _ _ HI x) as IR. cbn beta in IR.
      destruct (mem x l); cbn [negb andb]; auto.
    + now apply NoDup_keys_filter.
    + apply (i_clients _ _ _ _ _ _ _ HI).
    + apply (i_cnodup _ _ _ _ _ _ _ HI).
    + apply (i_servers _ _ _ _ _ _ _ HI).
    + apply (i_skeys _ _ _ _ _ _ _ HI).
    + intros s c. destruct (mem s l); [intros []|]. apply (i_subs _ _ _ _ _ _ _ HI).
    + intros s. destruct (mem s l); [constructor|]. apply (i_snodup _ _ _ _ _ _ _ HI).
    + intros s. destruct (mem s l); [auto|]. apply (i_none _ _ _ _ _ _ _ HI).
    + intros s H G. destruct (mem s l); [discriminate|]. cbn [negb andb] in *. destruct (subscribers s h); [discriminate|].
      apply (i_desc _ _ _ _ _ _ _ HI); auto.
    + intros s c v H G LL. destruct (mem s l); [destruct G|]. cbn [negb andb] in *. destruct (subscribers s h) eqn:SX; [discriminate|].
      eapply (i_known _ _ _ _ _ _ _ HI); eauto. now rewrite SX.
  - intros s. rewrite flat_map_nested.
    rewrite (flat_map_single _ s) by (auto; intros x X Y; rewrite (edge_gone h) by (split; auto); apply Z.eqb_neq in Y; now rewrite Y).
    rewrite (edge_gone h) by (split; auto). rewrite Z.eqb_refl. cbn [subscribers].
    destruct (registered s h) eqn:RS.
    + rewrite KS by auto. destruct (mem s l); destruct (subscribers s h); reflexivity.
    + rewrite (i_none _ _ _ _ _ _ _ HI s RS). destruct (mem s ks), (mem s l); reflexivity.
  - intros c _ _. rewrite flat_map_nested, flat_map_nil_ by (intros; apply sent_gone). cbn [app due]. rewrite app_nil_r. reflexivity.
  - intros c H. discriminate.
  - intros c CC. cbn [begins andb]. cbn [connected] in CC.
    rewrite tell_gone.
    + unfold offers. cbn [set_regs regs]. clear - KM. clearbody ks. induction (regs m) as [|e r IH]; cbn [map filter fst snd]; auto.
      rewrite <- (KM e) by now left. cbn [fst snd]. destruct (mem (fst e) ks); cbn [negb map fst snd]; rewrite IH; auto;
        intros; apply KM; now right.
    + apply (i_cnodup _ _ _ _ _ _ _ HI).
    + now rewrite (i_clients _ _ _ _ _ _ _ HI).
    + intros e X. now apply offers_lookup.
Qed.

(** *** Init *)
Lemma init_step : forall h m c b, HInv h m -> let (m', os) := step m (Init c b) in StepOK h (Init c b) m m' os.
Proof.
  intros h m c b [HI HC]. cbn [step]. unfold registerClient. rewrite (i_clients _ _ _ _ _ _ _ HI).
  assert (QD : forall x, described x (Init c b :: h) = true -> described x h = true).
  { intros x. cbn [described carried existsb]. destruct (subscribers x h); [discriminate|]. now rewrite orb_false_r. }
  assert (QL : forall x, latest x (Init c b :: h) = latest x h).
  { intros x. cbn [latest carried fold_left]. now destruct (registered x h). }
  destruct (connected c h) eqn:CC.
  - constructor.
    + split; [|exact HC]. eapply Inv_ext; [exact HI|..]; cbn beta; intros; auto.
      * cbn [described]. now rewrite H.
      * cbn [connected]. destruct (Z.eqb_spec c c0); [subst; now rewrite CC|reflexivity].
    + intros s. cbn [flat_map edge app subscribers]. now rewrite change_refl.
    + intros x _ _. cbn [flat_map sent_to app due]. now rewrite app_nil_r.
    + intros x H. cbn [begins] in H. destruct (Z.eqb_spec c x); [subst; rewrite CC in H|]; discriminate.
    + intros x _. cbn [begins]. destruct (Z.eqb_spec c x); [subst; rewrite CC|]; reflexivity.
  - assert (LN : lookup c (servers m) = None) by (apply (i_servers _ _ _ _ _ _ _ HI); auto).
    assert (EN : erase c (servers m) = servers m).
    { apply filter_all. intros [x v] X. cbn [fst]. destruct (Z.eqb_spec x c); [|reflexivity]. subst.
      exfalso. apply lookup_None in LN. apply LN. apply in_map_iff. exists (c, v). auto. }
    assert (KE : (if b then servers m else erase c (servers m)) = servers m) by (destruct b; auto).
    rewrite KE, LN.
    assert (NS : forall s, ~ In c (subscribers s h)).
    { intros s K. apply (i_subs _ _ _ _ _ _ _ HI) in K. congruence. }
    constructor.
    + split; [|exact HC]. constructor; cbn [regs clients servers]; cbn [registered subscribers number connected].
      * intros x. rewrite QL. apply (i_regs _ _ _ _ _ _ _ HI).
      * apply (i_keys _ _ _ _ _ _ _ HI).
      * intros x. rewrite mem_app, (i_clients _ _ _ _ _ _ _ HI). unfold mem. cbn [existsb]. rewrite orb_false_r.
        rewrite (Z.eqb_sym x c). apply orb_comm.
      * apply NoDup_snoc; [apply (i_cnodup _ _ _ _ _ _ _ HI)|]. apply mem_not_In. now rewrite (i_clients _ _ _ _ _ _ _ HI).
      * intros x. rewrite lookup_app. cbn [lookup]. pose proof (i_servers _ _ _ _ _ _ _ HI x) as IS.
        destruct (lookup x (servers m)) as [v|].
        -- split; [discriminate|]. intros H. apply orb_false_iff in H. apply IS. tauto.
        -- destruct (Z.eqb_spec c x); cbn [orb]; [split; discriminate|]. exact IS.
      * rewrite map_app. cbn [map fst]. apply NoDup_snoc; [apply (i_skeys _ _ _ _ _ _ _ HI)|]. now apply lookup_None.
      * intros s x H. apply (i_subs _ _ _ _ _ _ _ HI) in H. rewrite H. apply orb_true_r.
      * apply (i_snodup _ _ _ _ _ _ _ HI).
      * apply (i_none _ _ _ _ _ _ _ HI).
      * intros s H G. rewrite QL. apply (i_desc _ _ _ _ _ _ _ HI); auto.
      * intros s x v H G. rewrite lookup_app. destruct (lookup x (servers m)) as [v'|] eqn:LX.
        -- intros E. inversion E; subst. eapply (i_known _ _ _ _ _ _ _ HI); eauto.
        -- cbn [lookup]. destruct (Z.eqb_spec c x); [subst; exfalso; eapply NS; eauto|discriminate].
    + intros s. cbn [subscribers]. rewrite change_refl. cbn [regs]. induction (regs m) as [|e l IH]; cbn [map flat_map edge app]; auto.
    + intros x H1 H2. cbn [begins] in H2. assert (x <> c).
      { intros E. subst. rewrite Z.eqb_refl, CC in H2. discriminate. }
      cbn [due app]. rewrite app_nil_r.
      assert (Z0 : forall l, flat_map (sent_to x) (map (fun e : Z * reg => Available c (num (snd e)) (fst e)) l) = []).
      { induction l; cbn [map flat_map sent_to app]; auto. }
      rewrite Z0. cbn [app]. unfold queue_of. cbn [servers]. rewrite lookup_app. destruct (lookup x (servers m)); auto.
      cbn [lookup]. destruct (Z.eqb_spec c x); [congruence|reflexivity].
    + intros x H. cbn [begins] in H. apply andb_true_iff in H. destruct H as [H _]. apply Z.eqb_eq in H. subst x.
      split.
      * cbn [regs]. induction (regs m) as [|e l IH]; cbn [map flat_map sent_to app]; auto.
      * unfold queue_of. cbn [servers]. rewrite lookup_app, LN. cbn [lookup]. now rewrite Z.eqb_refl.
    + intros x CX. cbn [begins]. destruct (Z.eqb_spec c x) as [->|E].
      * rewrite CC. cbn [negb andb]. unfold offers. cbn [regs].
        assert (Z0 : forall l k, fold_left (tell x) (map (fun e : Z * reg => Available x (num (snd e)) (fst e)) l) k = k ++ map (fun e => (num (snd e), fst e)) l).
        { induction l as [|e l IH]; intros k; cbn [map fold_left tell]; [now rewrite app_nil_r|]. rewrite Z.eqb_refl, IH, <- app_assoc. reflexivity. }
        rewrite Z0. reflexivity.
      * cbn [andb]. unfold offers. cbn [regs].
        assert (Z0 : forall l k, fold_left (tell x) (map (fun e : Z * reg => Available c (num (snd e)) (fst e)) l) k = k).
        { induction l as [|e l IH]; intros k; cbn [map fold_left tell]; auto. apply Z.eqb_neq in E. rewrite E. apply IH. }
        rewrite Z0. reflexivity.
Qed.

Lemma lookup_Some_key : forall {A} x (a : A) l, lookup x l = Some a -> In x (map fst l).
Proof. intros A x a l H. apply in_map_iff. exists (x, a). split; auto. now apply lookup_In. Qed.

Lemma offers_update : forall s r r' l, lookup s l = Some r -> num r' = num r -> NoDup (map fst l) ->
  map (fun e : Z * reg => (num (snd e), fst e)) (update s r' l) = map (fun e => (num (snd e), fst e)) l.
Proof.
  intros s r r' l L E ND. induction l as [|[z b] l IH]; cbn [update map fst snd]; auto. fold (update s r' l).
  cbn [lookup] in L. inversion ND; subst. destruct (Z.eqb_spec z s) as [F|F].
  - inversion L; subst. cbn [fst snd]. rewrite E. f_equal. apply lookup_None in H1. clear - H1.
    induction l as [|[y a] l IH]; cbn [update map fst snd]; auto. fold (update s r' l).
    cbn [lookup] in H1. destruct (y =? s); [discriminate|]. cbn [fst snd]. f_equal. auto.
  - cbn [fst snd]. f_equal. auto.
Qed.

(** *** Subscribe *)
Lemma sub_step : forall h m c s, HInv h m -> connected c h = true ->
  let (m', os) := step m (Subscribe c s true) in StepOK h (Subscribe c s true) m m' os.
Proof.
  intros h m c s [HI HC] CC. cbn [step]. unfold registerSignalSubscriber.
  pose proof (i_regs _ _ _ _ _ _ _ HI s) as IR. cbn beta in IR.
  assert (QD : forall x, described x (Subscribe c s true :: h) = true -> described x h = true).
  { intros x. cbn [described carried existsb]. destruct (subscribers x h); [discriminate|]. now rewrite orb_false_r. }
  assert (QZ : forall x, subscribers x h = [] -> described x (Subscribe c s true :: h) = false).
  { intros x E. cbn [described]. now rewrite E. }
  assert (QL : forall x, latest x (Subscribe c s true :: h) = latest x h).
  { intros x. cbn [latest carried fold_left]. now destruct (registered x h). }
  assert (SAME : (forall x, subscribers x (Subscribe c s true :: h) = subscribers x h) ->
     HInv (Subscribe c s true :: h) m).
  { intros E. split; [|exact HC]. eapply Inv_ext; [exact HI|..]; cbn beta; intros; auto. }
  destruct (lookup s (regs m)) as [r|] eqn:L.
  2:{ assert (EQ : forall x, subscribers x (Subscribe c s true :: h) = subscribers x h).
      { intros x. cbn [subscribers]. destruct (Z.eqb_spec s x) as [->|]; [rewrite IR|]; reflexivity. }
      constructor; auto.
      - intros x. rewrite EQ, change_refl. reflexivity.
      - intros x _ _. cbn [flat_map sent_to app due]. rewrite (i_none _ _ _ _ _ _ _ HI s IR).
        destruct (c =? x); [destruct (mem x [])|]; now rewrite app_nil_r.
      - intros x H. discriminate. }
  destruct IR as (R1 & R2 & R3 & R4). rewrite R2.
  destruct (mem c (subscribers s h)) eqn:MC.
  { assert (EQ : forall x, subscribers x (Subscribe c s true :: h) = subscribers x h).
    { intros x. cbn [subscribers]. destruct (Z.eqb_spec s x) as [<-|]; [rewrite R1, MC|]; reflexivity. }
    constructor; auto.
    - intros x. rewrite EQ, change_refl. reflexivity.
    - intros x _ _. cbn [flat_map sent_to app due]. destruct (Z.eqb_spec c x) as [<-|]; [rewrite MC|]; now rewrite app_nil_r.
    - intros x H. discriminate. }
  pose (r' := {| num := num r; subs := subscribers s h ++ [c]; lastV := lastV r; lastD := lastD r |}).
  change ({| num := num r; subs := subscribers s h ++ [c]; lastV := lastV r; lastD := lastD r |}) with r'.
  assert (SQ : forall x, subscribers x (Subscribe c s true :: h) = if x =? s then subscribers s h ++ [c] else subscribers x h).
  { intros x. cbn [subscribers]. rewrite (Z.eqb_sym s x). destruct (Z.eqb_spec x s) as [->|]; [|reflexivity]. now rewrite R1, MC. }
  assert (MAIN : forall m1, Grown m m1 ->
     (forall v, lookup c (servers m1) = Some v -> described s h = true -> subscribers s h <> [] -> In (number s h) (knows v)) ->
     HInv (Subscribe c s true :: h) (set_regs (update s r' (regs m1)) m1)).
  { intros m1 [] HK. split; [|cbn [set_regs counter added]; congruence].
    constructor; cbn [set_regs regs clients servers]; cbn [registered number connected].
    - intros x. rewrite SQ, QL, g_regs0, lookup_update. destruct (Z.eqb_spec x s) as [->|].
      + rewrite L. cbn [r' subs num lastV lastD]. auto.
      + apply (i_regs _ _ _ _ _ _ _ HI).
    - rewrite g_regs0, keys_update. apply (i_keys _ _ _ _ _ _ _ HI).
    - intros x. rewrite g_clients0. apply (i_clients _ _ _ _ _ _ _ HI).
    - rewrite g_clients0. apply (i_cnodup _ _ _ _ _ _ _ HI).
    - intros x. rewrite lookup_None, g_skeys0, <- lookup_None. apply (i_servers _ _ _ _ _ _ _ HI).
    - rewrite g_skeys0. apply (i_skeys _ _ _ _ _ _ _ HI).
    - intros x y. rewrite SQ. destruct (Z.eqb_spec x s) as [->|]; [|apply (i_subs _ _ _ _ _ _ _ HI)].
      intros H. apply in_app_or in H. destruct H as [H|[<-|[]]]; auto. eapply (i_subs _ _ _ _ _ _ _ HI); eauto.
    - intros x. rewrite SQ. destruct (Z.eqb_spec x s) as [->|]; [|apply (i_snodup _ _ _ _ _ _ _ HI)].
      apply NoDup_snoc; [apply (i_snodup _ _ _ _ _ _ _ HI)|]. now apply mem_not_In.
    - intros x H. rewrite SQ. destruct (Z.eqb_spec x s) as [->|]; [congruence|]. now apply (i_none _ _ _ _ _ _ _ HI).
    - intros x H G. rewrite QL. apply (i_desc _ _ _ _ _ _ _ HI); auto.
    - intros x y v H G LL. rewrite SQ in G. pose proof (QD _ H) as QH.
      assert (OLD : In y (subscribers x h) -> In (number x h) (knows v)).
      { intros O. apply g_knows0 in LL. destruct LL as (v0 & L0 & KN & _). apply KN. eapply (i_known _ _ _ _ _ _ _ HI); eauto. }
      destruct (Z.eqb_spec x s) as [->|]; auto. apply in_app_or in G. destruct G as [G|[<-|[]]]; auto.
      apply HK; auto. intros E. rewrite (QZ s E) in H. discriminate. }
  assert (OFF : forall m1, Grown m m1 -> offers (set_regs (update s r' (regs m1)) m1) = offers m).
  { intros m1 []. unfold offers. cbn [set_regs regs]. rewrite g_regs0. eapply offers_update; eauto. apply (i_keys _ _ _ _ _ _ _ HI). }
  assert (QU : forall x m1, queue_of x (set_regs (update s r' (regs m1)) m1) = queue_of x m1) by reflexivity.
  destruct (subscribers s h) as [|c0 cs] eqn:SS.
  - constructor.
    + apply MAIN; [apply Grown_refl|]. intros v _ _ K. congruence.
    + intros x. rewrite SQ. cbn [app flat_map edge]. rewrite (Z.eqb_sym s x). destruct (Z.eqb_spec x s) as [->|].
      * rewrite SS. reflexivity.
      * now rewrite change_refl.
    + intros x _ _. rewrite QU. cbn [app flat_map sent_to due]. rewrite SS. destruct (c =? x); [destruct (mem x [])|]; now rewrite app_nil_r.
    + intros x H. discriminate.
    + intros x _. cbn [begins andb app fold_left tell]. symmetry. apply OFF. apply Grown_refl.
  - assert (EDGE : forall x os, (forall y, flat_map (edge y) os = []) ->
        flat_map (edge x) (os ++ []) = change (subscribers x h) (subscribers x (Subscribe c s true :: h))).
    { intros x os E. rewrite app_nil_r, E, SQ. destruct (Z.eqb_spec x s) as [->|]; [|now rewrite change_refl]. now rewrite SS. }
    destruct (lastV r) as [v|] eqn:LV.
    + assert (LS : exists w, lookup c (servers m) = Some w).
      { destruct (lookup c (servers m)) eqn:E; eauto. apply (i_servers _ _ _ _ _ _ _ HI) in E. congruence. }
      destruct LS as (w & LS).
      destruct (send_one_ok c (num r) (PDesc (Some v) (lastD r)) m w LS) as (m1 & o & E1 & GR & QQ & AA & TT & ZZ & KK); [discriminate|].
      rewrite E1. constructor.
      * apply MAIN; auto. intros w' LW _ _. rewrite <- R3. apply KK; auto.
      * intros x. apply EDGE. auto.
      * intros x _ _. rewrite app_nil_r, QU, QQ. f_equal. cbn [due]. rewrite (Z.eqb_sym x c). destruct (Z.eqb_spec c x) as [<-|]; [|reflexivity].
        rewrite SS, MC, <- R4, R3. reflexivity.
      * intros x H. discriminate.
      * intros x _. cbn [begins andb]. rewrite app_nil_r. rewrite tell_quiet by auto. symmetry. apply OFF; auto.
    + constructor.
      * apply MAIN; [apply Grown_refl|]. intros w _ DS _. pose proof (i_desc _ _ _ _ _ _ _ HI s DS R1) as N. cbn beta in N.
        rewrite <- R4 in N. cbn [fst] in N. congruence.
      * intros x. apply (EDGE x []). auto.
      * intros x _ _. rewrite QU. cbn [app flat_map due]. destruct (Z.eqb_spec c x) as [<-|]; [|now rewrite app_nil_r].
        rewrite SS, MC, <- R4. now rewrite app_nil_r.
      * intros x H. discriminate.
      * intros x _. cbn [begins andb app fold_left]. symmetry. apply OFF. apply Grown_refl.
Qed.

(** *** Unsubscribe and Disconnect *)
Lemma removeSubscriber_eq : forall c r, subs (fst (removeSubscriber c r)) = del c (subs r)
  /\ num (fst (removeSubscriber c r)) = num r /\ lastV (fst (removeSubscriber c r)) = lastV r /\ lastD (fst (removeSubscriber c r)) = lastD r
  /\ (if snd (removeSubscriber c r) then [false] else []) = change (subs r) (del c (subs r)).
Proof.
  intros c r. unfold removeSubscriber. destruct (mem c (subs r)) eqn:M; cbn [fst snd subs num lastV lastD].
  - repeat split. apply mem_In in M. destruct (subs r) as [|x l]; [destruct M|]. destruct (del c (x :: l)); reflexivity.
  - apply mem_not_In in M. rewrite del_absent by auto. rewrite change_refl. auto.
Qed.

Lemma unsub_step : forall h m c s, HInv h m -> let (m', os) := step m (Unsubscribe c s) in StepOK h (Unsubscribe c s) m m' os.
Proof.
  intros h m c s [HI HC]. cbn [step]. unfold removeSignalSubscriber.
  pose proof (i_regs _ _ _ _ _ _ _ HI s) as IR. cbn beta in IR.
  assert (QD : forall x, described x (Unsubscribe c s :: h) = true -> described x h = true).
  { intros x. cbn [described carried existsb]. destruct (subscribers x h); [discriminate|]. now rewrite orb_false_r. }
  assert (QL : forall x, latest x (Unsubscribe c s :: h) = latest x h).
  { intros x. cbn [latest carried fold_left]. now destruct (registered x h). }
  assert (SQ : forall x, subscribers x (Unsubscribe c s :: h) = if x =? s then del c (subscribers s h) else subscribers x h).
  { intros x. cbn [subscribers]. rewrite (Z.eqb_sym s x). destruct (Z.eqb_spec x s) as [->|]; reflexivity. }
  destruct (lookup s (regs m)) as [r|] eqn:L.
  - destruct IR as (R1 & R2 & R3 & R4). destruct (removeSubscriber_eq c r) as (E1 & E2 & E3 & E4 & E5).
    destruct (removeSubscriber c r) as [r' last]. cbn [fst snd] in *. constructor.
    + split; [|exact HC]. constructor; cbn [set_regs regs clients servers]; cbn [registered number connected].
      * intros x. rewrite SQ, QL, lookup_update. destruct (Z.eqb_spec x s) as [->|].
        -- rewrite L. rewrite E1, E2, E3, E4, R2. auto.
        -- apply (i_regs _ _ _ _ _ _ _ HI).
      * rewrite keys_update. apply (i_keys _ _ _ _ _ _ _ HI).
      * apply (i_clients _ _ _ _ _ _ _ HI).
      * apply (i_cnodup _ _ _ _ _ _ _ HI).
      * apply (i_servers _ _ _ _ _ _ _ HI).
      * apply (i_skeys _ _ _ _ _ _ _ HI).
      * intros x y. rewrite SQ. destruct (Z.eqb_spec x s) as [->|]; [|apply (i_subs _ _ _ _ _ _ _ HI)].
        intros H. apply In_del in H. eapply (i_subs _ _ _ _ _ _ _ HI). apply H.
      * intros x. rewrite SQ. destruct (Z.eqb_spec x s) as [->|]; [|apply (i_snodup _ _ _ _ _ _ _ HI)].
        apply NoDup_filter. apply (i_snodup _ _ _ _ _ _ _ HI).
      * intros x H. rewrite SQ. destruct (Z.eqb_spec x s) as [->|]; [congruence|]. now apply (i_none _ _ _ _ _ _ _ HI).
      * intros x H G. rewrite QL. apply (i_desc _ _ _ _ _ _ _ HI); auto.
      * intros x y v H G LL. rewrite SQ in G. pose proof (QD _ H) as QH. eapply (i_known _ _ _ _ _ _ _ HI); eauto.
        destruct (Z.eqb_spec x s) as [->|]; auto. apply In_del in G. tauto.
    + intros x. rewrite SQ. rewrite R2 in E5. destruct (Z.eqb_spec x s) as [->|E].
      * rewrite <- E5. destruct last; cbn [flat_map edge app]; auto. now rewrite Z.eqb_refl.
      * rewrite change_refl. destruct last; cbn [flat_map edge app]; auto. destruct (Z.eqb_spec s x); [congruence|reflexivity].
    + intros x _ _. cbn [due]. rewrite app_nil_r. destruct last; reflexivity.
    + intros x H. discriminate.
    + intros x _. cbn [begins andb]. unfold offers. cbn [set_regs regs].
      rewrite (offers_update s r r') by (auto; apply (i_keys _ _ _ _ _ _ _ HI)). destruct last; reflexivity.
  - assert (EQ : forall x, subscribers x (Unsubscribe c s :: h) = subscribers x h).
    { intros x. rewrite SQ. destruct (Z.eqb_spec x s) as [->|]; auto. now rewrite (i_none _ _ _ _ _ _ _ HI s IR). }
    constructor; auto.
    + split; [|exact HC]. eapply Inv_ext; [exact HI|..]; cbn beta; intros; auto. cbn [described]. now rewrite H.
    + intros x. rewrite EQ, change_refl. reflexivity.
    + intros x _ _. cbn [flat_map sent_to app due]. now rewrite app_nil_r.
    + intros x H. discriminate.
Qed.

Lemma filter_keys_flat : forall s (f : Z * reg -> bool) l, NoDup (map fst l) ->
  flat_map (edge s) (map Stopped (map fst (filter f l))) =
  match lookup s l with Some r => if f (s, r) then [false] else [] | None => [] end.
Proof.
  induction l as [|[z b] l IH]; intros N; cbn [filter map flat_map lookup fst]; auto. cbn [map fst] in N. inversion N; subst.
  destruct (Z.eqb_spec z s) as [->|E].
  - assert (Q : flat_map (edge s) (map Stopped (map fst (filter f l))) = []).
    { rewrite IH by auto. apply lookup_None in H1. now rewrite H1. }
    destruct (f (s, b)); cbn [map flat_map fst edge]; rewrite ?Q, ?Z.eqb_refl; reflexivity.
  - destruct (f (z, b)); cbn [map flat_map fst edge]; [apply Z.eqb_neq in E; rewrite E; cbn [app]|]; apply IH; auto.
Qed.

Lemma disc_step : forall h m c, HInv h m -> let (m', os) := step m (Disconnect c) in StepOK h (Disconnect c) m m' os.
Proof.
  intros h m c [HI HC]. cbn [step]. unfold unregisterClient. rewrite (i_clients _ _ _ _ _ _ _ HI).
  assert (QD : forall x, described x (Disconnect c :: h) = true -> described x h = true).
  { intros x. cbn [described carried existsb]. destruct (subscribers x h); [discriminate|]. now rewrite orb_false_r. }
  assert (QL : forall x, latest x (Disconnect c :: h) = latest x h).
  { intros x. cbn [latest carried fold_left]. now destruct (registered x h). }
  destruct (connected c h) eqn:CC.
  - set (f := fun (_ : Z) r => fst (removeSubscriber c r)).
    change (map (fun e : Z * reg => (fst e, fst (removeSubscriber c (snd e)))) (regs m)) with (map (fun e : Z * reg => (fst e, f (fst e) (snd e))) (regs m)).
    constructor.
    + split; [|exact HC]. constructor; cbn [set_regs regs clients servers]; cbn [registered number connected subscribers].
      * intros x. rewrite QL, lookup_map. pose proof (i_regs _ _ _ _ _ _ _ HI x) as IR. cbn beta in IR.
        destruct (lookup x (regs m)) as [r|]; cbn [option_map]; auto. unfold f.
        destruct IR as (R1 & R2 & R3 & R4). destruct (removeSubscriber_eq c r) as (E1 & E2 & E3 & E4 & E5).
        rewrite E1, E2, E3, E4, R2. auto.
      * rewrite map_map. cbn [fst]. apply (i_keys _ _ _ _ _ _ _ HI).
      * intros x. rewrite mem_del, (i_clients _ _ _ _ _ _ _ HI). reflexivity.
      * apply NoDup_filter. apply (i_cnodup _ _ _ _ _ _ _ HI).
      * intros x. rewrite lookup_erase, (Z.eqb_sym x c). destruct (c =? x); cbn [negb andb]; [tauto|]. apply (i_servers _ _ _ _ _ _ _ HI).
      * apply NoDup_keys_filter. apply (i_skeys _ _ _ _ _ _ _ HI).
      * intros x y H. apply In_del in H. destruct H as [H1 H2]. apply (i_subs _ _ _ _ _ _ _ HI) in H1.
        destruct (Z.eqb_spec c y); [congruence|auto].
      * intros x. apply NoDup_filter. apply (i_snodup _ _ _ _ _ _ _ HI).
      * intros x H. rewrite (i_none _ _ _ _ _ _ _ HI x H). reflexivity.
      * intros x H G. rewrite QL. apply (i_desc _ _ _ _ _ _ _ HI); auto.
      * intros x y v H G. apply In_del in G. destruct G as [G1 G2]. rewrite lookup_erase. destruct (Z.eqb_spec y c); [congruence|].
        eapply (i_known _ _ _ _ _ _ _ HI); eauto.
    + intros s. rewrite filter_keys_flat by apply (i_keys _ _ _ _ _ _ _ HI). cbn [subscribers snd].
      pose proof (i_regs _ _ _ _ _ _ _ HI s) as IR. cbn beta in IR. destruct (lookup s (regs m)) as [r|].
      * destruct IR as (R1 & R2 & R3 & R4). destruct (removeSubscriber_eq c r) as (E1 & E2 & E3 & E4 & E5). now rewrite E5, R2.
      * rewrite (i_none _ _ _ _ _ _ _ HI s IR). reflexivity.
    + intros x CX _. cbn [connected] in CX. apply andb_true_iff in CX. destruct CX as [CX1 CX2].
      assert (Z0 : forall l, flat_map (sent_to x) (map Stopped l) = []) by (induction l; cbn [map flat_map sent_to app]; auto).
      rewrite Z0. cbn [due app]. rewrite app_nil_r. unfold queue_of. cbn [servers]. rewrite lookup_erase.
      rewrite (Z.eqb_sym x c). destruct (c =? x); [discriminate|reflexivity].
    + intros x H. discriminate.
    + intros x _. cbn [begins andb]. rewrite tell_quiet.
      * unfold offers. cbn [regs]. rewrite map_map. apply map_ext. intros [s r]. cbn [fst snd]. unfold f.
        destruct (removeSubscriber_eq c r) as (E1 & E2 & _). now rewrite E2.
      * intros y n s. split; intros H; apply in_map_iff in H; destruct H as (? & H & _); discriminate.
  - assert (EQ : forall x, subscribers x (Disconnect c :: h) = subscribers x h).
    { intros x. cbn [subscribers]. apply del_absent. intros K. apply (i_subs _ _ _ _ _ _ _ HI) in K. congruence. }
    cbn [map]. constructor; auto.
    + split; [|exact HC]. eapply Inv_ext; [exact HI|..]; cbn beta; intros; auto.
      * cbn [described]. now rewrite H.
      * cbn [connected]. destruct (Z.eqb_spec c c0); [subst; now rewrite CC|reflexivity].
    + intros x. rewrite EQ, change_refl. reflexivity.
    + intros x _ _. cbn [flat_map app due]. now rewrite app_nil_r.
    + intros x H. discriminate.
Qed.

(** *** Packets *)
Lemma desc_first_cons : forall seen p r, desc_first seen (p :: r) = true ->
  (is_data p = true -> seen = true) /\ desc_first (seen || is_desc p) r = true.
Proof.
  intros seen p r H. cbn [desc_first] in H. apply andb_true_iff in H. destruct H as [H1 H2]. split; auto.
  intros E. rewrite E in H1. cbn in H1. auto.
Qed.

Lemma send_step : forall h m s p, HInv h m -> polite (Send s p) h ->
  let (m', os) := step m (Send s p) in StepOK h (Send s p) m m' os /\ (forall c, In c (subscribers s h) -> queue_of c m' = []).
Proof.
  intros h m s p [HI HC] HP. cbn [step polite carried] in *. rewrite Z.eqb_refl in HP.
  destruct (registered s h) eqn:RS.
  - destruct (send_ok _ _ _ _ _ _ m s p HI RS) as (m' & o & E & CT & CF & QQ & HI' & CL & OF & AA & TT & ZZ).
    { destruct HP as [HP|HP]; auto. right. intros D. now apply (proj1 (desc_first_cons _ _ _ HP)). }
    rewrite E. split; [|exact ZZ]. constructor.
    + split; [|cbn [added]; congruence]. eapply Inv_ext; [exact HI'|..]; cbn beta; intros; auto.
      * cbn [latest carried]. rewrite H. unfold upd. rewrite (Z.eqb_sym s0 s). destruct (Z.eqb_spec s s0) as [->|]; reflexivity.
      * cbn [described carried] in H0. unfold upd. rewrite (Z.eqb_sym s0 s). destruct (subscribers s0 h) eqn:SX; [discriminate|].
        destruct (Z.eqb_spec s s0) as [->|]; cbn [existsb] in H0; rewrite ?orb_false_r in H0; auto.
      * cbn [described]. now rewrite H.
    + intros x. rewrite app_nil_r, TT. cbn [subscribers]. now rewrite change_refl.
    + intros x _ _. rewrite app_nil_r, QQ. reflexivity.
    + intros x H. discriminate.
    + intros x _. cbn [begins andb]. rewrite app_nil_r, tell_quiet by auto. symmetry. exact OF.
  - unfold sendPacketToSubscribers. assert (L : lookup s (regs m) = None) by (apply (registered_lookup h m s); [split|]; auto).
    rewrite L. pose proof (i_none _ _ _ _ _ _ _ HI s RS) as SN. cbn beta in SN. cbn [app]. split.
    2:{ intros c K. rewrite SN in K. destruct K. }
    constructor.
    + split; [|exact HC]. eapply Inv_ext; [exact HI|..]; cbn beta; intros; auto.
      * cbn [latest carried]. rewrite H. destruct (Z.eqb_spec s s0) as [->|]; [congruence|reflexivity].
      * cbn [described carried] in H0. destruct (Z.eqb_spec s s0) as [->|]; [congruence|].
        destruct (subscribers s0 h); [discriminate|]. cbn [existsb] in H0. now rewrite orb_false_r in H0.
      * cbn [described]. now rewrite H.
    + intros x. cbn [flat_map edge app subscribers]. now rewrite change_refl.
    + intros x _ _. cbn [flat_map sent_to app due]. unfold due1. cbn [fst snd]. rewrite SN. cbn [mem existsb]. now rewrite app_nil_r.
    + intros x H. discriminate.
    + intros x _. reflexivity.
Qed.

Definition carry (l : list (Z * packet)) (s : Z) : list packet := map snd (filter (fun e => fst e =? s) l).

Lemma process_all : forall l R S N K D C m, Inv R S N K D C m ->
  (forall s, In s (map fst l) -> R s = true /\ (S s = [] \/ desc_first (D s) (carry l s) = true)) ->
  exists m', processPackets l m = (m', true) /\ counter m' = counter m
    /\ (forall c, queue_of c m' = queue_of c m ++ flat_map (fun e => if mem c (S (fst e)) then [(N (fst e), snd e)] else []) l)
    /\ Inv R S N (fun s => fold_left announce (carry l s) (K s)) (fun s => D s || existsb is_desc (carry l s)) C m'
    /\ offers m' = offers m.
Proof.
  induction l as [|[s p] l IH]; intros R S N K D C m HI H; cbn [processPackets].
  - exists m. split; [auto|]. split; [auto|]. split; [intros; cbn; now rewrite app_nil_r|]. split; [|reflexivity].
    destruct HI. constructor; auto; cbn [carry filter map fold_left existsb fst]; intros.
    + rewrite orb_false_r in H0. auto.
    + rewrite orb_false_r in H0. eauto.
  - assert (CS : forall x, carry ((s, p) :: l) x = if s =? x then p :: carry l x else carry l x).
    { intros x. unfold carry. cbn [filter fst]. destruct (s =? x); reflexivity. }
    destruct (H s (or_introl eq_refl)) as [RS HD]. rewrite CS, Z.eqb_refl in HD.
    destruct (process_ok R S N K D C m s p HI RS) as (m1 & E & CT & CF & QQ & HI1 & CL & OF).
    { destruct HD as [HD|HD]; auto. right. intros X. now apply (proj1 (desc_first_cons _ _ _ HD)). }
    rewrite E. destruct (IH _ _ _ _ _ _ m1 HI1) as (m' & E' & CT' & QQ' & HI' & OF').
    { intros x X. destruct (H x (or_intror X)) as [RX HX]. split; auto. rewrite CS in HX. unfold upd. rewrite (Z.eqb_sym x s).
      destruct (Z.eqb_spec s x) as [->|]; auto. destruct HX as [HX|HX]; auto. right. now apply desc_first_cons in HX. }
    exists m'. split; [auto|]. split; [congruence|]. split; [|split; [|unfold offers in *; congruence]].
    + intros c. rewrite QQ', QQ, <- app_assoc. reflexivity.
    + destruct HI'. constructor; auto; cbn beta.
      * intros x. pose proof (i_regs0 x) as IR. destruct (lookup x (regs m')); auto.
        destruct IR as (A & B & F & G). split; [auto|]. split; [auto|]. split; [auto|]. rewrite G. cbn beta. rewrite CS.
        unfold upd. rewrite (Z.eqb_sym x s). destruct (Z.eqb_spec s x) as [->|]; reflexivity.
      * intros x X Y. specialize (i_desc0 x). cbn beta in i_desc0. rewrite CS in *. unfold upd in i_desc0.
        rewrite (Z.eqb_sym x s) in i_desc0. destruct (Z.eqb_spec s x) as [->|]; auto.
        cbn [fold_left existsb] in *. apply i_desc0; auto. rewrite <- X, orb_assoc. reflexivity.
      * intros x c v X Y Z0. apply (i_known0 x c v); auto. cbn beta. rewrite CS in X. unfold upd.
        rewrite (Z.eqb_sym x s). destruct (Z.eqb_spec s x) as [->|]; auto.
        cbn [existsb] in X. rewrite <- X, orb_assoc. reflexivity.
Qed.

Lemma process_step : forall h m l, HInv h m -> polite (Process l) h ->
  let (m', os) := step m (Process l) in StepOK h (Process l) m m' os.
Proof.
  intros h m l [HI HC] HP. cbn [step polite] in *.
  destruct (process_all l _ _ _ _ _ _ m HI HP) as (m' & E & CT & QQ & HI' & OF). rewrite E. constructor.
  - split; [|cbn [added]; congruence]. eapply Inv_ext; [exact HI'|..]; cbn beta; intros; auto.
    + cbn [latest carried]. now rewrite H.
    + cbn [described carried] in H0. destruct (subscribers s h); [discriminate|]. exact H0.
    + cbn [described]. now rewrite H.
  - intros x. cbn [flat_map subscribers]. now rewrite change_refl.
  - intros x _ _. cbn [flat_map app]. rewrite QQ. reflexivity.
  - intros x H. discriminate.
  - intros x _. cbn [begins andb fold_left]. now symmetry.
Qed.

(** *** Drain *)
Lemma drain_step : forall h m, HInv h m ->
  let (m', os) := step m Drain in StepOK h Drain m m' os /\ forall c, queue_of c m' = [].
Proof.
  intros h m [HI HC]. cbn [step]. unfold drain.
  assert (ALL : forall e, In e (servers m) -> mem (fst e) (clients m) = true).
  { intros [c v] H. cbn [fst]. rewrite (i_clients _ _ _ _ _ _ _ HI). destruct (connected c h) eqn:E; auto.
    apply (i_servers _ _ _ _ _ _ _ HI) in E. apply In_lookup in H; [congruence|]. apply (i_skeys _ _ _ _ _ _ _ HI). }
  assert (SV : map (fun e : Z * psrv => if mem (fst e) (clients m) then (fst e, emptied (snd e)) else e) (servers m)
             = map (fun e => (fst e, (fun _ v => emptied v) (fst e) (snd e))) (servers m)).
  { apply map_ext_in. intros e H. now rewrite ALL. }
  assert (OUTS : flat_map (fun e : Z * psrv => if mem (fst e) (clients m) then messages (fst e) (snd e) else []) (servers m)
             = flat_map (fun e => messages (fst e) (snd e)) (servers m)).
  { apply flat_map_ext_in_. intros e H. now rewrite ALL. }
  rewrite SV, OUTS.
  assert (QE : forall c, queue_of c (set_servers (map (fun e : Z * psrv => (fst e, (fun _ v => emptied v) (fst e) (snd e))) (servers m)) m) = []).
  { intros c. unfold queue_of. cbn [set_servers servers]. rewrite (lookup_map (fun _ v => emptied v)). destruct (lookup c (servers m)); reflexivity. }
  split; [|exact QE]. constructor.
  - split; [|exact HC].
    assert (QD : forall x, described x (Drain :: h) = true -> described x h = true).
    { intros x. cbn [described carried existsb]. destruct (subscribers x h); [discriminate|]. now rewrite orb_false_r. }
    assert (QL : forall x, latest x (Drain :: h) = latest x h).
    { intros x. cbn [latest carried fold_left]. now destruct (registered x h). }
    destruct HI. constructor; cbn [set_servers regs clients servers]; cbn [registered number connected subscribers]; auto.
    + intros s. rewrite QL. apply i_regs0.
    + intros c. rewrite (lookup_map (fun _ v => emptied v)). rewrite <- i_servers0. destruct (lookup c (servers m)); cbn [option_map]; split; congruence.
    + rewrite map_map. cbn [fst]. auto.
    + intros s H G. rewrite QL. auto.
    + intros s c v H G. rewrite (lookup_map (fun _ v => emptied v)). destruct (lookup c (servers m)) eqn:LC; cbn [option_map]; [|discriminate].
      intros E. inversion E; subst. cbn [emptied knows]. eauto.
  - intros s. cbn [subscribers]. rewrite change_refl, flat_map_nested. apply flat_map_nil_. intros. apply edge_messages.
  - intros c CC _. rewrite QE. cbn [due]. rewrite !app_nil_r, flat_map_nested.
    rewrite (flat_map_ext_in_ _ (fun e : Z * psrv => if fst e =? c then queue (snd e) else [])) by (intros; apply sent_messages).
    unfold queue_of. pose proof (i_skeys _ _ _ _ _ _ _ HI) as SK. clear - SK.
    induction (servers m) as [|[z v] l IH]; cbn [flat_map lookup fst snd]; auto. cbn [map fst] in SK. inversion SK; subst.
    rewrite IH by auto. destruct (Z.eqb_spec z c) as [->|]; [|reflexivity]. apply lookup_None in H1. rewrite H1. apply app_nil_r.
  - intros c H. discriminate.
  - intros c _. cbn [begins andb]. rewrite tell_quiet; [reflexivity|].
    intros x n s. split; intros H; apply in_flat_map in H; destruct H as (e & _ & H); unfold messages in H;
      apply in_map_iff in H; destruct H as (? & H & _); discriminate.
Qed.

(** ** Every history *)
Lemma HInv_init : forall a b, HInv [] (mgr_init a b).
Proof.
  intros. split; [|reflexivity]. constructor; cbn; intros; auto; try constructor; try tauto; try discriminate.
Qed.

Lemma step_ok : forall h m o, HInv h m -> polite o h -> let (m', os) := step m o in StepOK h o m m' os.
Proof.
  intros h m o HI HP. destruct o.
  - now apply add_step.
  - now apply remove_step.
  - now apply init_step.
  - destruct HP as [HP1 ->]. now apply sub_step.
  - now apply unsub_step.
  - now apply disc_step.
  - pose proof (send_step h m s p HI HP) as H. destruct (step m (Send s p)). tauto.
  - now apply process_step.
  - pose proof (drain_step h m HI) as H. destruct (step m Drain). tauto.
Qed.

Lemma after_inv : forall a b h, valid h -> HInv h (after a b h).
Proof.
  induction h as [|o h IH]; intros HV; cbn [after]; [apply HInv_init|]. destruct HV as [HP HV].
  pose proof (step_ok h _ o (IH HV) HP) as H. destruct (step (after a b h) o) as [m' os]. apply (k_inv _ _ _ _ _ H).
Qed.

Lemma after_step : forall a b h o, valid (o :: h) -> StepOK h o (after a b h) (after a b (o :: h)) (says a b h o).
Proof.
  intros a b h o [HP HV]. pose proof (step_ok h _ o (after_inv a b h HV) HP) as H. unfold says. cbn [after].
  destruct (step (after a b h) o) as [m' os]. exact H.
Qed.
