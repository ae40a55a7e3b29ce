(** Proofs for C24. *)
From Verif Require Import Base Graph_Model Graph_Spec.
Local Open Scope nat_scope.

Lemma mem_In : forall x l, mem x l = true <-> In x l.
Proof.
  intros x l. unfold mem. rewrite existsb_exists. split.
  - intros (y & I & E). apply Nat.eqb_eq in E. now subst.
  - intros I. exists x. split; auto. apply Nat.eqb_refl.
Qed.
Lemma mem_not : forall x l, mem x l = false <-> ~ In x l.
Proof. intros x l. rewrite <- mem_In. destruct (mem x l); split; congruence. Qed.

Lemma outputs_In : forall g f s, In s (outputs g f) <-> In (f, s) (outs g).
Proof.
  intros g f s. unfold outputs. rewrite in_map_iff. split.
  - intros ([a b] & E & I). apply filter_In in I. destruct I as [I Q]. cbn [fst snd] in *. apply Nat.eqb_eq in Q. now subst.
  - intros I. exists (f, s). split; auto. apply filter_In. split; auto. cbn [fst]. apply Nat.eqb_refl.
Qed.
Lemma ports_In : forall g s p, In p (ports_of g s) <-> In (p, s) (conns g).
Proof.
  intros g s p. unfold ports_of. rewrite in_map_iff. split.
  - intros ([a b] & E & I). apply filter_In in I. destruct I as [I Q]. cbn [fst snd] in *. apply Nat.eqb_eq in Q. now subst.
  - intros I. exists (p, s). split; auto. apply filter_In. split; auto. cbn [snd]. apply Nat.eqb_refl.
Qed.

(** ** The search *)
Section Search.
Variable g : graph.
Variable t : nat.

(** b = false: everything newly visited has no output t and all its successors are visited *)
Definition grew (V V' : list nat) : Prop :=
  incl V V' /\ forall x, In x V' -> ~ In x V -> ~ In (x, t) (outs g) /\ forall y, feeds g x y -> In y V'.
Lemma grew_refl : forall V, grew V V.
Proof. intros V. split; [intros x; auto|]. intros x A B. contradiction. Qed.
Lemma grew_trans : forall A B C, grew A B -> grew B C -> grew A C.
Proof.
  intros A B C [I1 G1] [I2 G2]. split; [intros x H; auto|]. intros x IC NA. destruct (in_dec Nat.eq_dec x B) as [IB|NB].
  - destruct (G1 x IB NA) as [H1 H2]. split; auto.
  - apply G2; auto.
Qed.

(** what a recursive call guarantees *)
Definition good (rec : option nat -> list nat -> option (bool * list nat)) : Prop := forall l V b V', rec l V = Some (b, V') ->
  (b = true -> exists f f', l = Some f /\ (f = f' \/ flows g f f') /\ In (f', t) (outs g))
  /\ (b = false -> grew V V' /\ forall f, l = Some f -> In f V').

Lemma ports_good : forall rec, good rec -> forall ps V b V', over_ports rec g ps V = Some (b, V') ->
  (b = true -> exists p f f', In p ps /\ listener g p = Some f /\ (f = f' \/ flows g f f') /\ In (f', t) (outs g))
  /\ (b = false -> grew V V' /\ forall p f, In p ps -> listener g p = Some f -> In f V').
Proof.
  intros rec G. induction ps as [|p ps IH]; intros V b V' H; cbn [over_ports] in H.
  - inversion H; subst. split; [discriminate|]. intros _. split; [apply grew_refl|]. intros p f [].
  - destruct (rec (listener g p) V) as [[[|] v]|] eqn:E; [| |discriminate].
    + inversion H; subst. split; [|discriminate]. intros _. destruct (proj1 (G _ _ _ _ E) eq_refl) as (f & f' & L & R & O). exists p, f, f'. split; [now left|auto].
    + destruct (IH _ _ _ H) as [IT IF]. destruct (proj2 (G _ _ _ _ E) eq_refl) as [G1 L1]. split.
      * intros B. destruct (IT B) as (q & f & f' & Q & R). exists q, f, f'. split; [now right|auto].
      * intros B. destruct (IF B) as [G2 L2]. split; [eapply grew_trans; eauto|]. intros q f [<-|Q] L; [|eauto]. destruct G2 as [I2 _]. auto.
Qed.

Lemma signals_good : forall rec, good rec -> forall ss V b V', over_signals rec g t ss V = Some (b, V') ->
  (b = true -> In t ss \/ exists s p f f', In s ss /\ In (p, s) (conns g) /\ listener g p = Some f /\ (f = f' \/ flows g f f') /\ In (f', t) (outs g))
  /\ (b = false -> grew V V' /\ ~ In t ss /\ forall s p f, In s ss -> In (p, s) (conns g) -> listener g p = Some f -> In f V').
Proof.
  intros rec G. induction ss as [|s ss IH]; intros V b V' H; cbn [over_signals] in H.
  - inversion H; subst. split; [discriminate|]. intros _. split; [apply grew_refl|]. split; [intros []|]. intros s p f [].
  - destruct (Nat.eqb_spec s t) as [->|NE].
    + inversion H; subst. split; [|discriminate]. intros _. left. now left.
    + destruct (over_ports rec g (ports_of g s) V) as [[[|] v]|] eqn:E; [| |discriminate].
      * inversion H; subst. split; [|discriminate]. intros _. destruct (proj1 (ports_good rec G _ _ _ _ E) eq_refl) as (p & f & f' & P & R). right. exists s, p, f, f'.
        split; [now left|]. split; [now apply ports_In|auto].
      * destruct (IH _ _ _ H) as [IT IF]. destruct (proj2 (ports_good rec G _ _ _ _ E) eq_refl) as [G1 L1]. split.
        -- intros B. destruct (IT B) as [T|(s' & p & f & f' & S & R)]; [left; now right|]. right. exists s', p, f, f'. split; [now right|auto].
        -- intros B. destruct (IF B) as (G2 & NT & L2). split; [eapply grew_trans; eauto|]. split; [intros [Q|Q]; auto|].
           intros s' p f [<-|S] C L; [|eauto]. destruct G2 as [I2 _]. apply I2. eapply L1; [apply ports_In; eauto|auto].
Qed.

Lemma search_good : forall d, good (checkCyclicReferenceRecursive d g t).
Proof.
  induction d as [|d IH]; intros l V b V' H; cbn [checkCyclicReferenceRecursive] in H; [discriminate|]. destruct l as [f|].
  - destruct (mem f V) eqn:M.
    + inversion H; subst. split; [discriminate|]. intros _. split; [apply grew_refl|]. intros f' E. inversion E; subst. now apply mem_In.
    + apply mem_not in M. destruct (signals_good _ IH _ _ _ _ H) as [ST SF]. split.
      * intros B. destruct (ST B) as [T|(s & p & f1 & f' & S & C & L & R & O)].
        -- exists f, f. split; auto. split; auto. now apply outputs_In.
        -- exists f, f'. split; auto. split; auto. right. assert (FE : feeds g f f1) by (exists s, p; split; [now apply outputs_In|auto]).
           destruct R as [<-|R]; [now apply one|]. eapply more; eauto.
      * intros B. destruct (SF B) as ([I G2] & NT & L). split.
        -- split; [intros x X; apply I; now right|]. intros x X NX. destruct (Nat.eq_dec x f) as [->|NE].
           ++ split; [now rewrite <- outputs_In|]. intros y (s & p & O & C & LI). eapply L; [apply outputs_In; eauto|eauto|auto].
           ++ apply G2; auto. intros [E|E]; auto.
        -- intros f' E. inversion E; subst. apply I. now left.
  - inversion H; subst. split; [discriminate|]. intros _. split; [apply grew_refl|]. discriminate.
Qed.

Lemma search_exact : forall d f b V, checkCyclicReferenceRecursive d g t (Some f) [] = Some (b, V) ->
  (b = true <-> exists f', (f = f' \/ flows g f f') /\ In (f', t) (outs g)).
Proof.
  intros d f b V H. destruct (search_good d _ _ _ _ H) as [T F]. split.
  - intros B. destruct (T B) as (f0 & f' & E & R). inversion E; subst. eauto.
  - intros (f' & R & O). destruct b; auto. exfalso. destruct (F eq_refl) as [[_ G] L]. specialize (L f eq_refl).
    assert (IV : In f' V). { destruct R as [<-|R]; auto. clear O T F H. induction R as [f f' FE|f f1 f' FE R IH]; [eapply G; eauto|]. apply IH. eapply G; eauto. }
    now apply (proj1 (G f' IV (fun x => x))).
Qed.

(** the depth needed *)
Definition left_over (V : list nat) : nat := length (filter (fun f => negb (mem f V)) (blocks g)).
Lemma left_over_incl : forall V V', incl V V' -> left_over V' <= left_over V.
Proof.
  intros V V' I. unfold left_over. induction (blocks g) as [|f r IH]; cbn [filter]; auto.
  destruct (mem f V) eqn:M; cbn [negb].
  - apply mem_In in M. apply I in M. apply mem_In in M. rewrite M. cbn [negb]. auto.
  - destruct (mem f V'); cbn [negb length]; lia.
Qed.
Lemma left_over_cons : forall f V, In f (blocks g) -> ~ In f V -> left_over (f :: V) < left_over V.
Proof.
  intros f V I N. unfold left_over. induction (blocks g) as [|x r IH]; [destruct I|]. cbn [filter].
  assert (C : forall y, mem y (f :: V) = (y =? f) || mem y V) by reflexivity.
  assert (LE : length (filter (fun y => negb (mem y (f :: V))) r) <= length (filter (fun y => negb (mem y V)) r)).
  { clear - C. induction r as [|y r IHr]; cbn [filter]; auto. rewrite C. destruct (y =? f), (mem y V); cbn [orb negb length]; lia. }
  rewrite C. destruct (Nat.eqb_spec x f) as [->|NE]; cbn [orb negb].
  - apply mem_not in N. rewrite N. cbn [negb length]. lia.
  - destruct I as [I|I]; [congruence|]. specialize (IH I). destruct (mem x V); cbn [negb length]; lia.
Qed.

Hypothesis owned : forall f s, In (f, s) (outs g) -> In f (blocks g).

Lemma grows : forall d, (forall l V b V', checkCyclicReferenceRecursive d g t l V = Some (b, V') -> incl V V').
Proof.
  assert (PG : forall rec, (forall l V b V', rec l V = Some (b, V') -> incl V V') -> forall ps V b V', over_ports rec g ps V = Some (b, V') -> incl V V').
  { intros rec R. induction ps as [|p ps IH]; intros V b V' H; cbn [over_ports] in H; [inversion H; subst; intros x; auto|].
    destruct (rec (listener g p) V) as [[[|] v]|] eqn:E; [| |discriminate]; apply R in E; [inversion H; now subst|]. apply IH in H. intros x X; auto. }
  assert (SG : forall rec, (forall l V b V', rec l V = Some (b, V') -> incl V V') -> forall ss V b V', over_signals rec g t ss V = Some (b, V') -> incl V V').
  { intros rec R. induction ss as [|s ss IH]; intros V b V' H; cbn [over_signals] in H; [inversion H; subst; intros x; auto|].
    destruct (s =? t); [inversion H; subst; intros x; auto|]. destruct (over_ports rec g (ports_of g s) V) as [[[|] v]|] eqn:E; [| |discriminate]; apply (PG rec R) in E; [inversion H; now subst|].
    apply IH in H. intros x X; auto. }
  induction d as [|d IH]; intros l V b V' H; cbn [checkCyclicReferenceRecursive] in H; [discriminate|]. destruct l as [f|]; [|inversion H; subst; intros x; auto].
  destruct (mem f V); [inversion H; subst; intros x; auto|]. apply (SG _ IH) in H. intros x X. apply H. now right.
Qed.

Lemma search_ends : forall d l V, S (left_over V) < d -> checkCyclicReferenceRecursive d g t l V <> None.
Proof.
  induction d as [|d IH]; intros l V L; [lia|]. cbn [checkCyclicReferenceRecursive]. destruct l as [f|]; [|discriminate]. destruct (mem f V) eqn:M; [discriminate|].
  apply mem_not in M. destruct (outputs g f) as [|s0 rest] eqn:O; [discriminate|].
  assert (IB : In f (blocks g)) by (apply (owned f s0); apply outputs_In; rewrite O; now left).
  pose proof (left_over_cons f V IB M) as LC. rewrite <- O. clear O.
  assert (LV : S (left_over (f :: V)) < d) by lia. clear LC L. generalize dependent (f :: V). clear M V.
  assert (PE : forall ps V, S (left_over V) < d -> over_ports (checkCyclicReferenceRecursive d g t) g ps V <> None).
  { induction ps as [|p ps IHp]; intros V LV; cbn [over_ports]; [discriminate|]. specialize (IH (listener g p) V LV).
    destruct (checkCyclicReferenceRecursive d g t (listener g p) V) as [[[|] v]|] eqn:E; [discriminate| |congruence]. apply grows in E. apply left_over_incl in E. apply IHp. lia. }
  assert (PG : forall ps V b V', over_ports (checkCyclicReferenceRecursive d g t) g ps V = Some (b, V') -> incl V V').
  { induction ps as [|p ps IHp]; intros V b V' H; cbn [over_ports] in H; [inversion H; subst; intros x; auto|].
    destruct (checkCyclicReferenceRecursive d g t (listener g p) V) as [[[|] v]|] eqn:E; [| |discriminate]; apply grows in E; [inversion H; now subst|]. apply IHp in H. intros x X; auto. }
  induction (outputs g f) as [|s ss IHs]; intros V LV; cbn [over_signals]; [discriminate|]. destruct (s =? t); [discriminate|].
  pose proof (PE (ports_of g s) V LV) as NE. destruct (over_ports (checkCyclicReferenceRecursive d g t) g (ports_of g s) V) as [[[|] v]|] eqn:E; [discriminate| |congruence].
  apply PG in E. apply left_over_incl in E. apply IHs. lia.
Qed.
End Search.

(** ** Histories *)
Record WF (g : graph) : Prop := {
  w_owned : forall f s, In (f, s) (outs g) -> In f (blocks g);
  w_one_port : NoDup (map fst (conns g))
}.

Lemma nodup_filter : forall (P : nat * nat -> bool) (l : list (nat * nat)), NoDup (map fst l) -> NoDup (map fst (filter P l)).
Proof.
  induction l as [|e l IH]; intros N; cbn [filter map]; [constructor|]. cbn [map] in N. inversion N; subst. destruct (P e); cbn [map]; auto.
  constructor; auto. intros I. apply H1. apply in_map_iff in I. destruct I as (x & E & I). apply filter_In in I. rewrite <- E. apply in_map. tauto.
Qed.
Lemma nodup_app_one : forall (l : list (nat * nat)) p s, NoDup (map fst l) -> ~ In p (map fst l) -> NoDup (map fst (l ++ [(p, s)])).
Proof.
  induction l as [|e l IH]; intros p s N NI; cbn [app map fst]; [repeat constructor; auto|]. cbn [map] in *. inversion N; subst. constructor.
  - rewrite map_app. intros I. apply in_app_or in I. destruct I as [I|[I|[]]]; auto. cbn [fst] in I. apply NI. left. auto.
  - apply IH; auto. intros I. apply NI. now right.
Qed.
Lemma without_not : forall p g, ~ In p (map fst (without_port p g)).
Proof. intros p g I. apply in_map_iff in I. destruct I as (e & <- & I). apply filter_In in I. destruct I as [_ I]. rewrite Nat.eqb_refl in I. discriminate. Qed.

Lemma step_wf : forall g o, WF g -> WF (fst (step g o)).
Proof.
  intros g o [O N]. destruct o as [f|f s|p f|p f|s p ok|p|s|p]; cbn [step].
  - destruct (mem f (blocks g)) eqn:M; cbn [fst]; constructor; cbn [outs blocks conns]; auto. intros f' s I. apply in_or_app. left. eauto.
  - destruct (mem f (blocks g) && _) eqn:M; cbn [fst]; constructor; cbn [outs blocks conns]; auto. apply andb_prop in M. destruct M as [M _]. apply mem_In in M.
    intros f' s' I. apply in_app_or in I. destruct I as [I|[I|[]]]; [eauto|]. inversion I; now subst.
  - destruct (mem f (blocks g) && _); cbn [fst]; constructor; cbn [outs blocks conns]; auto.
  - cbn [fst]. constructor; cbn [outs blocks conns]; auto.
  - unfold connect. destruct (canConnectSignal (enough g) g s p); cbn [fst]; try (now constructor). unfold commit.
    destruct (mem p (gone_ports g)); cbn [fst]; [now constructor|]. destruct ok; cbn [fst]; constructor; cbn [set_conns outs blocks conns]; auto.
    + apply nodup_app_one; [now apply nodup_filter|apply without_not].
    + now apply nodup_filter.
  - cbn [fst]. constructor; cbn [set_conns outs blocks conns]; auto. now apply nodup_filter.
  - cbn [fst]. constructor; cbn [outs blocks conns]; [|now apply nodup_filter]. intros f s' I. apply filter_In in I. destruct I as [I _]. eauto.
  - cbn [fst]. constructor; cbn [outs blocks conns]; auto. now apply nodup_filter.
Qed.
Lemma wf_after : forall h, WF (after h).
Proof. induction h as [|o h IH]; [constructor; [intros f s []|constructor]|]. cbn [after]. now apply step_wf. Qed.

Lemma check_ends : forall g s p, WF g -> hasCyclicReferenceIfConnected (enough g) g s p <> None.
Proof.
  intros g s p W. unfold hasCyclicReferenceIfConnected.
  assert (L : S (left_over g []) < enough g).
  { unfold left_over, enough. apply le_n_S, le_n_S. clear. induction (blocks g) as [|f r IH]; cbn [filter length]; auto. replace (mem f []) with false by reflexivity. cbn [negb length]. lia. }
  pose proof (search_ends g s (w_owned _ W) (enough g) (listener g p) [] L) as E. destruct (checkCyclicReferenceRecursive (enough g) g s (listener g p) []) as [[b v]|]; congruence.
Qed.

Lemma check_exact : forall g s p, WF g ->
  (hasCyclicReferenceIfConnected (enough g) g s p = Some true <-> exists f f', listener g p = Some f /\ (f = f' \/ flows g f f') /\ In (f', s) (outs g)).
Proof.
  intros g s p W. unfold hasCyclicReferenceIfConnected. pose proof (check_ends g s p W) as NE. unfold hasCyclicReferenceIfConnected in NE.
  destruct (listener g p) as [f|] eqn:L.
  - destruct (checkCyclicReferenceRecursive (enough g) g s (Some f) []) as [[b v]|] eqn:E; [|congruence]. pose proof (search_exact g s _ _ _ _ E) as X. split.
    + intros B. inversion B; subst. destruct (proj1 X eq_refl) as (f' & R). exists f, f'. split; auto.
    + intros (f0 & f' & Q & R). inversion Q; subst. f_equal. apply X. eauto.
  - unfold enough. cbn [checkCyclicReferenceRecursive]. split; [discriminate|]. intros (f & f' & Q & _). discriminate.
Qed.

(** edges of the graph with p reconnected *)
Lemma connected_feeds : forall g s p a b, feeds (connected g s p) a b <->
  (exists s' p', p' <> p /\ In (a, s') (outs g) /\ In (p', s') (conns g) /\ listener g p' = Some b) \/ (In (a, s) (outs g) /\ listener g p = Some b).
Proof.
  intros g s p a b. unfold feeds, connected. cbn [outs conns]. split.
  - intros (s' & p' & O & C & L). apply in_app_or in C. destruct C as [C|[C|[]]].
    + apply filter_In in C. destruct C as [C Q]. cbn [fst] in Q. apply negb_true_iff, Nat.eqb_neq in Q. left. exists s', p'. auto.
    + inversion C; subst. right. auto.
  - intros [(s' & p' & NE & O & C & L)|(O & L)].
    + exists s', p'. split; auto. split; auto. apply in_or_app. left. apply filter_In. split; auto. cbn [fst]. now apply negb_true_iff, Nat.eqb_neq.
    + exists s, p. split; auto. split; auto. apply in_or_app. right. now left.
Qed.

Lemma flows_trans : forall g a b c, flows g a b -> flows g b c -> flows g a c.
Proof. intros g a b c H. revert c. induction H; intros c K; [eapply more; eauto|]. eapply more; eauto. Qed.
Lemma flows_sub : forall g g', (forall a b, feeds g a b -> feeds g' a b) -> forall a b, flows g a b -> flows g' a b.
Proof. intros g g' S a b H. induction H; [apply one; auto|eapply more; eauto]. Qed.

(** a cycle after reconnecting an acyclic graph goes through the new edge *)
Lemma cycle_through : forall g s p, ~ cyclic g ->
  (cyclic (connected g s p) <-> exists f f', listener g p = Some f /\ (f = f' \/ flows g f f') /\ In (f', s) (outs g)).
Proof.
  intros g s p AC. split.
  - (* split paths at the new edge *)
    assert (SPLIT : forall a b, flows (connected g s p) a b -> flows g a b \/
              exists f f', listener g p = Some f /\ In (f', s) (outs g) /\ (a = f' \/ flows g a f') /\ (f = b \/ flows g f b \/ exists x, In (x, s) (outs g) /\ (f = x \/ flows g f x))).
    { assert (OLD : forall a b, (exists s' p', p' <> p /\ In (a, s') (outs g) /\ In (p', s') (conns g) /\ listener g p' = Some b) -> feeds g a b).
      { intros a b (s' & p' & _ & O & C & L). exists s', p'. auto. }
      intros a b H. induction H as [a b FE|a c b FE H IH]; apply connected_feeds in FE; destruct FE as [FE|[O L]].
      - left. apply one. auto.
      - right. exists b, a. split; auto.
      - apply OLD in FE. destruct IH as [IH|(f & f' & L & O & A & B)]; [left; eapply more; eauto|]. right. exists f, f'. split; auto. split; auto. split; auto.
        right. destruct A as [<-|A]; [now apply one|eapply more; eauto].
      - right. exists c, a. split; auto. split; auto. split; auto. destruct IH as [IH|(f & f' & L' & O' & A & B)]; [auto|].
        right. right. exists f'. split; auto. }
    intros (f0 & H). destruct (SPLIT f0 f0 H) as [F|(f & f' & L & O & A & B)]; [exfalso; apply AC; now exists f0|].
    destruct B as [->|[B|(x & X & B)]].
    + exists f0, f'. split; auto.
    + exists f, f'. split; auto. split; auto. right. destruct A as [<-|A]; auto. eapply flows_trans; eauto.
    + exists f, x. auto.
  - intros (f & f' & L & R & O). exists f'.
    (* the shortest path from f to f' does not enter f again, so it avoids p's old edge *)
    assert (NEW : feeds (connected g s p) f' f) by (apply connected_feeds; right; auto).
    destruct R as [<-|R]; [now apply one|]. apply more with f; auto.
    assert (KEEP : forall a b, feeds g a b -> b <> f -> feeds (connected g s p) a b).
    { intros a b (s' & p' & OO & C & LL) NE. apply connected_feeds. left. exists s', p'. split; auto. intros ->. congruence. }
    assert (NF : forall a, flows g f a -> a <> f) by (intros a FA ->; apply AC; now exists f).
    assert (GEN : forall a b, flows g a b -> (a = f \/ flows g f a) -> flows (connected g s p) a b).
    { intros a b H. induction H as [a b FE|a c b FE H IH]; intros Q.
      - apply one. apply KEEP; auto. apply NF. destruct Q as [->|Q]; [now apply one|]. eapply flows_trans; [exact Q|now apply one].
      - assert (FC : flows g f c) by (destruct Q as [->|Q]; [now apply one|]; eapply flows_trans; [exact Q|now apply one]).
        apply more with c; [apply KEEP; auto|]. apply IH. now right. }
    apply GEN; auto.
Qed.

Lemma acyclic_sub : forall g g', (forall a b, feeds g' a b -> feeds g a b) -> ~ cyclic g -> ~ cyclic g'.
Proof. intros g g' S A (f & H). apply A. exists f. eapply flows_sub; eauto. Qed.

Lemma listener_other : forall g g' p, filter (fun e => fst e =? p) (lsn g) = filter (fun e => fst e =? p) (lsn g') -> listener g p = listener g' p.
Proof. intros g g' p E. unfold listener. now rewrite E. Qed.

Lemma step_acyclic : forall g o, WF g -> polite g o -> ~ cyclic g -> ~ cyclic (fst (step g o)).
Proof.
  intros g o W P AC. destruct o as [f|f s|p f|p f|s p ok|p|s|p]; cbn [step] in *.
  - apply (acyclic_sub g); auto. intros a b. destruct (mem f (blocks g)); auto.
  - apply (acyclic_sub g); auto. intros a b. destruct (mem f (blocks g) && _) eqn:M; cbn [fst]; auto. apply andb_prop in M. destruct M as [_ M]. apply negb_true_iff, mem_not in M.
    intros (s' & p' & O & C & L). cbn [outs conns] in *. exists s', p'. split; auto. apply in_app_or in O. destruct O as [O|[O|[]]]; auto. inversion O; subst.
    exfalso. apply M. apply in_or_app. right. apply in_or_app. left. apply in_map_iff. exists (p', s'). auto.
  - apply (acyclic_sub g); auto. intros a b. destruct (mem f (blocks g) && _) eqn:M; cbn [fst]; auto. apply andb_prop in M. destruct M as [_ M]. apply negb_true_iff, mem_not in M.
    intros (s' & p' & O & C & L). cbn [outs conns] in *. exists s', p'. split; auto. split; auto. unfold listener in *. cbn [lsn] in L. rewrite filter_app in L. cbn [filter fst] in L.
    destruct (Nat.eqb_spec p p') as [->|NE]; [|now rewrite app_nil_r in L]. exfalso. apply M. apply in_or_app. right. apply in_or_app. left. apply in_map_iff. exists (p', s'). auto.
  - apply (acyclic_sub g); auto. intros a b (s' & p' & O & C & L). cbn [fst outs conns] in *. cbn [polite] in P. assert (NE : p' <> p) by (intros ->; now apply P in C).
    exists s', p'. split; auto. split; auto. rewrite <- L. apply listener_other. cbn [fst lsn].
    assert (FF : filter (fun e : nat * nat => fst e =? p') (filter (fun e => negb (fst e =? p)) (lsn g)) = filter (fun e => fst e =? p') (lsn g)).
    { clear - NE. induction (lsn g) as [|e r IH]; auto. cbn [filter]. destruct (Nat.eqb_spec (fst e) p) as [E|E]; cbn [negb filter]; rewrite ?IH; auto.
      destruct (Nat.eqb_spec (fst e) p'); [congruence|auto]. }
    destruct f as [f|]; auto. destruct (mem f (blocks g)); auto. rewrite filter_app, FF. cbn [filter fst]. destruct (Nat.eqb_spec p p'); [congruence|]. now rewrite app_nil_r.
  - unfold connect. destruct (canConnectSignal (enough g) g s p) eqn:CC; cbn [fst]; auto. unfold commit. destruct (mem p (gone_ports g)); cbn [fst]; auto.
    destruct ok; cbn [fst].
    + change (set_conns (without_port p g ++ [(p, s)]) g) with (connected g s p). rewrite cycle_through by auto. rewrite <- check_exact by auto.
      unfold canConnectSignal in CC. destruct (mem s (gone_signals g)); [discriminate|]. destruct (hasCyclicReferenceIfConnected (enough g) g s p) as [[|]|]; try discriminate.
    + apply (acyclic_sub g); auto. intros a b (s' & p' & O & C & L). cbn [set_conns outs conns] in *. apply filter_In in C. exists s', p'. split; auto. split; [tauto|auto].
  - apply (acyclic_sub g); auto. intros a b (s' & p' & O & C & L). cbn [fst set_conns outs conns] in *. apply filter_In in C. exists s', p'. split; auto. split; [tauto|auto].
  - apply (acyclic_sub g); auto. intros a b (s' & p' & O & C & L). cbn [fst outs conns] in *. apply filter_In in C. apply filter_In in O. exists s', p'. split; [tauto|]. split; [tauto|auto].
  - apply (acyclic_sub g); auto. intros a b (s' & p' & O & C & L). cbn [fst outs conns] in *. apply filter_In in C. exists s', p'. split; auto. split; [tauto|auto].
Qed.

Lemma acyclic_after : forall h, polite_history h -> ~ cyclic (after h).
Proof.
  induction h as [|o h IH]; intros P.
  - intros (f & H). assert (NE : forall a b, ~ feeds (after []) a b) by (intros a b (s & p & [] & _)). inversion H; subst; eapply NE; eauto.
  - destruct P as [P1 P2]. cbn [after]. apply step_acyclic; auto. apply wf_after.
Qed.
