(** Proofs about building graphs. *)
From Verif Require Import Base Task_Model Task_Spec Task_Proofs.

Record wf (b : build) : Prop := {
  wf_task : forall k i, nth_error (b_tasks b) k = Some (Some i) -> i < length (b_nodes b);
  wf_root : forall g i, nth_error (b_graphs b) g = Some i -> i < length (b_nodes b) /\ nth i (b_nodes b) 0 = g;
  wf_node : forall i g, nth_error (b_nodes b) i = Some g -> g < length (b_graphs b);
  wf_once : forall x y n, node_of b x = Some n -> node_of b y = Some n -> x = y;
  wf_edge : forall i j, In (i, j) (b_edges b) -> i < length (b_nodes b) /\ j < length (b_nodes b) /\ forall g, nth_error (b_graphs b) g <> Some j
}.

Lemma nothing_wf : wf nothing.
Proof.
  constructor; unfold nothing; cbn [b_tasks b_graphs b_nodes b_edges length In]; intros; try contradiction.
  - destruct k; discriminate.
  - destruct g; discriminate.
  - destruct i; discriminate.
  - destruct x as [[|]|[|]]; discriminate.
Qed.

Lemma node_bound : forall b x n, wf b -> node_of b x = Some n -> n < length (b_nodes b).
Proof.
  intros b [g|k] n W H; cbn [node_of] in H.
  - now apply (wf_root b W) in H.
  - destruct (nth_error (b_tasks b) k) as [[i| ]| ] eqn:E; try discriminate. inversion H; subst. now apply (wf_task b W) in E.
Qed.

Lemma nth_error_snoc : forall {A} (l : list A) x n y, nth_error (l ++ [x]) n = Some y ->
  nth_error l n = Some y \/ (n = length l /\ y = x).
Proof.
  intros A l x n y H. destruct (Nat.lt_ge_cases n (length l)) as [L|L].
  - rewrite nth_error_app1 in H; auto.
  - rewrite nth_error_app2 in H by auto. destruct (n - length l) as [ | m] eqn:E.
    + right. cbn [nth_error] in H. inversion H. split; auto. lia.
    + cbn [nth_error] in H. destruct m; discriminate.
Qed.

Lemma mkGraph_node : forall b x n, node_of (mkGraph b) x = Some n ->
  node_of b x = Some n \/ (x = G (length (b_graphs b)) /\ n = length (b_nodes b)).
Proof.
  intros b [g|k] n H; unfold mkGraph in H; cbn [node_of b_graphs b_tasks] in *; auto.
  apply nth_error_snoc in H. destruct H as [H|[-> ->]]; auto.
Qed.

Lemma mkGraph_wf : forall b, wf b -> wf (mkGraph b).
Proof.
  intros b W. constructor.
  - intros k i H. cbn [mkGraph b_tasks b_nodes] in *. apply (wf_task b W) in H. rewrite app_length. lia.
  - intros g i H. cbn [mkGraph b_graphs b_nodes] in *. rewrite app_length. cbn [length].
    apply nth_error_snoc in H. destruct H as [H|[-> ->]].
    + apply (wf_root b W) in H. destruct H as [H1 H2]. split; [lia| ]. now rewrite app_nth1.
    + split; [lia| ]. rewrite app_nth2, Nat.sub_diag by lia. reflexivity.
  - intros i g H. cbn [mkGraph b_graphs b_nodes] in *. rewrite app_length. cbn [length].
    apply nth_error_snoc in H. destruct H as [H|[-> ->]]; [ |lia]. apply (wf_node b W) in H. lia.
  - intros x y n Hx Hy. apply mkGraph_node in Hx. apply mkGraph_node in Hy.
    destruct Hx as [Hx|[-> ->]], Hy as [Hy|[-> E]]; auto.
    + now apply (wf_once b W x y n).
    + subst n. apply (node_bound b x _ W) in Hx. lia.
    + apply (node_bound b y _ W) in Hy. lia.
  - intros i j H. cbn [mkGraph b_graphs b_nodes b_edges] in *. apply (wf_edge b W) in H. destruct H as (H1 & H2 & H3).
    rewrite app_length. repeat split; try lia. intros g Hg. apply nth_error_snoc in Hg.
    destruct Hg as [Hg|[-> ->]]; [ |lia]. now apply (H3 g).
Qed.

Lemma mkTask_node : forall b x n, node_of (mkTask b) x = Some n -> node_of b x = Some n.
Proof.
  intros b [g|k] n H; unfold mkTask in H; cbn [node_of b_graphs b_tasks] in *; auto.
  destruct (nth_error (b_tasks b ++ [None]) k) as [[i| ]| ] eqn:E; try discriminate.
  apply nth_error_snoc in E. destruct E as [E|[_ E]]; [now rewrite E|discriminate].
Qed.

Lemma mkTask_wf : forall b, wf b -> wf (mkTask b).
Proof.
  intros b W. constructor.
  - intros k i H. apply (node_bound b (T k) i W). apply mkTask_node. cbn [node_of]. now rewrite H.
  - intros g i H. now apply (wf_root b W).
  - intros i g H. now apply (wf_node b W) in H.
  - intros x y n Hx Hy. apply mkTask_node in Hx. apply mkTask_node in Hy. now apply (wf_once b W x y n).
  - intros i j H. now apply (wf_edge b W).
Qed.

Lemma initialize_node : forall b k g x, k < length (b_tasks b) ->
  node_of (initialize b k g) x = if match x with T m => Nat.eqb m k | G _ => false end then Some (length (b_nodes b)) else node_of b x.
Proof.
  intros b k g [h|m] Hk; unfold initialize; cbn [node_of b_graphs b_tasks]; auto.
  destruct (Nat.eqb m k) eqn:E.
  - apply Nat.eqb_eq in E. subst m. now rewrite setNth_error_same.
  - apply Nat.eqb_neq in E. rewrite setNth_error_other; auto.
Qed.

Lemma initialize_wf : forall b k g, wf b -> k < length (b_tasks b) -> g < length (b_graphs b) -> wf (initialize b k g).
Proof.
  intros b k g W Hk Hg.
  assert (NB : forall x n, node_of (initialize b k g) x = Some n -> n < S (length (b_nodes b))).
  { intros x n H. rewrite initialize_node in H by auto. destruct x as [h|m]; [ |destruct (Nat.eqb m k)].
    - apply (node_bound b (G h) n W) in H. lia.
    - inversion H. lia.
    - apply (node_bound b (T m) n W) in H. lia. }
  constructor.
  - intros m i H. cbn [initialize b_nodes]. rewrite app_length. cbn [length].
    assert (X : node_of (initialize b k g) (T m) = Some i) by (cbn [node_of]; now rewrite H). apply NB in X. lia.
  - intros h i H. cbn [initialize b_nodes b_graphs] in *. rewrite app_length. cbn [length].
    apply (wf_root b W) in H. destruct H as [H1 H2]. split; [lia| ]. now rewrite app_nth1.
  - intros i h H. cbn [initialize b_nodes b_graphs] in *. apply nth_error_snoc in H. destruct H as [H|[-> ->]]; auto.
    now apply (wf_node b W) in H.
  - intros x y n Hx Hy. rewrite initialize_node in Hx, Hy by auto.
    destruct (match x with T m => Nat.eqb m k | G _ => false end) eqn:Ex;
    destruct (match y with T m => Nat.eqb m k | G _ => false end) eqn:Ey.
    + destruct x as [ |m]; [discriminate| ]. destruct y as [ |m']; [discriminate| ].
      apply Nat.eqb_eq in Ex. apply Nat.eqb_eq in Ey. congruence.
    + inversion Hx; subst n. apply (node_bound b y _ W) in Hy. lia.
    + inversion Hy; subst n. apply (node_bound b x _ W) in Hx. lia.
    + now apply (wf_once b W x y n).
  - intros i j H. cbn [initialize b_nodes b_graphs b_edges] in *. apply (wf_edge b W) in H. rewrite app_length.
    destruct H as (H1 & H2 & H3). repeat split; auto; lia.
Qed.

Lemma precede_wf : forall b i j, wf b -> i < length (b_nodes b) -> j < length (b_nodes b) ->
  (forall g, nth_error (b_graphs b) g <> Some j) -> wf (precede b i j).
Proof.
  intros b i j W Hi Hj Hg. constructor.
  - apply (wf_task b W).
  - apply (wf_root b W).
  - apply (wf_node b W).
  - apply (wf_once b W).
  - intros x y H. cbn [precede b_edges b_nodes b_graphs] in *. apply in_app_iff in H. cbn [In] in H.
    destruct H as [H|[H|[]]]; [now apply (wf_edge b W)| ]. inversion H; subst. auto.
Qed.

Lemma taskNode_of : forall b k, taskNode b k = node_of b (T k).
Proof.
  intros b k. unfold taskNode. cbn [node_of]. destruct (nth_error (b_tasks b) k) as [o| ] eqn:E.
  - rewrite (nth_error_nth _ _ _ E). now destruct o.
  - apply nth_error_None in E. now rewrite nth_overflow.
Qed.

Lemma task_not_root : forall b k j, wf b -> node_of b (T k) = Some j -> forall g, nth_error (b_graphs b) g <> Some j.
Proof. intros b k j W H g Hg. assert (X : G g = T k) by (now apply (wf_once b W _ _ j)). discriminate. Qed.

(** The effect of then(). *)
Record linked (b b' : build) (a c : ref) : Prop := {
  lk_nodes : exists i j, node_of b' a = Some i /\ node_of b' c = Some j /\ b_edges b' = b_edges b ++ [(i, j)] /\
    (node_of b a = None \/ node_of b c = None -> graph_of b' i = graph_of b' j);
  lk_keep : forall x n, node_of b x = Some n -> node_of b' x = Some n;
  lk_other : forall x, x <> a -> x <> c -> node_of b' x = node_of b x;
  lk_graph : forall n g, graph_of b n = Some g -> graph_of b' n = Some g;
  lk_graphs : b_graphs b' = b_graphs b /\ length (b_tasks b') = length (b_tasks b)
}.

Lemma graph_of_initialize : forall b k g n, graph_of (initialize b k g) n =
  if Nat.eqb n (length (b_nodes b)) then Some g else graph_of b n.
Proof.
  intros b k g n. unfold graph_of, initialize. cbn [b_nodes]. destruct (Nat.eqb n (length (b_nodes b))) eqn:E.
  - apply Nat.eqb_eq in E. subst n. rewrite nth_error_app2, Nat.sub_diag by lia. reflexivity.
  - apply Nat.eqb_neq in E. destruct (Nat.lt_ge_cases n (length (b_nodes b))) as [L|L].
    + now rewrite nth_error_app1.
    + transitivity (@None nat); [ |symmetry; now apply nth_error_None]. apply nth_error_None. rewrite app_length. cbn [length]. lia.
Qed.

(** Attaching task [k] to the graph of a node [i], [x] being at [i]. *)
Lemma attach_facts : forall b k x i g, wf b -> k < length (b_tasks b) -> node_of b (T k) = None ->
  node_of b x = Some i -> graph_of b i = Some g ->
  let b1 := initialize b k g in
  wf b1 /\ node_of b1 (T k) = Some (length (b_nodes b)) /\ node_of b1 x = Some i /\
  graph_of b1 i = Some g /\ graph_of b1 (length (b_nodes b)) = Some g /\
  (forall y n, node_of b y = Some n -> node_of b1 y = Some n) /\
  (forall y, y <> T k -> node_of b1 y = node_of b y) /\
  (forall n h, graph_of b n = Some h -> graph_of b1 n = Some h).
Proof.
  intros b k x i g W Hk N X Gi b1. subst b1.
  assert (Hg : g < length (b_graphs b)) by (now apply (wf_node b W) in Gi).
  assert (O : forall y, y <> T k -> node_of (initialize b k g) y = node_of b y).
  { intros y Hy. rewrite initialize_node by auto. destruct y as [h|m]; auto.
    destruct (Nat.eqb m k) eqn:E; auto. apply Nat.eqb_eq in E. congruence. }
  assert (GK : forall n h, graph_of b n = Some h -> graph_of (initialize b k g) n = Some h).
  { intros n h Hn. rewrite graph_of_initialize. assert (n < length (b_nodes b)) by (apply nth_error_Some; unfold graph_of in Hn; congruence).
    assert (E : Nat.eqb n (length (b_nodes b)) = false) by (apply Nat.eqb_neq; lia). now rewrite E. }
  assert (K : forall y n, node_of b y = Some n -> node_of (initialize b k g) y = Some n).
  { intros y n Hy. rewrite O; auto. intros ->. congruence. }
  split; [now apply initialize_wf| ]. split.
  { rewrite initialize_node by auto. now rewrite Nat.eqb_refl. }
  split; [auto| ]. split; [auto| ]. split; [ |auto].
  rewrite graph_of_initialize, Nat.eqb_refl. reflexivity.
Qed.

Lemma thenRef_facts : forall b a c b' r, wf b -> there b a -> there b c -> thenRef b a c = (b', r) ->
  match r with
  | NotSupported => is_graph c /\ b' = b
  | Crash => b' = b /\ (exists k m, a = T k /\ c = T m) /\ node_of b a = None /\ node_of b c = None
  | Ok => ~ is_graph c /\ (is_graph a \/ node_of b a <> None \/ node_of b c <> None) /\ wf b' /\ linked b b' a c
  end.
Proof.
  intros b a c b' r W Ha Hc H. destruct c as [h|k]; cbn [thenRef] in H.
  { inversion H; subst. split; auto. now exists h. }
  assert (NG : ~ is_graph (T k)) by (intros [g E]; discriminate).
  cbn [there] in Hc. destruct a as [g|m]; cbn [there] in Ha.
  - unfold thenOfGraph in H. cbv zeta in H. rewrite !taskNode_of in H.
    assert (exists i, nth_error (b_graphs b) g = Some i) as [i Hi].
    { destruct (nth_error (b_graphs b) g) eqn:E; [eauto|]. apply nth_error_None in E. lia. }
    assert (Nd : nth g (b_graphs b) 0 = i) by (now apply nth_error_nth). rewrite Nd in H.
    destruct (wf_root b W g i Hi) as [Bi Gi].
    assert (GI : graph_of b i = Some g). { unfold graph_of. rewrite (nth_error_nth' _ 0 Bi). now rewrite Gi. }
    destruct (node_of b (T k)) as [j| ] eqn:Nk.
    + cbv beta iota zeta in H. rewrite ?Nk in H. inversion H; subst b' r. clear H.
      split; auto. split; [left; now exists g| ]. split.
      { apply precede_wf; auto. { now apply (node_bound b (T k)). } now apply (task_not_root b k). }
      constructor; auto. exists i, j. split; [auto| ]; split; [auto| ]; split; [auto| ]. { intros [X|X]; [ |congruence]. cbn [node_of] in X. congruence. }
    + destruct (attach_facts b k (G g) i g W Hc Nk Hi GI) as (W1 & N1 & N2 & G1 & G2 & K & O & GK).
      cbv beta iota zeta in H. rewrite ?N1 in H. inversion H; subst b' r. clear H.
      split; auto. split; [left; now exists g| ]. split.
      { apply precede_wf; auto. { apply (node_bound _ _ _ W1 N2). } { apply (node_bound _ _ _ W1 N1). } now apply (task_not_root _ k). }
      constructor; [ |exact K|exact (fun x _ N => O x N)|exact GK| ].
      * exists i, (length (b_nodes b)). split; [auto| ]; split; [auto| ]; split; [auto| ]. intros _. rewrite <- G2 in G1. exact G1.
      * split; auto. cbn [precede initialize b_tasks]. apply setNth_length.
  - unfold thenOfTask in H. cbv zeta in H. rewrite !taskNode_of in H.
    destruct (node_of b (T k)) as [j| ] eqn:Nk.
    + assert (Bj : j < length (b_nodes b)) by (now apply (node_bound b (T k))).
      assert (GJ : graph_of b j = Some (nth j (b_nodes b) 0)) by (now apply nth_error_nth').
      destruct (node_of b (T m)) as [i| ] eqn:Nm.
      * cbv beta iota zeta in H. rewrite ?taskNode_of, ?Nm in H. cbv beta iota in H. rewrite ?taskNode_of, ?Nm in H. inversion H; subst b' r. clear H.
        split; auto. split; [right; left; congruence| ]. split.
        { apply precede_wf; auto. { now apply (node_bound b (T m)). } now apply (task_not_root b k). }
        constructor; auto. exists i, j. split; [auto| ]; split; [auto| ]; split; [auto| ]. intros [X|X]; congruence.
      * destruct (attach_facts b m (T k) j _ W Ha Nm Nk GJ) as (W1 & N1 & N2 & G1 & G2 & K & O & GK).
        cbv beta iota zeta in H. rewrite ?taskNode_of, ?Nm in H. cbv beta iota in H. rewrite ?taskNode_of, ?N1 in H. inversion H; subst b' r. clear H.
        split; auto. split; [right; right; congruence| ]. split.
        { apply precede_wf; auto. { apply (node_bound _ _ _ W1 N1). } { apply (node_bound _ _ _ W1 N2). } now apply (task_not_root _ k). }
        constructor; [ |exact K|exact (fun x N _ => O x N)|exact GK| ].
        -- exists (length (b_nodes b)), j. split; [auto| ]; split; [auto| ]; split; [auto| ]. intros _. rewrite <- G1 in G2. exact G2.
        -- split; auto. cbn [precede initialize b_tasks]. apply setNth_length.
    + destruct (node_of b (T m)) as [i| ] eqn:Nm.
      * assert (Bi : i < length (b_nodes b)) by (now apply (node_bound b (T m))).
        assert (GI : graph_of b i = Some (nth i (b_nodes b) 0)) by (now apply nth_error_nth').
        destruct (attach_facts b k (T m) i _ W Hc Nk Nm GI) as (W1 & N1 & N2 & G1 & G2 & K & O & GK).
        cbv beta iota zeta in H. rewrite ?taskNode_of, ?Nm in H. cbv beta iota in H. rewrite ?taskNode_of, ?N1 in H. inversion H; subst b' r. clear H.
        split; auto. split; [right; left; congruence| ]. split.
        { apply precede_wf; auto. { apply (node_bound _ _ _ W1 N2). } { apply (node_bound _ _ _ W1 N1). } now apply (task_not_root _ k). }
        constructor; [ |exact K|exact (fun x _ N => O x N)|exact GK| ].
        -- exists i, (length (b_nodes b)). split; [auto| ]; split; [auto| ]; split; [auto| ]. intros _. rewrite <- G2 in G1. exact G1.
        -- split; auto. cbn [precede initialize b_tasks]. apply setNth_length.
      * inversion H; subst. split; auto. split; [now exists m, k| ]. auto.
Qed.

Lemma there_bool : forall b r, exists_ref b r = true <-> there b r.
Proof. intros b [g|k]; cbn [exists_ref there]; apply Nat.ltb_lt. Qed.

Lemma invoke_wf : forall b c b' r, wf b -> invoke b c = (b', r) -> r <> Crash -> wf b'.
Proof.
  intros b [ | |x y] b' r W H NC; cbn [invoke] in H.
  - inversion H. now apply mkGraph_wf.
  - inversion H. now apply mkTask_wf.
  - destruct (exists_ref b x && exists_ref b y) eqn:E; [ |inversion H; now subst].
    apply andb_true_iff in E. destruct E as [Ex Ey]. apply there_bool in Ex. apply there_bool in Ey.
    pose proof (thenRef_facts b x y b' r W Ex Ey H) as F. destruct r.
    + tauto.
    + destruct F as [_ ->]. auto.
    + congruence.
Qed.

Lemma builds_step : forall b c l b2, builds b (c :: l) = Some b2 ->
  exists b1 r, invoke b c = (b1, r) /\ r <> Crash /\ builds b1 l = Some b2.
Proof.
  intros b c l b2 H. cbn [builds] in H. destruct (invoke b c) as [b1 r]. exists b1, r.
  destruct r; try discriminate; repeat split; auto; discriminate.
Qed.

Lemma builds_wf : forall l b b', wf b -> builds b l = Some b' -> wf b'.
Proof.
  induction l as [ | c l IH]; intros b b' W H.
  - cbn [builds] in H. inversion H; now subst.
  - apply builds_step in H. destruct H as (b1 & r & E & NC & H). apply (IH b1); auto. now apply (invoke_wf b c b1 r).
Qed.

Lemma built_wf : forall b, built b -> wf b.
Proof. intros b [l H]. apply (builds_wf l nothing); auto using nothing_wf. Qed.

(** Orderly programs. *)
Definition ranked (b : build) : Prop := forall i j, In (i, j) (b_edges b) -> i < j /\ graph_of b i = graph_of b j.

Lemma invoke_ranked : forall b c b' r, wf b -> ranked b -> invoke b c = (b', r) -> r <> Crash ->
  match c with Then _ x => node_of b x = None | _ => True end -> ranked b'.
Proof.
  intros b [ | |x y] b' r W R H NC O; cbn [invoke] in H.
  - inversion H. intros i j Hij. cbn [mkGraph b_edges] in Hij. destruct (wf_edge b W i j Hij) as (B1 & B2 & _).
    destruct (R i j Hij) as [R1 R2]. split; auto. unfold graph_of, mkGraph in *. cbn [b_nodes].
    now rewrite !nth_error_app1.
  - inversion H. exact R.
  - destruct (exists_ref b x && exists_ref b y) eqn:E; [ |inversion H; now subst].
    apply andb_true_iff in E. destruct E as [Ex Ey]. apply there_bool in Ex. apply there_bool in Ey.
    pose proof (thenRef_facts b x y b' r W Ex Ey H) as F. destruct r; [ |destruct F as [_ ->]; auto|congruence].
    destruct F as (NG & D & W' & [(i0 & j0 & N1 & N2 & EE & GG) LK LO LG LGS]).
    intros i j Hij. rewrite EE in Hij. apply in_app_iff in Hij. destruct Hij as [Hij|[Hij|[]]].
    + destruct (R i j Hij) as [R1 R2]. destruct (wf_edge b W i j Hij) as (B1 & B2 & _). split; auto.
      destruct (graph_of b i) as [g| ] eqn:Gi.
      * rewrite (LG i g Gi). symmetry. apply LG. congruence.
      * unfold graph_of in Gi. apply nth_error_None in Gi. lia.
    + inversion Hij; subst i0 j0. split; auto.
      destruct (node_of b x) as [n| ] eqn:Nx.
      * pose proof (LK x n Nx) as X. assert (n = i) by congruence. subst n.
        apply (node_bound b x i W) in Nx.
        destruct y as [h|k]; [exfalso; apply NG; now exists h| ].
        (* j is new *)
        assert (length (b_nodes b) <= j); [ |lia].
        clear - H O N2 Ey. cbn [there] in Ey. cbn [thenRef] in H. destruct x as [g|m].
        -- unfold thenOfGraph in H. cbv zeta in H. rewrite !taskNode_of, O in H. cbv beta iota in H.
           rewrite initialize_node, Nat.eqb_refl in H by auto.
           inversion H; subst b'. unfold precede in N2. cbn [node_of b_tasks] in N2.
           cbn [initialize b_tasks] in N2. rewrite setNth_error_same in N2 by auto. inversion N2. lia.
        -- unfold thenOfTask in H. cbv zeta in H. rewrite !taskNode_of, O in H. destruct (node_of b (T m)); [ |discriminate].
           cbv beta iota in H. rewrite taskNode_of, initialize_node, Nat.eqb_refl in H by auto.
           inversion H; subst b'. unfold precede in N2. cbn [node_of b_tasks] in N2.
           cbn [initialize b_tasks] in N2. rewrite setNth_error_same in N2 by auto. inversion N2. lia.
      * exfalso. destruct D as [[g ->]|[D|D]]; try congruence. cbn [there node_of] in *.
        apply nth_error_None in Nx. lia.
Qed.

Lemma orderly_ranked : forall l b b', wf b -> ranked b -> orderly b l -> builds b l = Some b' -> ranked b'.
Proof.
  induction l as [ | c l IH]; intros b b' W R O H.
  - cbn [builds] in H. inversion H; now subst.
  - apply builds_step in H. destruct H as (b1 & r & E & NC & H). cbn [orderly] in O. rewrite E in O. cbn [fst] in O.
    destruct O as [O1 O2]. apply (IH b1); auto. { now apply (invoke_wf b c b1 r). } now apply (invoke_ranked b c b1 r).
Qed.
