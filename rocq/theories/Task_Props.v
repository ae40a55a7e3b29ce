(** C62: task graphs, awaitables and stopping of the scheduler. *)
From Coq Require Import Permutation.
From Verif Require Import Base Task_Model Task_Spec Task_Proofs Task_Build Task_Await.

(** *** Building *)
(** then() either refuses a graph as continuation, or, when neither of two tasks is in a graph,
    dereferences null, or adds exactly one constraint; a task that was in no graph joins that of
    the other; nothing else changes. *)
Theorem c62_then : forall b a c, built b -> there b a -> there b c ->
  let b' := fst (thenRef b a c) in
  (snd (thenRef b a c) = NotSupported <-> is_graph c) /\
  (snd (thenRef b a c) = Crash <-> ~ is_graph a /\ ~ is_graph c /\ node_of b a = None /\ node_of b c = None) /\
  (snd (thenRef b a c) <> Ok -> b' = b) /\
  (snd (thenRef b a c) = Ok ->
     (exists i j, node_of b' a = Some i /\ node_of b' c = Some j /\
        (forall x y, before b' x y <-> before b x y \/ (x = i /\ y = j)) /\
        (node_of b a = None \/ node_of b c = None -> exists g, in_graph b' g i /\ in_graph b' g j)) /\
     (forall x n, node_of b x = Some n -> node_of b' x = Some n) /\
     (forall x, x <> a -> x <> c -> node_of b' x = node_of b x) /\
     (forall n g, in_graph b g n -> in_graph b' g n)).
Proof.
  intros b a c B Ha Hc. apply built_wf in B. destruct (thenRef b a c) as [b' r] eqn:E. cbn [fst snd].
  pose proof (thenRef_facts b a c b' r B Ha Hc E) as F. destruct r; cbv zeta.
  - destruct F as (NG & D & W' & [(i & j & N1 & N2 & EE & GG) LK LO LG LGS]).
    split; [split; [discriminate|contradiction]| ]. split.
    { split; [discriminate| ]. intros (X1 & X2 & X3 & X4). exfalso. destruct D as [D|[D|D]]; auto. }
    split; [congruence| ]. intros _. split; [ |auto]. exists i, j. split; auto. split; auto. split.
    + intros x y. unfold before. rewrite EE, in_app_iff. cbn [In]. split.
      * intros [X|[X|[]]]; auto. inversion X. auto.
      * intros [X|[-> ->]]; auto.
    + intros X. specialize (GG X). assert (Bi : i < length (b_nodes b')) by (apply (node_bound b' a i W' N1)).
      exists (nth i (b_nodes b') 0). unfold in_graph. rewrite <- GG.
      assert (Y : graph_of b' i = Some (nth i (b_nodes b') 0)) by (now apply nth_error_nth'). auto.
  - destruct F as [F ->]. split; [tauto| ]. split.
    { split; [discriminate| ]. tauto. }
    split; auto. discriminate.
  - destruct F as (-> & (k & m & -> & ->) & N1 & N2).
    assert (NG : forall n, ~ is_graph (T n)) by (intros n [g X]; discriminate).
    split. { split; [discriminate| ]. intros X. now apply NG in X. }
    split. { split; auto. }
    split; auto. discriminate.
Qed.

(** No two graphs or tasks share a node; the root of a graph is in it and nothing must run before it. *)
Theorem c62_nodes : forall b, built b ->
  (forall x y n, node_of b x = Some n -> node_of b y = Some n -> x = y) /\
  (forall g n, node_of b (G g) = Some n -> in_graph b g n /\ forall i, ~ before b i n).
Proof.
  intros b B. apply built_wf in B. split; [apply (wf_once b B)| ]. intros g n H. cbn [node_of] in H. split.
  - apply in_graph_nth. now apply (wf_root b B).
  - intros i Hi. destruct (wf_edge b B i n Hi) as (_ & _ & X). now apply (X g).
Qed.

(** *** Running *)
(** A task starts only after everything that must run before it has ended. *)
Theorem c62_order : forall b g w l1 l2 i j,
  runs b g w (l1 ++ Start j :: l2) -> before b i j -> In (End i) l1.
Proof.
  intros b g w l1 l2 i j [s H] Hij. rewrite events_app in H.
  destruct (events b w (begin b g) l1) as [s1| ] eqn:E1; [ |discriminate].
  destruct (run_facts b g w l1 s1 E1) as [[L C N M] [H1 H2 H3 H4]]. cbn [events happen] in H.
  destruct (mem j (r_queue s1)) eqn:Mj; cbn [andb] in H; [ |discriminate]. apply mem_in in Mj.
  apply H2. apply (M j); auto. unfold touched. rewrite !in_app_iff. auto.
Qed.

(** No task starts twice; a task ends only after it started, once; only tasks of the graph run, and
    never more than there are workers. *)
Theorem c62_once : forall b g w l1 e l2, runs b g w (l1 ++ e :: l2) ->
  match e with
  | Start j => ~ In (Start j) l1 /\ in_graph b g j
  | End j => In (Start j) l1 /\ ~ In (End j) l1
  end.
Proof.
  intros b g w l1 e l2 [s H]. rewrite events_app in H.
  destruct (events b w (begin b g) l1) as [s1| ] eqn:E1; [ |discriminate].
  destruct (run_facts b g w l1 s1 E1) as [[L C N M] [H1 H2 H3 H4]]. cbn [events] in H.
  unfold touched in *. apply nodup_app in N. destruct N as (N1 & N2 & N3). apply nodup_app in N2. destruct N2 as (N2 & N4 & N5).
  destruct e as [j|j]; cbn [happen] in H.
  - destruct (mem j (r_queue s1)) eqn:Mj; cbn [andb] in H; [ |discriminate]. apply mem_in in Mj. split.
    + rewrite H1. now apply N3.
    + apply M. rewrite in_app_iff. auto.
  - destruct (mem j (r_active s1)) eqn:Mj; [ |discriminate]. apply mem_in in Mj. split.
    + rewrite H1, in_app_iff. auto.
    + rewrite H2. now apply N5.
Qed.

(** Tasks that run at the same time are never more than the workers. *)
Theorem c62_workers : forall b g w l js, runs b g w l -> NoDup js ->
  (forall j, In j js -> In (Start j) l /\ ~ In (End j) l) -> length js <= w.
Proof.
  intros b g w l js [s H] N X. destruct (run_facts b g w l s H) as [_ [H1 H2 H3 H4]].
  transitivity (length (r_active s)); auto. apply NoDup_incl_length; auto. intros j Hj. destruct (X j Hj) as [X1 X2].
  rewrite H1, in_app_iff in X1. rewrite H2 in X2. tauto.
Qed.

(** Every run comes to an end, and while it is not over some worker can go on. *)
Theorem c62_ends : forall b g w l, runs b g w l ->
  length l <= 2 * length (b_nodes b) /\
  (0 < w -> (exists j, In (Start j) l /\ ~ In (End j) l) -> exists e, runs b g w (l ++ [e])).
Proof.
  intros b g w l [s H]. destruct (run_facts b g w l s H) as [[L C N M] [H1 H2 H3 H4]]. split.
  - assert (X : length (touched s) <= length (b_nodes b)).
    { rewrite <- (seq_length (length (b_nodes b)) 0). apply NoDup_incl_length; auto. intros j Hj.
      apply M in Hj. destruct Hj as [Hj _]. apply in_graph_nth in Hj. apply in_seq. lia. }
    unfold touched in X. rewrite !app_length in X. lia.
  - intros _ (j & J1 & J2). exists (End j). unfold runs. rewrite events_app, H. cbn [events happen].
    rewrite H1, in_app_iff, <- H2 in J1. destruct J1 as [J1|J1]; [ |contradiction]. apply mem_in in J1. rewrite J1. eauto.
Qed.

(** When a run is over every task of the graph has ended -- if there is no cycle and nothing of
    another graph must run before one of its tasks. *)
Theorem c62_complete_partial : forall b g w l, 0 < w -> no_cycle b -> own b g -> over b g w l ->
  forall j, in_graph b g j -> In (Start j) l /\ In (End j) l.
Proof.
  intros b g w l Hw [rank R] O [[s H] X]. destruct (run_facts b g w l s H) as [[L C N M] [H1 H2 H3 H4]].
  assert (A0 : r_active s = []).
  { destruct (r_active s) as [ | j r] eqn:A; auto. exfalso. apply (X (End j)). unfold runs. rewrite events_app, H.
    cbn [events happen]. rewrite A. unfold mem. cbn [existsb]. rewrite Nat.eqb_refl. cbn [orb]. eauto. }
  assert (Q0 : r_queue s = []).
  { destruct (r_queue s) as [ | j r] eqn:Q; auto. exfalso. apply (X (Start j)). unfold runs. rewrite events_app, H.
    cbn [events happen]. rewrite Q, A0. unfold mem. cbn [existsb]. rewrite Nat.eqb_refl. cbn [orb andb length].
    rewrite (proj2 (Nat.ltb_lt 0 w) Hw). eauto. }
  assert (K : forall n j, rank j < n -> in_graph b g j -> In j (r_ended s)).
  { induction n as [ | n IH]; intros j Hn Hj; [lia| ].
    assert (Y : In j (touched s)).
    { apply M. split; auto. intros i Hi. apply IH; [specialize (R i j Hi); lia|]. now apply (O i j). }
    unfold touched in Y. rewrite A0, Q0 in Y. exact Y. }
  intros j Hj. assert (Y : In j (r_ended s)) by (apply (K (S (rank j)) j); auto).
  rewrite H1, H2, in_app_iff. auto.
Qed.

(** A program that only ever chains tasks that were in no graph yet gets every task of every graph
    executed. *)
Theorem c62_chains : forall calls b g w l, orderly nothing calls -> builds nothing calls = Some b -> 0 < w -> over b g w l ->
  forall j, in_graph b g j -> In (Start j) l /\ In (End j) l.
Proof.
  intros calls b g w l O B Hw Ov.
  assert (RK : ranked b) by (apply (orderly_ranked calls nothing b); auto using nothing_wf; intros i j []).
  apply c62_complete_partial with (w := w); auto.
  - exists (fun i => i). intros i j Hij. now apply RK in Hij.
  - intros i j Hij Hj. apply RK in Hij. unfold in_graph in *. destruct Hij as [_ ->]. auto.
Qed.

Definition diamond : list call :=
  [NewGraph; NewTask; NewTask; NewTask; Then (G 0) (T 0); Then (G 0) (T 1); Then (T 0) (T 2); Then (T 1) (T 2)].
Definition diamond_b : build :=
  {| b_nodes := [0; 0; 0; 0]; b_edges := [(0, 1); (0, 2); (1, 3); (2, 3)]; b_graphs := [0]; b_tasks := [Some 1; Some 2; Some 3] |}.
Definition diamond_run : list event := [Start 0; End 0; Start 2; Start 1; End 1; End 2; Start 3; End 3].
Example c62_diamond : builds nothing diamond = Some diamond_b /\ no_cycle diamond_b /\ own diamond_b 0 /\ over diamond_b 0 2 diamond_run.
Proof.
  split; [reflexivity| ]. split.
  { exists (fun i => i). intros i j H. unfold before, diamond_b in H. cbn [b_edges In] in H.
    intuition (match goal with E : (_, _) = (_, _) |- _ => inversion E; subst end; (lia || reflexivity)). }
  split.
  { intros i j H _. unfold before, diamond_b in H. cbn [b_edges In] in H.
    intuition (match goal with E : (_, _) = (_, _) |- _ => inversion E; subst end; (lia || reflexivity)). }
  split; [eexists; vm_compute; reflexivity| ].
  intros e [s X]. rewrite events_app in X. revert X.
  replace (events diamond_b 2 (begin diamond_b 0) diamond_run) with
    (Some {| r_count := [0; 0; 0; 0]%Z; r_queue := []; r_active := []; r_ended := [3; 2; 1; 0] |}) by (vm_compute; reflexivity).
  destruct e; cbn; discriminate.
Qed.
(** Both middle tasks run at the same time. *)
Example c62_parallel : runs diamond_b 0 2 [Start 0; End 0; Start 2; Start 1] /\ ~ runs diamond_b 0 1 [Start 0; End 0; Start 2; Start 1].
Proof. split; [eexists; vm_compute; reflexivity|]. intros [s X]. vm_compute in X. discriminate. Qed.
Example c62_chain_case :
  orderly nothing [NewGraph; NewTask; NewTask; Then (G 0) (T 0); Then (T 0) (T 1)] /\
  exists b, builds nothing [NewGraph; NewTask; NewTask; Then (G 0) (T 0); Then (T 0) (T 1)] = Some b /\
    over b 0 1 [Start 0; End 0; Start 1; End 1; Start 2; End 2].
Proof.
  split; [cbn; repeat split; reflexivity| ]. eexists. split; [vm_compute; reflexivity| ].
  split; [eexists; vm_compute; reflexivity| ]. intros e [s X]. rewrite events_app in X. revert X.
  match goal with |- context [events ?b 1 ?s ?l] => replace (events b 1 s l) with
    (Some {| r_count := [0; 0; 0]%Z; r_queue := []; r_active := []; r_ended := [2; 1; 0] |}) by (vm_compute; reflexivity) end.
  destruct e; cbn; discriminate.
Qed.
(** The three outcomes of then(). *)
Example c62_then_cases :
  snd (thenRef diamond_b (T 0) (G 0)) = NotSupported /\ snd (thenRef diamond_b (T 2) (T 0)) = Ok /\
  snd (thenRef (mkTask (mkTask nothing)) (T 0) (T 1)) = Crash.
Proof. repeat split; reflexivity. Qed.

(** A cycle is accepted without an error; its tasks never run, and the run is over all the same. *)
Theorem c62_cycle_refuted :
  ~ (forall b g w l, built b -> 0 < w -> own b g -> over b g w l -> forall j, in_graph b g j -> In (End j) l).
Proof.
  intros X.
  specialize (X {| b_nodes := [0; 0; 0]; b_edges := [(0, 1); (1, 2); (2, 1)]; b_graphs := [0]; b_tasks := [Some 1; Some 2] |} 0 1 [Start 0; End 0]).
  assert (Y : In (End 1) [Start 0; End 0]).
  { apply X.
    - exists [NewGraph; NewTask; NewTask; Then (G 0) (T 0); Then (T 0) (T 1); Then (T 1) (T 0)]. reflexivity.
    - lia.
    - intros i j H _. unfold before in H. cbn [b_edges In] in H. intuition (match goal with E : (_, _) = (_, _) |- _ => inversion E; subst end; (lia || reflexivity)).
    - split; [eexists; vm_compute; reflexivity| ]. intros e [s H]. rewrite events_app in H. revert H.
      match goal with |- context [events ?b 1 ?s ?l] => replace (events b 1 s l) with
        (Some {| r_count := [0; 1; 1]%Z; r_queue := []; r_active := []; r_ended := [0] |}) by (vm_compute; reflexivity) end.
      destruct e; cbn; discriminate.
    - reflexivity. }
  cbn [In] in Y. intuition discriminate.
Qed.

(** Nor does a task run that must wait for a task of another graph. *)
Theorem c62_other_graph_refuted :
  ~ (forall b g w l, built b -> 0 < w -> no_cycle b -> over b g w l -> forall j, in_graph b g j -> In (End j) l).
Proof.
  intros X.
  specialize (X {| b_nodes := [0; 1; 0; 1]; b_edges := [(0, 2); (1, 3); (2, 3)]; b_graphs := [0; 1]; b_tasks := [Some 2; Some 3] |} 1 1 [Start 1; End 1]).
  assert (Y : In (End 3) [Start 1; End 1]).
  { apply X.
    - exists [NewGraph; NewGraph; NewTask; NewTask; Then (G 0) (T 0); Then (G 1) (T 1); Then (T 0) (T 1)]. reflexivity.
    - lia.
    - exists (fun i => i). intros i j H. unfold before in H. cbn [b_edges In] in H. intuition (match goal with E : (_, _) = (_, _) |- _ => inversion E; subst end; (lia || reflexivity)).
    - split; [eexists; vm_compute; reflexivity| ]. intros e [s H]. rewrite events_app in H. revert H.
      match goal with |- context [events ?b 1 ?s ?l] => replace (events b 1 s l) with
        (Some {| r_count := [0; 0; 0; 1]%Z; r_queue := []; r_active := []; r_ended := [1] |}) by (vm_compute; reflexivity) end.
      destruct e; cbn; discriminate.
    - reflexivity. }
  cbn [In] in Y. intuition discriminate.
Qed.

(** Chaining two tasks before one of them is in a graph crashes. *)
Theorem c62_unattached_refuted :
  ~ (forall b a c, built b -> there b a -> there b c -> snd (thenRef b a c) <> Crash).
Proof.
  intros X. apply (X (mkTask (mkTask nothing)) (T 0) (T 1)); try reflexivity; try (cbn; lia).
  exists [NewTask; NewTask]. reflexivity.
Qed.

(** *** Awaitables *)
(** getResult gives what the function gave (nothing, if it was cancelled before it started). *)
Theorem c62_result : forall l,
  (forall v, answers l GetResult = Result v -> worked l (Value v) /\ ~ cancelled_first l) /\
  (forall e, answers l GetResult = Failed e -> worked l (Threw e) /\ ~ cancelled_first l) /\
  (answers l GetResult = Null -> cancelled_first l \/ worked l Nothing).
Proof.
  intros l. unfold answers. cbn [acts]. unfold getResult. pose proof (done_cases l) as D.
  destruct (negb (a_completed (acted fresh l)) && negb (a_valid (acted fresh l))); [repeat split; discriminate| ].
  destruct (negb (a_valid (acted fresh l))); [repeat split; discriminate| ].
  destruct (a_done (acted fresh l)) as [[v|e| ]| ]; cbn [snd].
  - specialize (D _ eq_refl). destruct D as [[_ D]|[D1 D2]]; [discriminate| ].
    split; [ |split; discriminate]. intros v0 E. inversion E; subst. auto.
  - specialize (D _ eq_refl). destruct D as [[_ D]|[D1 D2]]; [discriminate| ].
    split; [discriminate| ]. split; [ |discriminate]. intros v0 E. inversion E; subst. auto.
  - specialize (D _ eq_refl). split; [discriminate| ]. split; [discriminate| ]. intros _. tauto.
  - repeat split; discriminate.
Qed.

(** The first getResult after the function returned gives its outcome; none gives it again. *)
Theorem c62_result_given : forall l o, worked l o -> ~ cancelled_first l ->
  (forall l1 l2, l = l1 ++ GetResult :: l2 -> ~ final (answers l1 GetResult)) -> answers l GetResult = answer_of o.
Proof.
  intros l o Wk NC NF. destruct (worked_done l o Wk) as (p & D & P). specialize (P NC). subst p.
  destruct (acted_inv l) as [_ _ JH _]. unfold answers. cbn [acts]. unfold getResult.
  destruct (a_valid (acted fresh l)) eqn:V.
  - cbn [negb]. rewrite andb_false_r, D. destruct o; reflexivity.
  - exfalso. destruct (proj1 JH eq_refl) as (l1 & l2 & E & F). now apply (NF l1 l2).
Qed.
Theorem c62_result_once : forall l1 l2, final (answers l1 GetResult) -> ~ final (answers (l1 ++ GetResult :: l2) GetResult).
Proof.
  intros l1 l2 F. destruct (acted_inv (l1 ++ GetResult :: l2)) as [_ _ JH _].
  assert (V : a_valid (acted fresh (l1 ++ GetResult :: l2)) = false) by (apply JH; exists l1, l2; auto).
  unfold answers. cbn [acts]. unfold getResult. rewrite V. cbn [negb].
  destruct (negb (a_completed (acted fresh (l1 ++ GetResult :: l2))) && true); cbn [snd final]; auto.
Qed.

(** wait returns only when there is an outcome, and does not block once the function returned. *)
Theorem c62_wait : forall l,
  (answers l Wait = Good \/ answers l Wait = Ignored -> cancelled_first l \/ exists o, worked l o) /\
  (forall o, worked l o -> answers l Wait <> Blocks /\ answers l GetResult <> Blocks).
Proof.
  intros l. destruct (acted_inv l) as [_ JC _ _]. split.
  - intros A. assert (D : a_done (acted fresh l) <> None).
    { unfold answers in A. cbn [acts] in A. unfold wait in A. destruct (a_completed (acted fresh l)); [auto| ].
      destruct (negb (a_valid (acted fresh l))); [destruct A; discriminate| ].
      destruct (a_done (acted fresh l)); [discriminate|destruct A; discriminate]. }
    destruct (a_done (acted fresh l)) as [o| ] eqn:E; [ |congruence]. destruct (done_cases l o E) as [[D1 _]|[_ D1]]; [auto|]. right. eauto.
  - intros o Wk. destruct (worked_done l o Wk) as (p & D & _). unfold answers. cbn [acts]. unfold wait, getResult. rewrite D. split.
    + destruct (a_completed (acted fresh l)); [discriminate| ]. destruct (negb _); discriminate.
    + destruct (negb (a_completed (acted fresh l)) && _); [discriminate| ]. destruct (negb _); [discriminate| ]. destruct p; discriminate.
Qed.

(** As long as there is no outcome, both wait. *)
Theorem c62_blocks : forall l, ~ cancelled_first l -> (forall o, ~ worked l o) ->
  answers l Wait = Blocks /\ answers l GetResult = Blocks.
Proof.
  intros l NC NW. destruct (acted_inv l) as [_ JC _ JV].
  assert (D : a_done (acted fresh l) = None).
  { destruct (a_done (acted fresh l)) as [o| ] eqn:E; [ |reflexivity]. destruct (done_cases l o E) as [[D1 _]|[_ D1]]; [tauto|].
    destruct (NW o D1). }
  unfold answers. cbn [acts]. unfold wait, getResult.
  destruct (a_completed (acted fresh l)); [destruct (JC eq_refl); exact D| ].
  destruct (a_valid (acted fresh l)); [ |destruct (JV eq_refl); exact D].
  rewrite D. split; reflexivity.
Qed.

(** The function is called once at most. *)
Theorem c62_function_once : forall l, times_run l <= 1.
Proof.
  intros l. destruct (acted_inv l) as [JS _ _ _]. unfold times_run, stage in *. destruct (a_work (acted fresh l)).
  - destruct JS as (_ & _ & _ & ->). lia.
  - destruct JS as (-> & _). lia.
  - destruct JS as (-> & _). lia.
Qed.

(** hasCompleted is true only after the outcome was handed out. *)
Theorem c62_completed_partial : forall l, answers l HasCompleted = Says true <->
  exists l1 l2, l = l1 ++ GetResult :: l2 /\ final (answers l1 GetResult).
Proof.
  intros l. destruct (acted_inv l) as [_ _ JH _]. unfold answers at 1. cbn [acts snd]. unfold hasCompleted. split.
  - intros E. apply JH. destruct (a_valid (acted fresh l)); [discriminate|reflexivity].
  - intros E. apply JH in E. now rewrite E.
Qed.

(** It says no although the function returned and wait confirmed it. *)
Theorem c62_completed_refuted :
  ~ (forall l o, worked l o -> answers l HasCompleted = Says true) /\
  ~ (forall l l', answers l Wait = Good -> answers (l ++ Wait :: l') HasCompleted = Says true).
Proof.
  split.
  - intros X. assert (W : worked [Begin; Finish (Value 7)] (Value 7)).
    { exists [], [], []. repeat split; auto; intros c []. }
    specialize (X _ _ W). discriminate.
  - intros X. specialize (X [Begin; Finish (Value 7)] [] eq_refl). discriminate.
Qed.

(** A call that was cancelled before it started gives no value ... *)
Theorem c62_cancel_partial : forall l, cancelled_first l -> forall v e,
  answers l GetResult <> Result v /\ answers l GetResult <> Failed e.
Proof.
  intros l C v e. destruct (c62_result l) as (R1 & R2 & _). split; intros E.
  - now apply R1 in E.
  - now apply R2 in E.
Qed.
(** ... but it runs. *)
Theorem c62_cancel_refuted :
  ~ (forall l l', times_run l = 0 -> answers l Cancel = Says true -> times_run (l ++ Cancel :: l') = 0).
Proof. intros X. specialize (X [] [Begin] eq_refl eq_refl). discriminate. Qed.

Example c62_await_case :
  worked [HasCompleted; Begin; Wait; Finish (Value 7); Wait] (Value 7) /\
  ~ cancelled_first [HasCompleted; Begin; Wait; Finish (Value 7); Wait] /\
  answers [HasCompleted; Begin] GetResult = Blocks /\
  answers [HasCompleted; Begin; Wait; Finish (Value 7); Wait] GetResult = Result 7 /\
  answers [HasCompleted; Begin; Wait; Finish (Value 7); Wait; GetResult] GetResult = NoState /\
  answers [Begin; Finish (Threw 5)] GetResult = Failed 5 /\
  answers [Begin; Finish (Threw 5); GetResult] GetResult = Empty /\
  answers [Cancel; Begin] GetResult = Null.
Proof.
  split. { exists [HasCompleted], [Wait], [Wait]. repeat split; auto; cbn; intros; intuition (subst; auto; discriminate). }
  split.
  { intros (l1 & l2 & E & N & C). destruct l1 as [ | x [ | y l1]].
    - destruct C.
    - inversion E; subst. destruct C as [C|[]]. discriminate.
    - inversion E; subst. apply N. right. now left. }
  repeat split; reflexivity.
Qed.

(** *** Stopping *)
(** When stop() or waitAll() returns, every work that was accepted has been executed, as often as it
    was accepted. *)
Theorem c62_stop : forall l ws ds, accepted l ws -> executed l ds ->
  (replies l StopReset = Fine -> Permutation ws ds) /\ (replies l WaitAll = Fine -> Permutation ws ds).
Proof.
  intros l ws ds HA HE. destruct (works_kept l ws ds HA HE) as [I1 I2]. unfold replies. cbn [sact].
  assert (K : drained (sacts started l) = true -> Permutation ws ds).
  { unfold drained. intros D. destruct (s_queue (sacts started l)); [ |discriminate].
    destruct (s_active (sacts started l)); [ |discriminate]. exact I2. }
  split.
  - destruct (s_stopped (sacts started l)); [ |discriminate]. destruct (drained (sacts started l)); [auto|discriminate].
  - destruct (s_alive (sacts started l)); [ |discriminate]. destruct (drained (sacts started l)); [auto|discriminate].
Qed.
(** No work is executed that was not accepted. *)
Theorem c62_only_accepted : forall l ws ds w, accepted l ws -> executed l ds ->
  count_occ Nat.eq_dec ds w <= count_occ Nat.eq_dec ws w.
Proof.
  intros l ws ds w HA HE. destruct (works_kept l ws ds HA HE) as [_ I2].
  rewrite (proj1 (Permutation_count_occ Nat.eq_dec _ _) I2 w), !count_occ_app. lia.
Qed.
(** After stop() was called nothing is scheduled any more; before, a call that stop() does not
    overtake is accepted. *)
Theorem c62_refused : forall l w,
  (In StopFlag l -> replies l (Check w) = Stopped) /\
  (~ In StopFlag l -> replies l (Check w) = Fine /\ replies (l ++ [Check w]) (Submit w) = Fine).
Proof.
  intros l w. split.
  - intros H. apply stop_flag in H. unfold replies. cbn [sact]. now rewrite H.
  - intros H. assert (E : s_stopped (sacts started l) = false).
    { destruct (s_stopped (sacts started l)) eqn:E; auto. now apply stop_flag in E. }
    assert (A : s_alive (sacts started l) = true).
    { destruct (s_alive (sacts started l)) eqn:A; auto. now apply alive_until in A. }
    unfold replies. rewrite sacts_snoc. cbn [sact]. rewrite E. cbn [fst snd s_checked s_alive]. split; auto.
    unfold mem. cbn [existsb]. rewrite Nat.eqb_refl. cbn [orb]. now rewrite A.
Qed.
(** Every history has its accepted and executed works. *)
Theorem c62_works_exist : forall l, (exists ws, accepted l ws) /\ (exists ds, executed l ds).
Proof. intros l. split; [apply accepted_total|apply executed_total]. Qed.

Example c62_stop_case :
  accepted [Check 4; Submit 4; StopFlag; Take 4; Done 4] [4] /\ executed [Check 4; Submit 4; StopFlag; Take 4; Done 4] [4] /\
  replies [Check 4; Submit 4; StopFlag] StopReset = Waits /\ replies [Check 4; Submit 4; StopFlag; Take 4; Done 4] StopReset = Fine.
Proof.
  split.
  { apply (acc_other [Check 4; Submit 4; StopFlag; Take 4]); [ |intros; discriminate].
    apply (acc_other [Check 4; Submit 4; StopFlag]); [ |intros; discriminate].
    apply (acc_other [Check 4; Submit 4]); [ |intros; discriminate].
    apply (acc_submit [Check 4]); [ |reflexivity].
    apply (acc_other []); [constructor|intros; discriminate]. }
  split; [ |split; reflexivity].
  apply (exe_done [Check 4; Submit 4; StopFlag; Take 4]); [ |reflexivity].
  apply (exe_other [Check 4; Submit 4; StopFlag]); [ |intros; discriminate].
  apply (exe_other [Check 4; Submit 4]); [ |intros; discriminate].
  apply (exe_other [Check 4]); [ |intros; discriminate].
  apply (exe_other []); [constructor|intros; discriminate].
Qed.

(** stop() between the two halves of a schedule call leaves that call with a pool that is gone. *)
Theorem c62_race_refuted : ~ (forall l l' w, replies l (Check w) = Fine -> replies (l ++ Check w :: l') (Submit w) <> Dead).
Proof. intros X. apply (X [] [StopFlag; StopReset] 7); reflexivity. Qed.
(** waitAll and isMultiThreaded use the pool that is gone after stop(). *)
Theorem c62_after_stop_refuted : ~ (forall l, replies l WaitAll <> Dead) /\ ~ (forall l, replies l IsMultiThreaded <> Dead).
Proof. split; intros X; apply (X [StopFlag; StopReset]); reflexivity. Qed.

Print Assumptions c62_then.
Print Assumptions c62_nodes.
Print Assumptions c62_order.
Print Assumptions c62_once.
Print Assumptions c62_workers.
Print Assumptions c62_ends.
Print Assumptions c62_complete_partial.
Print Assumptions c62_chains.
Print Assumptions c62_cycle_refuted.
Print Assumptions c62_other_graph_refuted.
Print Assumptions c62_unattached_refuted.
Print Assumptions c62_result.
Print Assumptions c62_result_given.
Print Assumptions c62_result_once.
Print Assumptions c62_wait.
Print Assumptions c62_blocks.
Print Assumptions c62_function_once.
Print Assumptions c62_completed_partial.
Print Assumptions c62_completed_refuted.
Print Assumptions c62_cancel_partial.
Print Assumptions c62_cancel_refuted.
Print Assumptions c62_stop.
Print Assumptions c62_only_accepted.
Print Assumptions c62_refused.
Print Assumptions c62_works_exist.
Print Assumptions c62_race_refuted.
Print Assumptions c62_after_stop_refuted.
