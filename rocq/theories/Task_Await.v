(** Proofs about awaitables and the scheduler's thread pool. *)
From Coq Require Import Permutation.
From Verif Require Import Base Task_Model Task_Spec Task_Proofs.

Lemma split_first : forall {A} (P : A -> Prop) l1 x r l1' x' r',
  l1 ++ x :: r = l1' ++ x' :: r' -> P x -> P x' ->
  (forall c, In c l1 -> ~ P c) -> (forall c, In c l1' -> ~ P c) -> l1 = l1' /\ x = x' /\ r = r'.
Proof.
  intros A P. induction l1 as [ | y l1 IH]; intros x r l1' x' r' E Px Px' H H'; destruct l1' as [ | y' l1']; cbn [app] in E.
  - inversion E. auto.
  - inversion E; subst. exfalso. apply (H' y'); auto. now left.
  - inversion E; subst. exfalso. apply (H x'); auto. now left.
  - inversion E; subst. destruct (IH x r l1' x' r') as (A1 & A2 & A3); auto.
    + intros c Hc. apply H. now right.
    + intros c Hc. apply H'. now right.
    + subst. auto.
Qed.

Lemma acted_snoc : forall l c, acted fresh (l ++ [c]) = fst (acts (acted fresh l) c).
Proof. intros. unfold acted. now rewrite fold_left_app. Qed.

(** Where the work stands after a history. *)
Definition stage (l : list acall) (a : awaitable) : Prop :=
  match a_work a with
  | Waiting => ~ In Begin l /\ a_done a = None /\ (a_cancelled a = true <-> In Cancel l) /\ a_ran a = 0
  | Running => a_ran a = 1 /\ exists l1 l2, l = l1 ++ Begin :: l2 /\ ~ In Begin l1 /\ (forall c, In c l2 -> ~ is_finish c) /\
      ((In Cancel l1 /\ a_done a = Some Nothing) \/ (~ In Cancel l1 /\ a_done a = None))
  | Ended => a_ran a = 1 /\ exists l1 l2 o l3, l = l1 ++ Begin :: l2 ++ Finish o :: l3 /\ ~ In Begin l1 /\ (forall c, In c l2 -> ~ is_finish c) /\
      ((In Cancel l1 /\ a_done a = Some Nothing) \/ (~ In Cancel l1 /\ a_done a = Some o))
  end.

Definition handed (l : list acall) : Prop := exists l1 l2, l = l1 ++ GetResult :: l2 /\ final (answers l1 GetResult).

Record ainv (l : list acall) (a : awaitable) : Prop := {
  ai_stage : stage l a;
  ai_completed : a_completed a = true -> a_done a <> None;
  ai_handed : a_valid a = false <-> handed l;
  ai_taken : a_valid a = false -> a_done a <> None
}.

(** A call that is no step of the work keeps the stage. *)
Lemma stage_keep : forall l a a' c, stage l a -> c <> Begin -> ~ is_finish c -> c <> Cancel ->
  a_work a' = a_work a -> a_done a' = a_done a -> a_cancelled a' = a_cancelled a -> a_ran a' = a_ran a -> stage (l ++ [c]) a'.
Proof.
  intros l a a' c H NB NF NC E1 E2 E3 E4. unfold stage in *. rewrite E1, E2, E3, E4. destruct (a_work a).
  - destruct H as (H1 & H2 & H3 & H4). split; [ |split; [auto| ]; split; auto].
    + rewrite in_app_iff. cbn [In]. intros [X|[X|[]]]; auto.
    + rewrite H3, in_app_iff. cbn [In]. split; auto. intros [X|[X|[]]]; auto; congruence.
  - destruct H as (R & l1 & l2 & -> & H1 & H2 & H3). split; auto. exists l1, (l2 ++ [c]).
    rewrite <- app_assoc. repeat split; auto. intros x. rewrite in_app_iff. cbn [In]. intros [X|[ <- |[]]]; auto.
  - destruct H as (R & l1 & l2 & o & l3 & -> & H1 & H2 & H3). split; auto. exists l1, l2, o, (l3 ++ [c]).
    split; auto. rewrite <- !app_assoc. cbn [app]. now rewrite <- app_assoc.
Qed.

Lemma handed_snoc : forall l c, handed (l ++ [c]) <-> handed l \/ (c = GetResult /\ final (answers l GetResult)).
Proof.
  intros l c. unfold handed. split.
  - intros (l1 & l2 & E & F). destruct l2 as [ | y l2] using rev_ind.
    + apply app_inj_tail in E. destruct E as [-> ->]. right. auto.
    + left. exists l1, l2. split; auto. rewrite app_comm_cons, app_assoc in E. now apply app_inj_tail in E.
  - intros [(l1 & l2 & -> & F)|[-> F]].
    + exists l1, (l2 ++ [c]). split; auto. now rewrite <- app_assoc.
    + exists l, []. auto.
Qed.

Lemma stage_begin : forall l a, stage l a -> a_work a = Waiting -> stage (l ++ [Begin]) (beginWork a).
Proof.
  intros l a H W. unfold stage in H. rewrite W in H. destruct H as (H1 & H2 & H3 & H4).
  unfold stage, beginWork. cbn [a_work a_ran a_done]. split; [lia| ].
  exists l, []. split; auto. split; auto. split; [intros c []| ].
  destruct (a_cancelled a).
  - left. split; auto. now apply H3.
  - right. split; auto. intros X. apply H3 in X. discriminate.
Qed.

Lemma stage_again : forall l a, stage l a -> a_work a <> Waiting -> stage (l ++ [Begin]) a.
Proof.
  intros l a H W. unfold stage in *. destruct (a_work a); [congruence| | ].
  - destruct H as (R & l1 & l2 & -> & H1 & H2 & H3). split; auto. exists l1, (l2 ++ [Begin]).
    rewrite <- app_assoc. repeat split; auto. intros x. rewrite in_app_iff. cbn [In].
    intros [X|[ <- |[]]]; auto.
  - destruct H as (R & l1 & l2 & o & l3 & -> & H1 & H2 & H3). split; auto. exists l1, l2, o, (l3 ++ [Begin]).
    split; auto. rewrite <- !app_assoc. cbn [app]. now rewrite <- app_assoc.
Qed.

Lemma stage_finish : forall l a o, stage l a -> a_work a = Running -> stage (l ++ [Finish o]) (finishWork a o).
Proof.
  intros l a o H W. unfold stage in H. rewrite W in H. destruct H as (R & l1 & l2 & -> & H1 & H2 & H3).
  unfold stage, finishWork. cbn [a_work a_ran a_done]. split; auto. exists l1, l2, o, [].
  split; [now rewrite <- app_assoc| ]. split; auto. split; auto.
  destruct H3 as [[C D]|[C D]]; rewrite D; auto.
Qed.

Lemma stage_nofinish : forall l a o, stage l a -> a_work a <> Running -> stage (l ++ [Finish o]) a.
Proof.
  intros l a o H W. unfold stage in *. destruct (a_work a); [ |congruence| ].
  - destruct H as (H1 & H2 & H3 & H4). split; [ |split; [auto| ]; split; auto].
    + rewrite in_app_iff. cbn [In]. intros [X|[X|[]]]; auto. discriminate.
    + rewrite H3, in_app_iff. cbn [In]. split; auto. intros [X|[X|[]]]; auto; discriminate.
  - destruct H as (R & l1 & l2 & p & l3 & -> & H1 & H2 & H3). split; auto. exists l1, l2, p, (l3 ++ [Finish o]).
    split; auto. rewrite <- !app_assoc. cbn [app]. now rewrite <- app_assoc.
Qed.

Lemma stage_cancel : forall l a a', stage l a ->
  a_work a' = a_work a -> a_done a' = a_done a -> a_ran a' = a_ran a -> (a_work a = Waiting -> a_cancelled a' = true) ->
  stage (l ++ [Cancel]) a'.
Proof.
  intros l a a' H E1 E2 E3 E4. unfold stage in *. rewrite E1, E2, E3. destruct (a_work a).
  - destruct H as (H1 & H2 & H3 & H4). split; [ |split; [auto| ]; split; auto].
    + rewrite in_app_iff. cbn [In]. intros [X|[X|[]]]; auto. discriminate.
    + rewrite E4 by auto. rewrite in_app_iff. cbn [In]. tauto.
  - destruct H as (R & l1 & l2 & -> & H1 & H2 & H3). split; auto. exists l1, (l2 ++ [Cancel]).
    rewrite <- app_assoc. repeat split; auto. intros x. rewrite in_app_iff. cbn [In]. intros [X|[ <- |[]]]; auto.
  - destruct H as (R & l1 & l2 & o & l3 & -> & H1 & H2 & H3). split; auto. exists l1, l2, o, (l3 ++ [Cancel]).
    split; auto. rewrite <- !app_assoc. cbn [app]. now rewrite <- app_assoc.
Qed.

Lemma handed_keep : forall l c a, (a_valid a = false <-> handed l) -> c <> GetResult -> (a_valid a = false <-> handed (l ++ [c])).
Proof. intros l c a H N. rewrite handed_snoc, H. tauto. Qed.

Lemma fresh_inv : ainv [] fresh.
Proof.
  constructor.
  - unfold stage, fresh. cbn [a_work a_done a_cancelled a_ran In]. repeat split; auto; try tauto; discriminate.
  - discriminate.
  - split; [discriminate| ]. intros (l1 & l2 & E & _). destruct l1; discriminate.
  - discriminate.
Qed.

Lemma acts_inv : forall l c, ainv l (acted fresh l) -> ainv (l ++ [c]) (acted fresh (l ++ [c])).
Proof.
  intros l c J. rewrite acted_snoc.
  assert (FA : answers l GetResult = snd (getResult (acted fresh l))) by reflexivity.
  set (a := acted fresh l) in *. clearbody a. destruct J as [JS JC JH JT]. destruct c; cbn [acts].
  - (* Begin *)
    destruct (a_work a) eqn:W; cbn [isWaiting fst].
    + constructor.
      * now apply stage_begin.
      * unfold beginWork. cbn [a_completed a_done]. destruct (a_cancelled a); [discriminate|exact JC].
      * unfold beginWork. cbn [a_valid]. now apply handed_keep.
      * unfold beginWork. cbn [a_valid a_done]. destruct (a_cancelled a); [discriminate|exact JT].
    + constructor; auto. { apply stage_again; auto. congruence. } now apply handed_keep.
    + constructor; auto. { apply stage_again; auto. congruence. } now apply handed_keep.
  - (* Finish *)
    destruct (a_work a) eqn:W; cbn [isRunning fst].
    + constructor; auto. { apply stage_nofinish; auto. congruence. } now apply handed_keep.
    + constructor.
      * now apply stage_finish.
      * unfold finishWork. cbn [a_completed a_done]. destruct (a_done a); discriminate.
      * unfold finishWork. cbn [a_valid]. now apply handed_keep.
      * unfold finishWork. cbn [a_done]. destruct (a_done a); discriminate.
    + constructor; auto. { apply stage_nofinish; auto. congruence. } now apply handed_keep.
  - (* Cancel *)
    destruct (isEnded (a_work a)) eqn:W; cbn [fst].
    + constructor; auto.
      * apply (stage_cancel l a); auto. intros X. rewrite X in W. discriminate.
      * now apply handed_keep.
    + constructor; auto.
      * apply (stage_cancel l a); auto.
      * now apply handed_keep.
  - (* Wait *)
    unfold wait. destruct (a_completed a) eqn:C; [ |destruct (a_valid a) eqn:V; cbn [negb]; [destruct (a_done a) eqn:D| ]]; cbn [fst].
    + constructor; auto. { apply (stage_keep l a); auto; try discriminate; intros []. } now apply handed_keep.
    + constructor.
      * apply (stage_keep l a); auto; try discriminate; intros [].
      * intros _. cbn [waited a_done]. congruence.
      * apply handed_keep; [ |discriminate]. cbn [waited a_valid]. now rewrite V.
      * cbn [waited a_done]. congruence.
    + constructor; auto; try congruence.
      * apply (stage_keep l a); auto; try discriminate; intros [].
      * apply handed_keep; [now rewrite V|discriminate].
    + constructor; auto; try congruence.
      * apply (stage_keep l a); auto; try discriminate; intros [].
      * apply handed_keep; [now rewrite V|discriminate].
  - (* GetResult *)
    unfold getResult in *. destruct (a_valid a) eqn:V; cbn [negb andb] in *.
    + rewrite andb_false_r in *.
      assert (NH : ~ handed l) by (intros X; apply JH in X; discriminate).
      assert (KS : forall x, stage (l ++ [GetResult]) (taken a x)).
      { intros x. apply (stage_keep l a); auto; try discriminate; intros []. }
      destruct (a_done a) as [[v|e| ]| ] eqn:D; cbn [fst snd] in *.
      * constructor; auto; try (cbn [taken a_done]; congruence).
        cbn [taken a_valid]. split; auto. intros _. apply handed_snoc. right. rewrite FA. cbn [final]. auto.
      * constructor; auto; try (cbn [taken a_done]; congruence).
        cbn [taken a_valid]. split; auto. intros _. apply handed_snoc. right. rewrite FA. cbn [final]. auto.
      * constructor; auto; try (cbn [taken a_done]; congruence).
        cbn [taken a_valid]. split; auto. intros _. apply handed_snoc. right. rewrite FA. cbn [final]. auto.
      * constructor.
        -- apply (stage_keep l a); auto; try discriminate; intros [].
        -- intros X. now apply JC in X.
        -- rewrite V, handed_snoc, FA. cbn [final]. split; [discriminate|]. tauto.
        -- congruence.
    + assert (H0 : handed l) by (now apply JH). rewrite andb_true_r in *.
      destruct (negb (a_completed a)); cbn [fst].
      * constructor; auto.
        -- apply (stage_keep l a); auto; try discriminate; intros [].
        -- rewrite handed_snoc, V. tauto.
      * constructor; auto.
        -- apply (stage_keep l a); auto; try discriminate; intros [].
        -- rewrite handed_snoc, V. tauto.
  - (* HasCompleted *)
    cbn [fst]. constructor; auto. { apply (stage_keep l a); auto; try discriminate; intros []. } now apply handed_keep.
Qed.

Lemma acted_inv : forall l, ainv l (acted fresh l).
Proof.
  induction l as [ | c l IH] using rev_ind; [exact fresh_inv|now apply acts_inv].
Qed.

(** What is in the shared state. *)
Lemma done_cases : forall l o, a_done (acted fresh l) = Some o ->
  (cancelled_first l /\ o = Nothing) \/ (~ cancelled_first l /\ worked l o).
Proof.
  intros l o D. destruct (acted_inv l) as [JS _ _ _]. unfold stage in JS. destruct (a_work (acted fresh l)).
  - destruct JS as (_ & E & _). congruence.
  - destruct JS as (_ & l1 & l2 & E & H1 & H2 & [[H3 H4]|[H3 H4]]).
    + left. split; [exists l1, l2; auto|congruence].
    + congruence.
  - destruct JS as (_ & l1 & l2 & p & l3 & E & H1 & H2 & [[H3 H4]|[H3 H4]]).
    + left. split; [exists l1, (l2 ++ Finish p :: l3); auto|congruence].
    + right. assert (p = o) by congruence. subst p. split; [ |now exists l1, l2, l3].
      intros (k1 & k2 & E' & K1 & K2). rewrite E in E'.
      destruct (split_first (fun c => c = Begin) _ _ _ _ _ _ E') as (A1 & _); auto.
      { intros c X ->. auto. } { intros c X ->. auto. } subst k1. auto.
Qed.

Lemma worked_done : forall l o, worked l o -> exists p, a_done (acted fresh l) = Some p /\ (~ cancelled_first l -> p = o).
Proof.
  intros l o (k1 & k2 & k3 & E & K1 & K2). destruct (acted_inv l) as [JS _ _ _]. unfold stage in JS. destruct (a_work (acted fresh l)).
  - destruct JS as (N & _). exfalso. apply N. rewrite E, in_app_iff. cbn [In]. auto.
  - destruct JS as (_ & l1 & l2 & E' & H1 & H2 & _). rewrite E in E'.
    destruct (split_first (fun c => c = Begin) _ _ _ _ _ _ E') as (_ & _ & A3); auto.
    { intros c X ->. auto. } { intros c X ->. auto. }
    exfalso. apply (H2 (Finish o)); [ |exact I]. rewrite <- A3, in_app_iff. cbn [In]. auto.
  - destruct JS as (_ & l1 & l2 & p & l3 & E' & H1 & H2 & H3). pose proof E' as E2. rewrite E in E'.
    destruct (split_first (fun c => c = Begin) _ _ _ _ _ _ E') as (A1 & _ & A3); auto.
    { intros c X ->. auto. } { intros c X ->. auto. }
    destruct (split_first is_finish _ _ _ _ _ _ A3) as (_ & A4 & _); auto; try exact I.
    inversion A4; subst p. destruct H3 as [[C D]|[C D]].
    + exists Nothing. split; auto. intros NC. exfalso. apply NC. exists l1, (l2 ++ Finish o :: l3). auto.
    + exists o. auto.
Qed.

(** *** The thread pool *)
Lemma sacts_snoc : forall l e, sacts started (l ++ [e]) = fst (sact (sacts started l) e).
Proof. intros. unfold sacts. now rewrite fold_left_app. Qed.

Lemma removeOne_perm : forall i l, In i l -> Permutation l (i :: removeOne i l).
Proof.
  induction l as [ | k l IH]; intros H; [destruct H| ]. cbn [removeOne]. destruct (Nat.eqb k i) eqn:E.
  - apply Nat.eqb_eq in E. now subst.
  - apply Nat.eqb_neq in E. destruct H as [H|H]; [congruence| ]. rewrite (IH H) at 1. apply perm_swap.
Qed.

Lemma accepted_snoc : forall l e ws, accepted (l ++ [e]) ws ->
  (exists w ws', e = Submit w /\ ws = w :: ws' /\ accepted l ws' /\ replies l (Submit w) = Fine) \/
  (accepted l ws /\ forall w, e = Submit w -> replies l (Submit w) <> Fine).
Proof.
  intros l e ws H. inversion H as [E|l0 ws0 w A R E|l0 ws0 e0 A R E].
  - destruct l; discriminate.
  - apply app_inj_tail in E. destruct E as [-> <-]. left. now exists w, ws0.
  - apply app_inj_tail in E. destruct E as [-> ->]. right. auto.
Qed.

Lemma executed_snoc : forall l e ws, executed (l ++ [e]) ws ->
  (exists w ws', e = Done w /\ ws = w :: ws' /\ executed l ws' /\ replies l (Done w) = Fine) \/
  (executed l ws /\ forall w, e = Done w -> replies l (Done w) <> Fine).
Proof.
  intros l e ws H. inversion H as [E|l0 ws0 w A R E|l0 ws0 e0 A R E].
  - destruct l; discriminate.
  - apply app_inj_tail in E. destruct E as [-> <-]. left. now exists w, ws0.
  - apply app_inj_tail in E. destruct E as [-> ->]. right. auto.
Qed.

Lemma works_kept : forall l ws ds, accepted l ws -> executed l ds ->
  let s := sacts started l in s_done s = ds /\ Permutation ws (s_queue s ++ s_active s ++ ds).
Proof.
  induction l as [ | e l IH] using rev_ind; intros ws ds HA HE.
  - inversion HA as [E|l0 ws0 w A R E|l0 ws0 e0 A R E]; [ |destruct l0; discriminate|destruct l0; discriminate].
    inversion HE as [E1|l0 ws0 w A R E1|l0 ws0 e0 A R E1]; [ |destruct l0; discriminate|destruct l0; discriminate].
    split; auto.
  - cbv zeta. rewrite sacts_snoc. apply accepted_snoc in HA. apply executed_snoc in HE.
    destruct HA as [(w & ws' & -> & -> & HA & RA)|[HA NA]].
    + destruct HE as [(w' & ds' & X & _)|[HE _]]; [discriminate| ].
      specialize (IH _ _ HA HE). cbv zeta in IH. destruct IH as [I1 I2]. unfold replies in RA.
      revert RA. generalize dependent (sacts started l). intros s I1 I2. cbn [sact].
      destruct (mem w (s_checked s)); [ |discriminate]. destruct (s_alive s); [ |discriminate]. intros _. cbn [fst s_done s_queue s_active].
      split; auto. rewrite I2, <- app_assoc. cbn [app]. apply Permutation_middle.
    + destruct HE as [(w & ds' & -> & -> & HE & RE)|[HE NE]].
      * specialize (IH _ _ HA HE). cbv zeta in IH. destruct IH as [I1 I2]. unfold replies in RE.
        revert RE. generalize dependent (sacts started l). intros s I1 I2. cbn [sact].
        destruct (mem w (s_active s)) eqn:M; [ |discriminate]. intros _. cbn [fst s_done s_queue s_active].
        apply mem_in in M. split; [now rewrite I1| ]. rewrite I2. apply Permutation_app_head.
        rewrite (removeOne_perm w (s_active s) M) at 1. cbn [app]. apply Permutation_middle.
      * specialize (IH _ _ HA HE). cbv zeta in IH. destruct IH as [I1 I2]. unfold replies in NA, NE.
        revert NA NE. generalize dependent (sacts started l). intros s I1 I2 NA NE. destruct e; cbn [sact] in *.
        -- destruct (s_stopped s); cbn [fst s_done s_queue s_active]; auto.
        -- specialize (NA w eq_refl). destruct (mem w (s_checked s)); [destruct (s_alive s)| ]; cbn [fst snd] in *; try congruence; auto.
        -- destruct (mem w (s_queue s)) eqn:M; cbn [fst s_done s_queue s_active]; auto.
           apply mem_in in M. split; auto. rewrite I2. rewrite (removeOne_perm w (s_queue s) M) at 1. cbn [app].
           apply Permutation_middle.
        -- specialize (NE w eq_refl). destruct (mem w (s_active s)); cbn [fst snd] in *; try congruence; auto.
        -- cbn [fst s_done s_queue s_active]; auto.
        -- destruct (s_stopped s); [ |auto]. destruct (drained s) eqn:D; cbn [fst s_done s_queue s_active]; auto.
           unfold drained in D. destruct (s_queue s); [ |discriminate]. destruct (s_active s); [ |discriminate]. auto.
        -- destruct (s_alive s); [destruct (drained s)| ]; auto.
        -- destruct (s_alive s); auto.
Qed.

Lemma reply_dec : forall (x : sanswer), x = Fine \/ x <> Fine.
Proof. destruct x; auto; right; discriminate. Qed.

Lemma accepted_total : forall l, exists ws, accepted l ws.
Proof.
  induction l as [ | e l [ws IH]] using rev_ind; [exists []; constructor| ].
  destruct e; try (exists ws; apply acc_other; auto; intros; discriminate).
  destruct (reply_dec (replies l (Submit w))) as [R|R].
  - exists (w :: ws). now apply acc_submit.
  - exists ws. apply acc_other; auto. intros w' E. now inversion E; subst.
Qed.

Lemma executed_total : forall l, exists ws, executed l ws.
Proof.
  induction l as [ | e l [ws IH]] using rev_ind; [exists []; constructor| ].
  destruct e; try (exists ws; apply exe_other; auto; intros; discriminate).
  destruct (reply_dec (replies l (Done w))) as [R|R].
  - exists (w :: ws). now apply exe_done.
  - exists ws. apply exe_other; auto. intros w' E. now inversion E; subst.
Qed.

Lemma stop_flag : forall l, s_stopped (sacts started l) = true <-> In StopFlag l.
Proof.
  induction l as [ | e l IH] using rev_ind; [split; [discriminate|intros []]| ].
  rewrite sacts_snoc, in_app_iff, <- IH. cbn [In]. generalize (sacts started l). intros s. destruct e; cbn [sact].
  - destruct (s_stopped s) eqn:E; cbn [fst s_stopped]; rewrite ?E; intuition discriminate.
  - destruct (mem w (s_checked s)); [destruct (s_alive s)| ]; cbn [fst s_stopped]; intuition discriminate.
  - destruct (mem w (s_queue s)); cbn [fst s_stopped]; intuition discriminate.
  - destruct (mem w (s_active s)); cbn [fst s_stopped]; intuition discriminate.
  - cbn [fst s_stopped]. intuition auto.
  - destruct (s_stopped s) eqn:E; [destruct (drained s)| ]; cbn [fst s_stopped]; rewrite ?E; intuition discriminate.
  - destruct (s_alive s); [destruct (drained s)| ]; cbn [fst]; intuition discriminate.
  - destruct (s_alive s); cbn [fst]; intuition discriminate.
Qed.

Lemma alive_until : forall l, s_alive (sacts started l) = false -> In StopFlag l.
Proof.
  intros l H. apply stop_flag. revert H. induction l as [ | e l IH] using rev_ind; [discriminate| ].
  rewrite sacts_snoc. revert IH. generalize (sacts started l). intros s IH. destruct e; cbn [sact].
  - destruct (s_stopped s) eqn:E; cbn [fst s_stopped s_alive]; rewrite ?E; auto.
  - destruct (mem w (s_checked s)); [destruct (s_alive s) eqn:E| ]; cbn [fst s_stopped s_alive]; auto; try congruence.
  - destruct (mem w (s_queue s)); cbn [fst s_stopped s_alive]; auto.
  - destruct (mem w (s_active s)); cbn [fst s_stopped s_alive]; auto.
  - auto.
  - destruct (s_stopped s) eqn:E; [destruct (drained s)| ]; cbn [fst s_stopped s_alive]; rewrite ?E; auto.
  - destruct (s_alive s) eqn:E; [destruct (drained s)| ]; cbn [fst]; auto; try congruence.
  - destruct (s_alive s) eqn:E; cbn [fst]; auto; try congruence.
Qed.
