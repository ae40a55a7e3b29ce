(** * SyncC_Props: property C67 *)
From Coq Require Import String List Bool Arith ZArith Lia.
From Verif Require Import SyncC_Model SyncC_Spec SyncC_Proofs.
Import ListNotations.
Open Scope string_scope.
Open Scope nat_scope.
Open Scope list_scope.

(** ** Histories outside of updates *)

(** The names are distinct, and once there is an interface one is selected. *)
Theorem c67_selected : forall s, reached s -> NoDup (names s) /\ (names s <> [] -> exists n, chosen s = Some n /\ In n (names s)).
Proof.
  intros s H. destruct (reached_good s H) as [D [R _]]. split; [exact D|]. intro N.
  destruct R as [[E _]|R]; [contradiction|]. unfold chosen. destruct (nth_error (names s) (source s)) as [n|] eqn:X.
  - exists n. split; [reflexivity|]. apply nth_error_In in X. exact X.
  - apply nth_error_None in X. lia.
Qed.

(** Adding accepts exactly the objects of new classes that inherit from the
    base class, appends them and keeps the selection. *)
Theorem c67_add : forall k tm c o s, reached s ->
  (exists n j, c = Some n /\ n <> base /\ j <= k /\ inherits tm n j /\ ~ In n (names s) /\
     exists s', step (Add k tm c o) s = (s', Ok) /\ names s' = names s ++ [n] /\ ifs s' = ifs s ++ [(n, o)] /\ locked s' = locked s /\
       chosen s' = match names s with [] => Some n | _ => chosen s end) \/
  ((forall n j, c = Some n -> n <> base -> j <= k -> inherits tm n j -> In n (names s)) /\
   exists e, step (Add k tm c o) s = (s, e) /\ e <> Ok).
Proof.
  intros k tm c o s H. destruct (reached_good s H) as [D [R _]]. cbn [step]. unfold addInterface.
  destruct c as [n|]; [|right; split; [intros; discriminate|exists InvalidArgument; split; [reflexivity|discriminate]]].
  destruct (String.eqb_spec n base) as [->|B].
  { right. split; [intros n j E N; injection E as <-; contradiction|]. exists InvalidArgument. split; [reflexivity|discriminate]. }
  destruct (check_cases k tm n) as [E|E].
  - rewrite E. apply check_ok in E. destruct E as [j [L J]]. unfold addProperty. destruct (has n (ifs s)) eqn:Hn.
    + right. apply has_in in Hn. split; [intros n2 j2 E2; injection E2 as <-; intros; exact Hn|]. exists AlreadyExists. split; [reflexivity|discriminate].
    + left. exists n, j. split; [reflexivity|]. split; [exact B|]. split; [exact L|]. split; [exact J|].
      split; [intro X; apply has_in in X; congruence|]. eexists. split; [reflexivity|].
      assert (Nm : names (Comp (ifs s ++ [(n, o)]) (source s) (locked s) (depth s) (pend s)) = names s ++ [n])
        by (unfold names; cbn [ifs]; rewrite map_app; reflexivity).
      split; [exact Nm|]. split; [reflexivity|]. split; [reflexivity|]. unfold chosen. rewrite Nm. cbn [source].
      destruct R as [[E1 E2]|R].
      * rewrite E1, E2. reflexivity.
      * destruct (names s) as [|y l]; [cbn [length] in R; lia|]. apply nth_error_app1. exact R.
  - right. split.
    + intros n2 j E2 _ L J. injection E2 as <-. exfalso. assert (X : checkClass k tm n = Ok) by (apply check_ok; exists j; split; assumption).
      destruct E as [E|E]; congruence.
    + destruct E as [E|E]; rewrite E; eexists; (split; [reflexivity|discriminate]).
Qed.

(** Removing takes away the interface and keeps the selected one, whatever its
    index becomes; if it was the selected one, the first takes its place. *)
Theorem c67_remove : forall n s, reached s ->
  (~ In n (names s) -> step (Remove n) s = (s, NotFound)) /\
  (In n (names s) -> exists s', step (Remove n) s = (s', Ok) /\ names s' = without n (names s) /\ locked s' = locked s /\
     (chosen s = Some n -> chosen s' = hd_error (names s')) /\ (chosen s <> Some n -> chosen s' = chosen s)).
Proof.
  intros n s H. assert (G := reached_good s H). split; intro I1; [apply remove_absent; exact I1|].
  destruct (remove_present n s G I1) as [i [k [X [E [A [B C]]]]]]. destruct G as [D [R _]].
  eexists. split; [exact E|]. assert (Nm : names (Comp (removeProperty n (ifs s)) k (locked s) 0 []) = without n (names s))
    by (unfold names; cbn [ifs]; apply remove_names).
  split; [exact Nm|]. split; [reflexivity|]. unfold chosen. rewrite Nm. cbn [source].
  destruct (without_nth n (names s) i D X) as [_ [Lo Hi]].
  assert (Ls : source s < length (names s)) by (destruct R as [[E2 _]|R]; [rewrite E2 in I1; destruct I1|exact R]).
  split; intro Q.
  - assert (source s = i).
    { apply (proj1 (NoDup_nth_error (names s)) D); [exact Ls|congruence]. }
    rewrite (A H0). destruct (without n (names s)); reflexivity.
  - destruct (Nat.lt_trichotomy (source s) i) as [L|[L|L]].
    + rewrite (C L). apply Lo. exact L.
    + subst i. contradiction.
    + rewrite (B L), Hi by lia. f_equal. lia.
Qed.

(** The objects of the interfaces that stay are those that were added. *)
Theorem c67_objects : forall n s, reached s -> forall m o, m <> n -> (In (m, o) (ifs (fst (step (Remove n) s))) <-> In (m, o) (ifs s)).
Proof.
  intros n s H m o N. destruct (in_dec string_dec n (names s)) as [I1|I1].
  - destruct (remove_present n s (reached_good s H) I1) as [i [k [_ [E _]]]]. cbn [step]. rewrite E. cbn [fst ifs].
    unfold removeProperty. rewrite filter_In. cbn [fst]. destruct (String.eqb_spec m n); [contradiction|]. cbn [negb]. tauto.
  - cbn [step]. rewrite remove_absent by exact I1. tauto.
Qed.

(** Selecting takes exactly the indices of interfaces. *)
Theorem c67_select : forall z s, reached s ->
  (exists i n, z = Z.of_nat i /\ nth_error (names s) i = Some n /\
     exists s', step (Select z) s = (s', Ok) /\ chosen s' = Some n /\ ifs s' = ifs s /\ locked s' = locked s) \/
  ((forall i, z = Z.of_nat i -> nth_error (names s) i = None) /\ step (Select z) s = (s, NotFound)).
Proof.
  intros z s H. destruct (reached_good s H) as [D [R [Dp _]]]. cbn [step]. destruct (select_spec z s Dp) as [[i [-> [L ->]]]|[L ->]].
  - left. destruct (nth_error (names s) i) as [n|] eqn:X; [|apply nth_error_None in X; lia].
    exists i, n. split; [reflexivity|]. split; [exact X|]. eexists. split; [reflexivity|]. split; [exact X|]. split; reflexivity.
  - right. split; [|reflexivity]. intros i E. apply nth_error_None. specialize (L i E). lia.
Qed.

(** The lock state is what was set last and touches nothing else. *)
Theorem c67_locked : forall b s, reached s -> step (SetLocked b) s = (Comp (ifs s) (source s) b (depth s) (pend s), Ok).
Proof. intros b s H. destruct (reached_good s H) as [_ [_ [Dp _]]]. cbn [step]. unfold setValue. replace (0 <? depth s) with false by (rewrite Dp; reflexivity). reflexivity. Qed.

Definition tm1 : types := [("Ptp", Class (Some base)); ("Ptp2", Class (Some "Ptp")); ("Clk", Class (Some base)); ("Irig", Class (Some base)); ("Free", Class None)].
Definition three : list op := [Add 9 tm1 (Some "Ptp2") 1; Add 9 tm1 (Some "Clk") 2; Add 9 tm1 (Some "Irig") 3; Add 9 tm1 (Some "Free") 4; Select 2].

Example c67_history_ex :
  reached (run three init) /\ names (run three init) = ["Ptp2"; "Clk"; "Irig"] /\ chosen (run three init) = Some "Irig" /\
  chosen (run (three ++ [Remove "Ptp2"]) init) = Some "Irig" /\ source (run (three ++ [Remove "Ptp2"]) init) = 1 /\
  chosen (run (three ++ [Remove "Irig"]) init) = Some "Ptp2" /\ snd (step (Select (-1)) (run three init)) = NotFound.
Proof.
  split; [exists three; split; [repeat constructor|reflexivity]|]. repeat split.
Qed.

(** ** Classes *)

(** The check answers by the ancestors as long as they fit on the stack. *)
Theorem c67_classes : forall k tm c,
  (checkClass k tm c = Ok <-> exists j, j <= k /\ inherits tm c j) /\
  (checkClass k tm c = InvalidArgument <-> exists j, j <= k /\ strange tm c j).
Proof. intros. split; [apply check_ok|apply check_invalid]. Qed.

(** Refuted: with a large enough stack every check ends.  Two classes can name
    each other as parents. *)
Theorem c67_classes_end_refuted : ~ (forall tm c, exists k, checkClass k tm c <> Overflow).
Proof.
  intro H. set (tm := [("A", Class (Some "B")); ("B", Class (Some "A"))]).
  assert (X : forall k, checkClass k tm "A" = Overflow /\ checkClass k tm "B" = Overflow).
  { induction k as [|k [IA IB]]; [split; reflexivity|]. split; cbn [checkClass]; [exact IB|exact IA]. }
  destruct (H tm "A") as [k K]. apply K. apply X.
Qed.

(** ** Updates *)

(** One removal in an update has the effect of the removal itself. *)
Theorem c67_update_partial : forall n s, reached s ->
  run [Begin; Remove n; End] s = fst (step (Remove n) s).
Proof.
  intros n s H. assert (G := reached_good s H). cbn [run step fst].
  destruct (in_dec string_dec n (names s)) as [I1|I1].
  - destruct (remove_present n s G I1) as [i [k [X [E [A [B C]]]]]]. rewrite E. cbn [fst]. clear E.
    destruct G as [D [R [Dp Pn]]]. unfold removeInterface. cbn [ifs source locked depth pend].
    assert (Y := indexOf_spec n (ifs s) 0). destruct (indexOf n (ifs s) 0) as [j|]; [|contradiction].
    destruct Y as [_ Y]. rewrite Nat.sub_0_r in Y.
    assert (Li : i < length (names s)) by (apply nth_error_Some; congruence).
    assert (j = i) as -> by (symmetry; apply (proj1 (NoDup_nth_error (names s)) D i j Li); unfold names in *; congruence).
    assert (Ls : source s < length (names s)) by (destruct R as [[E2 _]|R]; [rewrite E2 in I1; destruct I1|exact R]).
    destruct (without_nth n (names s) i D X) as [Ln _]. unfold names in Ln, Ls. rewrite <- remove_names in Ln.
    unfold setValue. cbn [depth ifs source locked pend]. rewrite Pn, Dp. change (0 <? 1) with true. cbn iota.
    destruct (Nat.eqb_spec (source s) i) as [E|E].
    + cbn [fst depth pend ifs source locked app apply write]. unfold inRange. rewrite (A E).
      destruct (removeProperty n (ifs s)) as [|y l] eqn:Rm.
      * cbn [length Z.of_nat Z.leb Z.ltb Z.compare andb fst]. cbn [map length] in Ln. replace (source s) with 0 by lia. reflexivity.
      * replace ((0 <=? 0)%Z && (0 <? Z.of_nat (length (y :: l)))%Z) with true by (symmetry; apply andb_true_iff; cbn [length]; rewrite Z.leb_le, Z.ltb_lt; lia).
        reflexivity.
    + destruct (Nat.ltb_spec i (source s)) as [L|L].
      * cbn [fst depth pend ifs source locked app apply write]. rewrite (B L).
        assert (Rg : inRange (Z.of_nat (source s) - 1) (removeProperty n (ifs s)) = true).
        { apply range_spec. exists (source s - 1). split; [lia|]. lia. }
        rewrite Rg. cbn [fst]. f_equal. lia.
      * cbn [fst depth pend ifs source locked apply]. rewrite C by lia. reflexivity.
  - rewrite (remove_absent n s I1). rewrite (remove_absent n (Comp (ifs s) (source s) (locked s) (S (depth s)) (pend s))) by exact I1.
    destruct G as [_ [_ [Dp Pn]]]. cbn [fst depth pend ifs source locked]. rewrite Pn, Dp. cbn [apply fst].
    destruct s as [a0 b0 c0 d0 e0]; cbn [ifs source locked depth pend] in *. subst. reflexivity.
Qed.

(** Writes collected in an update are applied in their order when it ends. *)
Theorem c67_update_writes : forall l s, reached s -> Forall (fits s) l ->
  run (Begin :: l ++ [End]) s = run l s /\ snd (step End (run (Begin :: l) s)) = Ok.
Proof.
  intros l s H F. destruct (reached_good s H) as [_ [_ [Dp Pn]]]. destruct s as [f k b d q]. cbn [depth pend] in Dp, Pn. subst d q.
  change (run (Begin :: l ++ [End]) (Comp f k b 0 [])) with (run (l ++ [End]) (Comp f k b 1 [])).
  change (run (Begin :: l) (Comp f k b 0 [])) with (run l (Comp f k b 1 [])).
  rewrite run_app, (run_collect l f k b 0 [] _ F). cbn [run app step depth pend ifs source locked].
  rewrite (apply_run l f k b (Comp f k b 0 []) eq_refl F). split; reflexivity.
Qed.

(** There is no end without a begin, and nested updates end with the last. *)
Theorem c67_update_nested : forall s,
  (depth s = 0 -> step End s = (s, InvalidState)) /\ run [Begin; End] (fst (step Begin s)) = fst (step Begin s).
Proof.
  intro s. split; [intro D; cbn [step]; rewrite D; reflexivity|]. destruct s as [f k b d q]. reflexivity.
Qed.

Example c67_update_ex :
  let s := run three init in
  Forall (fits s) [Select 1; SetLocked true; Select 0] /\ chosen (run (Begin :: [Select 1; SetLocked true; Select 0] ++ [End]) s) = Some "Ptp2" /\
  locked (run (Begin :: [Select 1; SetLocked true; Select 0] ++ [End]) s) = true.
Proof.
  split; [|split; reflexivity]. repeat constructor; [exists 1|exists 0]; split; try reflexivity; vm_compute; lia.
Qed.

(** Refuted: removing others in an update keeps the selection.  Both removals
    start from the index that was selected before. *)
Theorem c67_update_refuted :
  ~ (forall s a b n, reached s -> chosen s = Some n -> a <> n -> b <> n ->
       chosen (run [Begin; Remove a; Remove b; End] s) = Some n).
Proof.
  intro H. specialize (H (run three init) "Ptp2" "Clk" "Irig").
  assert (R : reached (run three init)) by (exists three; split; [repeat constructor|reflexivity]).
  specialize (H R eq_refl ltac:(discriminate) ltac:(discriminate)). vm_compute in H. discriminate.
Qed.

(** Refuted: an update whose calls all succeed can be ended.  Removing the only
    interface collects a selection that fails, and what was set after it is
    lost. *)
Theorem c67_update_end_refuted :
  ~ (forall s n b, reached s -> snd (step (Remove n) (fst (step Begin s))) = Ok ->
       snd (step End (run [Begin; Remove n; SetLocked b] s)) = Ok /\ locked (run [Begin; Remove n; SetLocked b; End] s) = b).
Proof.
  intro H. specialize (H (run [Add 9 tm1 (Some "Clk") 2] init) "Clk" true).
  destruct H as [H _]; [exists [Add 9 tm1 (Some "Clk") 2]; split; [repeat constructor|reflexivity]|reflexivity|]. vm_compute in H. discriminate.
Qed.

Print Assumptions c67_selected.
Print Assumptions c67_add.
Print Assumptions c67_remove.
Print Assumptions c67_objects.
Print Assumptions c67_select.
Print Assumptions c67_locked.
Print Assumptions c67_classes.
Print Assumptions c67_classes_end_refuted.
Print Assumptions c67_update_partial.
Print Assumptions c67_update_writes.
Print Assumptions c67_update_nested.
Print Assumptions c67_update_refuted.
Print Assumptions c67_update_end_refuted.
