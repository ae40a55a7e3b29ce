(** * Logg_Proofs: lemmas for property C69 *)
From Coq Require Import String List Bool Arith ZArith Lia.
From Verif Require Import Logg_Model Logg_Spec.
Import ListNotations.
Open Scope nat_scope.
Open Scope list_scope.

Lemma nth_update : forall A (f : A -> A) l i j,
  nth_error (update i f l) j = if i =? j then option_map f (nth_error l j) else nth_error l j.
Proof.
  induction l as [|a l IH]; intros i j.
  - destruct i; cbn [update]; (replace (nth_error (@nil A) j) with (@None A) by (destruct j; reflexivity)); cbn [option_map]; match goal with |- _ = if ?b then _ else _ => destruct b end; reflexivity.
  - destruct i as [|i]; destruct j as [|j]; cbn [update nth_error]; try reflexivity. rewrite IH. reflexivity.
Qed.

Lemma update_length : forall A (f : A -> A) l i, length (update i f l) = length l.
Proof. induction l as [|a l IH]; intros [|i]; cbn [update length]; try reflexivity. rewrite IH. reflexivity. Qed.

Lemma nth_keep : forall A B (g : A -> B) (f : A -> A) l i j, (forall a, g (f a) = g a) ->
  option_map g (nth_error (update i f l) j) = option_map g (nth_error l j).
Proof.
  intros A B g f l i j H. rewrite nth_update. destruct (i =? j); [|reflexivity]. destruct (nth_error l j); [|reflexivity]. cbn [option_map]. rewrite H. reflexivity.
Qed.

Definition onAll (lv : nat) (ns : list (string * nat)) (cs : list comp) : list comp :=
  fold_left (fun c p => update (snd p) (onLevel lv) c) ns cs.

Lemma onAll_keep : forall B (g : comp -> B) lv, (forall c, g (onLevel lv c) = g c) -> forall ns cs j,
  option_map g (nth_error (onAll lv ns cs) j) = option_map g (nth_error cs j).
Proof.
  intros B g lv H. induction ns as [|p ns IH]; intros cs j; [reflexivity|]. unfold onAll in *. cbn [fold_left]. rewrite IH. apply nth_keep. exact H.
Qed.

Lemma onAll_length : forall lv ns cs, length (onAll lv ns cs) = length cs.
Proof. induction ns as [|p ns IH]; intro cs; [reflexivity|]. unfold onAll in *. cbn [fold_left]. rewrite IH. apply update_length. Qed.

Lemma onAll_other : forall lv ns cs j, ~ In j (map snd ns) -> nth_error (onAll lv ns cs) j = nth_error cs j.
Proof.
  induction ns as [|p ns IH]; intros cs j H; [reflexivity|]. unfold onAll in *. cbn [fold_left map In] in *. rewrite IH by tauto. rewrite nth_update.
  destruct (Nat.eqb_spec (snd p) j) as [E|E]; [tauto|reflexivity].
Qed.

Lemma onAll_stays : forall lv ns cs j c, nth_error cs j = Some c -> cflush c = lv -> exists c', nth_error (onAll lv ns cs) j = Some c' /\ cflush c' = lv.
Proof.
  induction ns as [|p ns IH]; intros cs j c H F; [exists c; split; assumption|]. unfold onAll in *. cbn [fold_left].
  destruct (Nat.eqb_spec (snd p) j) as [E|E].
  - apply (IH _ j (onLevel lv c)); [|reflexivity]. rewrite nth_update, E, Nat.eqb_refl, H. reflexivity.
  - apply (IH _ j c); [|exact F]. rewrite nth_update. apply Nat.eqb_neq in E. rewrite E. exact H.
Qed.

Lemma onAll_in : forall lv ns cs j c, nth_error cs j = Some c -> In j (map snd ns) -> exists c', nth_error (onAll lv ns cs) j = Some c' /\ cflush c' = lv.
Proof.
  induction ns as [|p ns IH]; intros cs j c H I0; [destruct I0|]. unfold onAll in *. cbn [fold_left map In] in *.
  destruct (Nat.eqb_spec (snd p) j) as [E|E].
  - apply (onAll_stays lv ns _ j (onLevel lv c)); [|reflexivity]. rewrite nth_update, E, Nat.eqb_refl, H. reflexivity.
  - apply (IH _ j c); [|tauto]. rewrite nth_update. apply Nat.eqb_neq in E. rewrite E. exact H.
Qed.

(** What a step does to the components. *)
Definition grows (s s' : lg) : Prop := comps s' = comps s \/ exists n lv fl, comps s' = comps s ++ [Comp n lv fl].

Lemma nth_snoc : forall A (l : list A) a i b, nth_error l i = Some b -> nth_error (l ++ [a]) i = Some b.
Proof. intros A l a i b H. rewrite nth_error_app1; [exact H|]. apply nth_error_Some. congruence. Qed.

Lemma step_name : forall e p s i n, nameIs i n s -> nameIs i n (step e p s).
Proof.
  intros e p s i n [c [H N]]. assert (K : forall cs, option_map cname (nth_error cs i) = option_map cname (nth_error (comps s) i) -> exists c', nth_error cs i = Some c' /\ cname c' = n).
  { intros cs E. rewrite H in E. destruct (nth_error cs i) as [c'|]; [|discriminate]. exists c'. split; [reflexivity|]. cbn [option_map] in E. injection E as E. congruence. }
  unfold nameIs. destruct p; cbn [step]; try (exists c; split; assumption).
  - unfold flushOn. cbn [comps]. apply K. apply onAll_keep. reflexivity.
  - unfold add. destruct (String.eqb n0 ""); [exists c; split; assumption|]. destruct (find n0 (names s)); [exists c; split; assumption|].
    cbn [fst create comps]. exists c. split; [apply nth_snoc; exact H|exact N].
  - unfold getOrAdd. destruct (String.eqb n0 ""); [exists c; split; assumption|]. destruct (find n0 (names s)); [exists c; split; assumption|].
    cbn [fst create comps]. exists c. split; [apply nth_snoc; exact H|exact N].
  - unfold remove. destruct (find n0 (names s)); exists c; split; assumption.
  - unfold compLevel. cbn [withComps comps]. apply K. apply nth_keep. reflexivity.
  - unfold compFlushOn. cbn [withComps comps]. apply K. apply nth_keep. reflexivity.
  - destruct (i0 <? length (comps s)); exists c; split; assumption.
  - unfold log. destruct (shouldLog i0 lv s); exists c; split; assumption.
  - unfold work. destruct (queue s); exists c; split; assumption.
Qed.

Definition wf (s : lg) : Prop :=
  NoDup (map fst (names s)) /\ forall n i, In (n, i) (names s) -> nameIs i n s /\ n <> EmptyString.

Lemma find_in : forall n i l, find n l = Some i -> In (n, i) l.
Proof.
  induction l as [|[k j] l IH]; intro H; [discriminate|]. cbn [find] in H. destruct (String.eqb_spec k n) as [->|E].
  - injection H as ->. left. reflexivity.
  - right. exact (IH H).
Qed.

Lemma find_none : forall n l, find n l = None <-> ~ In n (map fst l).
Proof.
  induction l as [|[k j] l IH]; cbn [find map fst In]; [tauto|]. destruct (String.eqb_spec k n) as [->|E].
  - split; [discriminate|]. intro H. destruct H. left. reflexivity.
  - rewrite IH. tauto.
Qed.

Lemma in_find : forall n i l, NoDup (map fst l) -> In (n, i) l -> find n l = Some i.
Proof.
  induction l as [|[k j] l IH]; intros D H; [destruct H|]. cbn [find map fst] in *. inversion D as [|? ? N D2]; subst.
  destruct H as [H|H]; [injection H as -> ->; rewrite String.eqb_refl; reflexivity|].
  destruct (String.eqb_spec k n) as [->|E]; [|exact (IH D2 H)]. destruct N. apply in_map_iff. exists (n, i). split; [reflexivity|exact H].
Qed.

Lemma find_filter : forall n m l, find m (filter (fun p : string * nat => negb (String.eqb (fst p) n)) l) = if String.eqb n m then None else find m l.
Proof.
  induction l as [|[k j] l IH]; cbn [filter find fst]; [destruct (String.eqb n m); reflexivity|].
  destruct (String.eqb_spec k n) as [->|E]; cbn [negb].
  - rewrite IH. destruct (String.eqb n m); reflexivity.
  - cbn [find]. rewrite IH. destruct (String.eqb_spec k m) as [->|E2]; [|reflexivity]. destruct (String.eqb_spec n m) as [->|_]; [contradiction|reflexivity].
Qed.

Lemma create_wf : forall e n s, n <> EmptyString -> find n (names s) = None -> wf s -> wf (create e n s).
Proof.
  intros e n s N F [D H]. split.
  - cbn [create names map fst]. constructor; [apply find_none; exact F|exact D].
  - cbn [create names]. intros m i [E|E].
    + injection E as <- <-. split; [|exact N]. eexists. cbn [create comps]. split; [rewrite nth_error_app2, Nat.sub_diag by lia; reflexivity|reflexivity].
    + destruct (H m i E) as [[c [A B]] C]. split; [|exact C]. exists c. split; [|exact B]. cbn [create comps]. apply nth_snoc. exact A.
Qed.

Lemma filter_in_map : forall (f : string * nat -> bool) l, NoDup (map fst l) -> NoDup (map fst (filter f l)).
Proof.
  induction l as [|p l IH]; intro D; [constructor|]. cbn [map filter] in *. inversion D as [|? ? N D2]; subst. destruct (f p); [|exact (IH D2)].
  cbn [map]. constructor; [|exact (IH D2)]. intro X. apply N. apply in_map_iff in X. destruct X as [q [A B]]. apply filter_In in B. apply in_map_iff. exists q. split; [exact A|exact (proj1 B)].
Qed.

Lemma step_wf : forall e p s, wf s -> wf (step e p s).
Proof.
  intros e p s W. assert (W0 := W). destruct W as [D H].
  assert (Same : names (step e p s) = names s -> wf (step e p s)).
  { intro E. split; [rewrite E; exact D|]. intros n i X. rewrite E in X. destruct (H n i X) as [A B]. split; [apply step_name; exact A|exact B]. }
  destruct p; try (apply Same; reflexivity).
  - cbn [step]. unfold add. destruct (String.eqb_spec n EmptyString) as [E|E]; [exact W0|]. destruct (find n (names s)) eqn:F; [exact W0|]. apply create_wf; assumption.
  - cbn [step]. unfold getOrAdd. destruct (String.eqb_spec n EmptyString) as [E|E]; [exact W0|]. destruct (find n (names s)) eqn:F; [exact W0|]. apply create_wf; assumption.
  - cbn [step]. unfold remove. destruct (find n (names s)) eqn:F; [|exact W0]. cbn [fst]. split; cbn [names].
    + apply filter_in_map. exact D.
    + intros m i X. apply filter_In in X. exact (H m i (proj1 X)).
  - apply Same. cbn [step]. destruct (i <? length (comps s)); reflexivity.
  - apply Same. cbn [step]. unfold log. destruct (shouldLog i lv s); reflexivity.
  - apply Same. cbn [step]. unfold work. destruct (queue s); reflexivity.
Qed.

Lemma run_wf : forall e l s, wf s -> wf (run e l s).
Proof. induction l as [|p l IH]; intros s W; [exact W|]. cbn [run]. apply IH, step_wf, W. Qed.

Lemma made_wf : forall e s, made e s -> wf s.
Proof. intros e s [lv [ss [l ->]]]. apply run_wf. split; [constructor|intros n i []]. Qed.

Lemma run_app : forall e a b s, run e (a ++ b) s = run e b (run e a s).
Proof. induction a as [|p a IH]; intros b s; [reflexivity|]. rewrite <- app_comm_cons. cbn [run]. apply IH. Qed.

Lemma accepted_app : forall e a b s, accepted e (a ++ b) s = accepted e a s ++ accepted e b (run e a s).
Proof.
  induction a as [|p a IH]; intros b s; [reflexivity|]. rewrite <- app_comm_cons. cbn [accepted run]. rewrite IH, app_assoc. reflexivity.
Qed.

(** Names that are kept. *)
Lemma step_keeps : forall e p s n i, keepsName n p -> find n (names s) = Some i -> find n (names (step e p s)) = Some i.
Proof.
  intros e p s n i K F.
  assert (C : forall m, find m (names s) = None -> find n (names (create e m s)) = Some i).
  { intros m G. cbn [create names find]. destruct (String.eqb_spec m n) as [->|_]; [congruence|exact F]. }
  destruct p; cbn [step keepsName] in *; try exact F.
  - unfold add. destruct (String.eqb n0 EmptyString); [exact F|]. destruct (find n0 (names s)) eqn:G; [exact F|apply C; exact G].
  - unfold getOrAdd. destruct (String.eqb n0 EmptyString); [exact F|]. destruct (find n0 (names s)) eqn:G; [exact F|apply C; exact G].
  - unfold remove. destruct (find n0 (names s)); [|exact F]. cbn [fst names]. rewrite find_filter. destruct (String.eqb_spec n0 n) as [E|_]; [contradiction|exact F].
  - destruct (i0 <? length (comps s)); exact F.
  - unfold log. destruct (shouldLog i0 lv s); exact F.
  - unfold work. destruct (queue s); exact F.
Qed.

Lemma run_keeps : forall e l s n i, Forall (keepsName n) l -> find n (names s) = Some i -> find n (names (run e l s)) = Some i.
Proof. induction l as [|p l IH]; intros s n i H F; [exact F|]. inversion H; subst. cbn [run]. apply IH; [assumption|]. apply step_keeps; assumption. Qed.

(** Levels that are kept. *)
Lemma step_level : forall e p s i lv, keepsLevel i p -> levelIs i lv s -> levelIs i lv (step e p s).
Proof.
  intros e p s i lv K [c [H N]]. assert (Q : forall cs, option_map clevel (nth_error cs i) = option_map clevel (nth_error (comps s) i) -> exists c', nth_error cs i = Some c' /\ clevel c' = lv).
  { intros cs E. rewrite H in E. destruct (nth_error cs i) as [c'|]; [|discriminate]. exists c'. split; [reflexivity|]. cbn [option_map] in E. injection E as E. congruence. }
  unfold levelIs. destruct p; cbn [step keepsLevel] in *; try (exists c; split; assumption).
  - unfold flushOn. cbn [comps]. apply Q. apply onAll_keep. reflexivity.
  - unfold add. destruct (String.eqb n ""); [exists c; split; assumption|]. destruct (find n (names s)); [exists c; split; assumption|].
    cbn [fst create comps]. exists c. split; [apply nth_snoc; exact H|exact N].
  - unfold getOrAdd. destruct (String.eqb n ""); [exists c; split; assumption|]. destruct (find n (names s)); [exists c; split; assumption|].
    cbn [fst create comps]. exists c. split; [apply nth_snoc; exact H|exact N].
  - unfold remove. destruct (find n (names s)); exists c; split; assumption.
  - unfold compLevel. cbn [withComps comps]. exists c. split; [|exact N]. rewrite nth_update. apply Nat.eqb_neq in K. rewrite K. exact H.
  - unfold compFlushOn. cbn [withComps comps]. apply Q. apply nth_keep. reflexivity.
  - destruct (i0 <? length (comps s)); exists c; split; assumption.
  - unfold log. destruct (shouldLog i0 lv0 s); exists c; split; assumption.
  - unfold work. destruct (queue s); exists c; split; assumption.
Qed.

Lemma run_level : forall e l s i lv, Forall (keepsLevel i) l -> levelIs i lv s -> levelIs i lv (run e l s).
Proof. induction l as [|p l IH]; intros s i lv H F; [exact F|]. inversion H; subst. cbn [run]. apply IH; [assumption|]. apply step_level; assumption. Qed.

(** Levels are never Default. *)
Lemma fromParam_le : forall e n lv, built e <= Off -> lv <= Default -> fromParam e n lv <= Off.
Proof.
  intros e n lv B L. unfold fromParam. destruct (Nat.eqb_spec lv Default) as [E|E].
  - unfold defaultLevel. cbv zeta. destruct (_ || _)%bool eqn:Z; [exact B|]. apply orb_false_iff in Z. destruct Z as [Z1 Z2].
    apply Z.ltb_ge in Z1. apply Z.ltb_ge in Z2. unfold Off. lia.
  - unfold Default, Off in *. lia.
Qed.

Definition bounded (s : lg) : Prop := level s <= Default /\ Forall (fun c => clevel c <= Off) (comps s).

Lemma update_forall : forall (f : comp -> comp) l i, (forall c, clevel c <= Off -> clevel (f c) <= Off) ->
  Forall (fun c => clevel c <= Off) l -> Forall (fun c => clevel c <= Off) (update i f l).
Proof.
  induction l as [|a l IH]; intros [|i] H F; cbn [update]; [exact F|exact F| |]; inversion F; subst; constructor; auto.
Qed.

Lemma onAll_forall : forall lv ns cs, Forall (fun c => clevel c <= Off) cs -> Forall (fun c => clevel c <= Off) (onAll lv ns cs).
Proof.
  induction ns as [|p ns IH]; intros cs F; [exact F|]. unfold onAll in *. cbn [fold_left]. apply IH. apply update_forall; [intros c H; exact H|exact F].
Qed.

Lemma step_bounded : forall e p s, built e <= Off -> sane p -> bounded s -> bounded (step e p s).
Proof.
  intros e p s B S0 [L F]. assert (K : forall n, bounded (create e n s)).
  { intro n. split; [exact L|]. cbn [create comps]. apply Forall_app. split; [exact F|]. constructor; [|constructor]. apply fromParam_le; assumption. }
  destruct p; cbn [step sane] in *; try (split; assumption).
  - split; [exact L|]. apply onAll_forall. exact F.
  - unfold add. destruct (String.eqb n ""); [split; assumption|]. destruct (find n (names s)); [split; assumption|apply K].
  - unfold getOrAdd. destruct (String.eqb n ""); [split; assumption|]. destruct (find n (names s)); [split; assumption|apply K].
  - unfold remove. destruct (find n (names s)); split; assumption.
  - split; [exact L|]. apply update_forall; [|exact F]. intros c _. apply fromParam_le; assumption.
  - split; [exact L|]. apply update_forall; [|exact F]. intros c H. exact H.
  - destruct (i <? length (comps s)); split; assumption.
  - unfold log. destruct (shouldLog i lv s); split; assumption.
  - unfold work. destruct (queue s); split; assumption.
Qed.

(** Delivery. *)
Definition acc1 (p : op) (s : lg) : list entry :=
  match p with
  | Log i m lv => match nth_error (comps s) i with Some c => if clevel c <=? lv then [(i, m, lv)] else [] | None => [] end
  | _ => []
  end.

Definition msgs (q : list task) : list entry := flat_map (fun t => match t with Msg x => [x] | FlushT => [] end) q.

Lemma msgs_app : forall a b, msgs (a ++ b) = msgs a ++ msgs b.
Proof. intros. unfold msgs. apply flat_map_app. Qed.

Lemma msgs_flushes : forall A (l : list A), msgs (map (fun _ => FlushT) l) = [].
Proof. intros A l. unfold msgs. induction l as [|a l IH]; [reflexivity|exact IH]. Qed.

Lemma atLeast_app : forall lv a b, atLeast lv (a ++ b) = atLeast lv a ++ atLeast lv b.
Proof. intros. unfold atLeast. apply filter_app. Qed.

(** One entry at one sink. *)
Definition handle (t : task) (auto : bool) (k : sink) : sink :=
  match t with Msg x => if auto then flushSink (deliver x k) else deliver x k | FlushT => flushSink k end.

Lemma work_sinks : forall t r s, queue s = t :: r -> exists b, queue (work s) = r /\ sinks (work s) = map (handle t b) (sinks s).
Proof.
  intros t r s Q. unfold work. rewrite Q. cbv zeta. cbn [queue sinks]. destruct t as [x|]; [|exists true; split; reflexivity].
  exists (autoFlush x s). split; [reflexivity|]. destruct (autoFlush x s); [rewrite map_map|]; apply map_ext; intro k; reflexivity.
Qed.

Lemma handle_spec : forall t b k, slevel (handle t b k) = slevel k /\ got (handle t b k) = got k ++ atLeast (slevel k) (msgs [t]).
Proof.
  intros [x|] b k; cbn [handle].
  - assert (E : slevel (deliver x k) = slevel k /\ got (deliver x k) = got k ++ atLeast (slevel k) (msgs [Msg x])).
    { unfold deliver, atLeast, msgs, eLevel. cbn [flat_map app filter]. destruct (slevel k <=? snd x); [split; reflexivity|]. rewrite app_nil_r. split; reflexivity. }
    destruct b; exact E.
  - unfold msgs, atLeast. cbn [flat_map app filter]. rewrite app_nil_r. split; reflexivity.
Qed.

Lemma step_delivery : forall e p s k x, keepsSinks p -> nth_error (sinks s) k = Some x ->
  exists x', nth_error (sinks (step e p s)) k = Some x' /\ slevel x' = slevel x /\
    got x' ++ atLeast (slevel x) (waiting (step e p s)) = got x ++ atLeast (slevel x) (waiting s) ++ atLeast (slevel x) (acc1 p s).
Proof.
  intros e p s k x K H. change waiting with (fun s => msgs (queue s)). cbv beta.
  assert (Same : forall s', sinks s' = sinks s -> msgs (queue s') = msgs (queue s) -> acc1 p s = [] ->
    exists x', nth_error (sinks s') k = Some x' /\ slevel x' = slevel x /\
    got x' ++ atLeast (slevel x) (msgs (queue s')) = got x ++ atLeast (slevel x) (msgs (queue s)) ++ atLeast (slevel x) (acc1 p s)).
  { intros s' A B C. exists x. rewrite A, B, C. split; [exact H|]. split; [reflexivity|]. unfold atLeast at 3. cbn [filter]. rewrite app_nil_r. reflexivity. }
  destruct p; cbn [step keepsSinks] in *; try (apply Same; reflexivity).
  - unfold add. destruct (String.eqb n ""); [apply Same; reflexivity|]. destruct (find n (names s)); apply Same; reflexivity.
  - unfold getOrAdd. destruct (String.eqb n ""); [apply Same; reflexivity|]. destruct (find n (names s)); apply Same; reflexivity.
  - unfold remove. destruct (find n (names s)); apply Same; try reflexivity. cbn [fst queue]. rewrite msgs_app. apply app_nil_r.
  - destruct (i <? length (comps s)); apply Same; try reflexivity. cbn [post queue]. rewrite msgs_app. apply app_nil_r.
  - unfold log. unfold shouldLog. cbn [acc1]. destruct (nth_error (comps s) i) as [c|].
    + destruct (clevel c <=? lv).
      * exists x. split; [exact H|]. split; [reflexivity|]. cbn [post queue]. rewrite msgs_app, atLeast_app. reflexivity.
      * exists x. split; [exact H|]. split; [reflexivity|]. unfold atLeast at 3. cbn [filter]. rewrite app_nil_r. reflexivity.
    + exists x. split; [exact H|]. split; [reflexivity|]. unfold atLeast at 3. cbn [filter]. rewrite app_nil_r. reflexivity.
  - destruct K.
  - unfold flush. cbv zeta. cbn [withSinks post sinks queue acc1]. exists (flushSink x). split; [apply map_nth_error; exact H|]. split; [reflexivity|].
    rewrite msgs_app, msgs_flushes, app_nil_r. unfold atLeast at 3. cbn [filter]. rewrite app_nil_r. reflexivity.
  - destruct (queue s) as [|t r] eqn:Q.
    + assert (E : work s = s) by (unfold work; rewrite Q; reflexivity). rewrite E. apply Same; [reflexivity|rewrite Q; reflexivity|reflexivity].
    + destruct (work_sinks t r s Q) as [b [A B]]. rewrite A, B. exists (handle t b x). split; [apply map_nth_error; exact H|].
      destruct (handle_spec t b x) as [C D]. split; [exact C|]. rewrite D. cbn [acc1]. unfold atLeast at 4. cbn [filter]. rewrite app_nil_r.
      change (t :: r) with ([t] ++ r). rewrite msgs_app, atLeast_app, app_assoc. reflexivity.
Qed.

Lemma run_delivery : forall e l s k x, Forall keepsSinks l -> nth_error (sinks s) k = Some x ->
  exists x', nth_error (sinks (run e l s)) k = Some x' /\ slevel x' = slevel x /\
    got x' ++ atLeast (slevel x) (waiting (run e l s)) = got x ++ atLeast (slevel x) (waiting s) ++ atLeast (slevel x) (accepted e l s).
Proof.
  induction l as [|p l IH]; intros s k x F H.
  - exists x. split; [exact H|]. split; [reflexivity|]. cbn [accepted run]. unfold atLeast at 3. cbn [filter]. rewrite app_nil_r. reflexivity.
  - inversion F; subst. destruct (step_delivery e p s k x H2 H) as [y [A [B C]]]. destruct (IH _ k y H3 A) as [z [D [E G]]].
    exists z. cbn [run]. split; [exact D|]. split; [congruence|]. rewrite B in G. rewrite G, app_assoc, C. cbn [accepted]. rewrite atLeast_app.
    change (match p with Log i m lv => match nth_error (comps s) i with Some c => if clevel c <=? lv then [(i, m, lv)] else [] | None => [] end | _ => [] end) with (acc1 p s).
    rewrite <- !app_assoc. reflexivity.
Qed.

(** Order. *)
Lemma sub_refl : forall A (l : list A), sub l l.
Proof. induction l; constructor; assumption. Qed.

Lemma sub_app : forall A (a b c d : list A), sub a b -> sub c d -> sub (a ++ c) (b ++ d).
Proof.
  intros A a b c d H G. induction H as [l|x a b H IH|x a b H IH].
  - cbn [app]. induction l as [|y l IH]; [exact G|]. cbn [app]. constructor. exact IH.
  - cbn [app]. constructor. exact IH.
  - cbn [app]. constructor. exact IH.
Qed.

Lemma sub_trans : forall A (b c : list A), sub b c -> forall a, sub a b -> sub a c.
Proof.
  intros A b c H. induction H as [l|x b c H IH|x b c H IH]; intros a G.
  - inversion G; subst; constructor.
  - inversion G; subst; [constructor|constructor; apply IH; assumption|constructor; apply IH; assumption].
  - constructor. apply IH. exact G.
Qed.

Lemma sub_filter : forall A (f : A -> bool) l, sub (filter f l) l.
Proof. induction l as [|x l IH]; [constructor|]. cbn [filter]. destruct (f x); constructor; exact IH. Qed.

Lemma step_order : forall e p s k x', nth_error (sinks (step e p s)) k = Some x' ->
  exists x, nth_error (sinks s) k = Some x /\ sub (got x' ++ waiting (step e p s)) (got x ++ waiting s ++ acc1 p s).
Proof.
  intros e p s k x' H. change waiting with (fun s => msgs (queue s)). cbv beta.
  destruct p as [lv|lv|n|n|n|i lv|i lv|i|i m lv|j lv| |].
  10: { cbn [step withSinks sinks queue acc1] in *. rewrite nth_update in H. rewrite app_nil_r. destruct (j =? k); [|exists x'; split; [exact H|apply sub_refl]].
        destruct (nth_error (sinks s) k) as [y|]; [|discriminate]. cbn [option_map] in H. injection H as <-. exists y. split; [reflexivity|]. apply sub_refl. }
  11: { cbn [acc1]. rewrite app_nil_r. destruct (queue s) as [|t r] eqn:Q.
        { assert (E : work s = s) by (unfold work; rewrite Q; reflexivity). cbn [step] in *. rewrite E, Q in *. exists x'. split; [exact H|apply sub_refl]. }
        destruct (work_sinks t r s Q) as [b [A B]]. cbn [step] in *. rewrite A. rewrite B in H. rewrite nth_error_map in H.
        destruct (nth_error (sinks s) k) as [y|]; [|discriminate]. cbn [option_map] in H. injection H as <-. exists y. split; [reflexivity|].
        rewrite (proj2 (handle_spec t b y)). change (t :: r) with ([t] ++ r). rewrite msgs_app, app_assoc. apply sub_app; [|apply sub_refl]. apply sub_app; [apply sub_refl|apply sub_filter]. }
  all: assert (N : exists x, nth_error (sinks s) k = Some x) by
    (cbn [step] in H; unfold add, getOrAdd, remove, log, flushOn, compLevel, compFlushOn, flush in H;
     repeat match type of H with context [if ?b then _ else _] => destruct b | context [match find ?a ?b with _ => _ end] => destruct (find a b) end;
     cbv zeta in H; cbn [fst create withComps withSinks post sinks] in H;
     try (rewrite nth_error_map in H; destruct (nth_error (sinks s) k); [eexists; reflexivity|discriminate]); eexists; exact H).
  all: destruct N as [x N]; exists x; split; [exact N|].
  all: cbn [step acc1] in *; unfold add, getOrAdd, remove, log, flushOn, compLevel, compFlushOn, flush, shouldLog in *.
  all: repeat match type of H with context [match find ?a ?b with _ => _ end] => destruct (find a b) | context [match nth_error (comps ?a) ?b with _ => _ end] => destruct (nth_error (comps a) b) | context [if ?b then _ else _] => destruct b end.
  all: cbv zeta in *; cbn [fst create withComps withSinks post sinks queue] in *.
  all: try (rewrite nth_error_map, N in H; cbn [option_map] in H).
  all: try (rewrite N in H).
  all: injection H as <-; rewrite ?msgs_app, ?msgs_flushes, ?app_nil_r; try apply sub_refl.
Qed.

Lemma run_order : forall e l s k x', nth_error (sinks (run e l s)) k = Some x' ->
  exists x, nth_error (sinks s) k = Some x /\ sub (got x' ++ waiting (run e l s)) (got x ++ waiting s ++ accepted e l s).
Proof.
  induction l as [|p l IH]; intros s k x' H.
  - exists x'. split; [exact H|]. cbn [accepted run]. rewrite app_nil_r. apply sub_refl.
  - cbn [run] in *. destruct (IH _ k x' H) as [y [A B]]. destruct (step_order e p s k y A) as [x [C D]]. exists x. split; [exact C|].
    cbn [accepted]. change (match p with Log i m lv => match nth_error (comps s) i with Some c => if clevel c <=? lv then [(i, m, lv)] else [] | None => [] end | _ => [] end) with (acc1 p s).
    refine (sub_trans _ ((got y ++ waiting (step e p s)) ++ accepted e l (step e p s)) _ _ _ _).
    + assert (Z := sub_app _ _ _ _ _ D (sub_refl _ (accepted e l (step e p s)))). rewrite <- !app_assoc in Z. rewrite <- !app_assoc. exact Z.
    + rewrite <- app_assoc. exact B.
Qed.

(** Flushing. *)
Definition fine (s : lg) : Prop := Forall (fun k => flushed k <= length (got k)) (sinks s).

Lemma handle_flushed : forall t b k, flushed k <= length (got k) -> flushed k <= flushed (handle t b k) <= length (got (handle t b k)).
Proof.
  intros t b k H. assert (L : length (got k) <= length (got (handle t b k))) by (rewrite (proj2 (handle_spec t b k)), app_length; lia).
  destruct t as [x|]; cbn [handle] in *.
  - assert (E : flushed (deliver x k) = flushed k) by (unfold deliver; destruct (slevel k <=? eLevel x); reflexivity).
    destruct b; cbn [flushSink flushed got] in *; lia.
  - cbn [flushSink flushed got]. lia.
Qed.

(** All steps but the thread's only add to the queue. *)
Lemma step_posts : forall e p s, p <> Work -> keepsSinks p ->
  (exists r, queue (step e p s) = queue s ++ r) /\
  (sinks (step e p s) = sinks s \/ sinks (step e p s) = map flushSink (sinks s)).
Proof.
  intros e p s N K. assert (Z : exists r, queue s = queue s ++ r) by (exists []; rewrite app_nil_r; reflexivity).
  destruct p; cbn [step keepsSinks] in *; try (split; [exact Z|left; reflexivity]).
  - unfold add. destruct (String.eqb n ""); [split; [exact Z|left; reflexivity]|]. destruct (find n (names s)); (split; [exact Z|left; reflexivity]).
  - unfold getOrAdd. destruct (String.eqb n ""); [split; [exact Z|left; reflexivity]|]. destruct (find n (names s)); (split; [exact Z|left; reflexivity]).
  - unfold remove. destruct (find n (names s)); (split; [|left; reflexivity]); [eexists; reflexivity|exact Z].
  - destruct (i <? length (comps s)); (split; [|left; reflexivity]); [eexists; reflexivity|exact Z].
  - unfold log. destruct (shouldLog i lv s); (split; [|left; reflexivity]); [eexists; reflexivity|exact Z].
  - destruct K.
  - split; [eexists; reflexivity|right; reflexivity].
  - destruct N. reflexivity.
Qed.

Lemma flush_keeps : forall l k x, nth_error (map flushSink l) k = Some x -> exists y, nth_error l k = Some y /\ x = flushSink y.
Proof. intros l k x H. rewrite nth_error_map in H. destruct (nth_error l k) as [y|]; [|discriminate]. injection H as <-. exists y. split; reflexivity. Qed.

Lemma step_flushed : forall e p s k x, keepsSinks p -> nth_error (sinks s) k = Some x -> flushed x <= length (got x) ->
  exists x', nth_error (sinks (step e p s)) k = Some x' /\ slevel x' = slevel x /\ flushed x <= flushed x' <= length (got x').
Proof.
  intros e p s k x K H F. assert (D : {p = Work} + {p <> Work}) by (destruct p; (left; reflexivity) || (right; discriminate)). destruct D as [->|N].
  - cbn [step]. destruct (queue s) as [|t r] eqn:Q.
    + assert (E : work s = s) by (unfold work; rewrite Q; reflexivity). rewrite E. exists x. split; [exact H|]. split; [reflexivity|lia].
    + destruct (work_sinks t r s Q) as [b [_ B]]. rewrite B. exists (handle t b x). split; [apply map_nth_error; exact H|].
      split; [apply handle_spec|]. apply handle_flushed. exact F.
  - destruct (step_posts e p s N K) as [_ [B|B]]; rewrite B.
    + exists x. split; [exact H|]. split; [reflexivity|lia].
    + exists (flushSink x). split; [apply map_nth_error; exact H|]. split; [reflexivity|]. cbn [flushSink flushed got]. lia.
Qed.

Lemma run_flushed : forall e l s k x, Forall keepsSinks l -> nth_error (sinks s) k = Some x -> flushed x <= length (got x) ->
  exists x', nth_error (sinks (run e l s)) k = Some x' /\ slevel x' = slevel x /\ flushed x <= flushed x' <= length (got x').
Proof.
  induction l as [|p l IH]; intros s k x K H F; [exists x; split; [exact H|split; [reflexivity|cbn [run]; lia]]|].
  inversion K; subst. destruct (step_flushed e p s k x H2 H F) as [y [A [B C]]]. destruct (IH _ k y H3 A (proj2 C)) as [z [D [E G]]].
  exists z. cbn [run]. split; [exact D|]. split; [congruence|lia].
Qed.

Lemma flush_later : forall e l s k x q r, Forall keepsSinks l -> nth_error (sinks s) k = Some x -> flushed x <= length (got x) ->
  queue s = q ++ FlushT :: r -> length q < works l ->
  exists x', nth_error (sinks (run e l s)) k = Some x' /\ slevel x' = slevel x /\
    length (got x) + length (atLeast (slevel x) (msgs q)) <= flushed x' <= length (got x').
Proof.
  induction l as [|p l IH]; intros s k x q r K H F Q W; [cbn in W; lia|]. inversion K as [|? ? K1 K2]; subst.
  assert (D : {p = Work} + {p <> Work}) by (destruct p; (left; reflexivity) || (right; discriminate)). cbn [run]. destruct D as [->|N].
  - change (works (Work :: l)) with (S (works l)) in W. cbn [step]. destruct q as [|t q].
    + cbn [app] in Q. destruct (work_sinks _ _ s Q) as [b [_ B]].
      assert (A : nth_error (sinks (work s)) k = Some (flushSink x)) by (rewrite B; apply (map_nth_error (handle FlushT b)); exact H).
      assert (F2 : flushed (flushSink x) <= length (got (flushSink x))) by (cbn [flushSink flushed got]; lia).
      destruct (run_flushed e l _ k _ K2 A F2) as [z [C [E G]]]. exists z. split; [exact C|]. split; [exact E|].
      cbn [flushSink flushed got] in G. change (atLeast (slevel x) (msgs [])) with (@nil entry). cbn [length]. lia.
    + rewrite <- app_comm_cons in Q. destruct (work_sinks _ _ s Q) as [b [A B]].
      assert (A2 : nth_error (sinks (work s)) k = Some (handle t b x)) by (rewrite B; apply map_nth_error; exact H).
      destruct (handle_spec t b x) as [C D]. destruct (handle_flushed t b x F) as [_ F2].
      cbn [length] in W. destruct (IH _ k _ q r K2 A2 F2 A ltac:(lia)) as [z [E [G I0]]].
      exists z. split; [exact E|]. split; [congruence|]. rewrite C, D, app_length in I0. change (t :: q) with ([t] ++ q). rewrite msgs_app, atLeast_app, app_length. lia.
  - assert (Wl : works (p :: l) = works l) by (unfold works; destruct p; try reflexivity; destruct N; reflexivity). rewrite Wl in W.
    destruct (step_posts e p s N K1) as [[r' A] [B|B]].
    + rewrite Q in A. rewrite <- app_assoc, <- app_comm_cons in A. apply (IH _ k x q (r ++ r') K2); [rewrite B; exact H|exact F|exact A|exact W].
    + rewrite Q in A. rewrite <- app_assoc, <- app_comm_cons in A.
      destruct (IH (step e p s) k (flushSink x) q (r ++ r') K2) as [z [C [E G]]]; [rewrite B; apply map_nth_error; exact H|cbn [flushSink flushed got]; lia|exact A|exact W|].
      exists z. split; [exact C|]. split; [exact E|]. exact G.
Qed.

Lemma prefix : forall A (a b c d : list A), a ++ b = c ++ d -> length c <= length a -> exists r, a = c ++ r.
Proof.
  induction a as [|x a IH]; intros b c d E L; destruct c as [|y c]; cbn [length] in L.
  - exists []. reflexivity.
  - lia.
  - exists (x :: a). reflexivity.
  - rewrite <- !app_comm_cons in E. injection E as -> E. destruct (IH b c d E ltac:(lia)) as [r ->]. exists r. reflexivity.
Qed.

Lemma new_sink : forall lv ss k l, nth_error ss k = Some l -> nth_error (sinks (new lv ss)) k = Some (Sink l [] 0).
Proof. intros lv ss k l H. cbn [new sinks]. apply (map_nth_error (fun l => Sink l [] 0)). exact H. Qed.

Lemma made_fine : forall e lv ss l k x, nth_error (sinks (run e l (new lv ss))) k = Some x -> flushed x <= length (got x).
Proof.
  intros e lv ss l. assert (G : forall l s, (forall k x, nth_error (sinks s) k = Some x -> flushed x <= length (got x)) ->
    forall k x, nth_error (sinks (run e l s)) k = Some x -> flushed x <= length (got x)).
  { clear. induction l as [|p l IH]; intros s H; [exact H|]. cbn [run]. apply IH. intros k x N.
    assert (D : {p = Work} + {p <> Work}) by (destruct p; (left; reflexivity) || (right; discriminate)). destruct D as [->|NW].
    - cbn [step] in N. destruct (queue s) as [|t r] eqn:Q.
      + assert (E : work s = s) by (unfold work; rewrite Q; reflexivity). rewrite E in N. exact (H k x N).
      + destruct (work_sinks t r s Q) as [b [_ B]]. rewrite B, nth_error_map in N. destruct (nth_error (sinks s) k) as [y|] eqn:Y; [|discriminate].
        injection N as <-. apply handle_flushed. exact (H k y Y).
    - assert (KD : keepsSinks p \/ exists j v, p = SinkLevel j v) by (destruct p; (left; exact Coq.Init.Logic.I) || (right; eexists; eexists; reflexivity)).
      destruct KD as [K|[j [v ->]]].
      + destruct (step_posts e p s NW K) as [_ [B|B]]; rewrite B in N; [exact (H k x N)|]. destruct (flush_keeps _ _ _ N) as [y [_ ->]]. cbn [flushSink flushed got]. lia.
      + cbn [step withSinks sinks] in N. rewrite nth_update in N. destruct (j =? k); [|exact (H k x N)].
        destruct (nth_error (sinks s) k) as [y|] eqn:Y; [|discriminate]. injection N as <-. exact (H k y Y). }
  apply G. intros k x H. cbn [new sinks] in H. rewrite nth_error_map in H. destruct (nth_error ss k); [|discriminate]. injection H as <-. cbn [flushed got length]. lia.
Qed.

(** Letters and numbers. *)
From Coq Require Import Ascii Decimal DecimalString DecimalN.
Open Scope string_scope.

Definition chars : list ascii := map ascii_of_nat (seq 0 256).

Lemma all_chars : forall c, In c chars.
Proof.
  intro c. unfold chars. apply in_map_iff. exists (nat_of_ascii c). split; [apply ascii_nat_embedding|]. apply in_seq. split; [apply Nat.le_0_l|]. apply nat_ascii_bounded.
Qed.

Lemma upper_char : forall x y, y = upperChar x <-> (In (String y "", String x "") letters \/ (~ In (String x "") (map snd letters) /\ x = y)).
Proof.
  assert (C : forallb (fun x => forallb (fun y => Bool.eqb (Ascii.eqb y (upperChar x))
     (existsb (fun p => String.eqb (fst p) (String y "") && String.eqb (snd p) (String x "")) letters
      || (negb (existsb (String.eqb (String x "")) (map snd letters)) && Ascii.eqb x y))) chars) chars = true) by (vm_compute; reflexivity).
  intros x y. rewrite forallb_forall in C. specialize (C x (all_chars x)). cbv beta in C. rewrite forallb_forall in C. specialize (C y (all_chars y)). cbv beta in C.
  apply Bool.eqb_prop in C. rewrite <- Ascii.eqb_eq, C, orb_true_iff, andb_true_iff, negb_true_iff, Ascii.eqb_eq, existsb_exists.
  assert (A : (exists p, In p letters /\ (String.eqb (fst p) (String y "") && String.eqb (snd p) (String x "")) = true) <-> In (String y "", String x "") letters).
  { split.
    - intros [[a b] [H E]]. cbn [fst snd] in E. apply andb_true_iff in E. rewrite !String.eqb_eq in E. destruct E as [-> ->]. exact H.
    - intro H. eexists. split; [exact H|]. cbn [fst snd]. rewrite !String.eqb_refl. reflexivity. }
  rewrite A. assert (B : existsb (String.eqb (String x "")) (map snd letters) = false <-> ~ In (String x "") (map snd letters)).
  { rewrite <- not_true_iff_false, existsb_exists. split; intros H G; apply H.
    - exists (String x ""). split; [exact G|apply String.eqb_refl].
    - destruct G as [z [G E]]. apply String.eqb_eq in E. subst z. exact G. }
  rewrite B. reflexivity.
Qed.

Lemma upper_name : forall a b, capitals a b <-> b = upper a.
Proof.
  induction a as [|x a IH]; intros [|y b]; cbn [upper capitals]; try (split; [intros []|discriminate]).
  - split; [reflexivity|intro; exact Coq.Init.Logic.I].
  - rewrite <- upper_char, IH. split; [intros [-> ->]; reflexivity|intro H; injection H as H1 H2; split; assumption].
Qed.

Lemma digits_acc : forall d acc, digits (Zpos acc) (NilEmpty.string_of_uint d) = Zpos (Pos.of_uint_acc d acc).
Proof.
  induction d as [|d IH|d IH|d IH|d IH|d IH|d IH|d IH|d IH|d IH|d IH]; intro acc; [reflexivity|..];
  cbn [NilEmpty.string_of_uint digits Pos.of_uint_acc]; rewrite <- IH;
  match goal with |- (if isDigit ?c then _ else _) = _ => change (isDigit c) with true end; cbv iota; f_equal;
  match goal with |- (_ + Z.of_nat ?n)%Z = _ => let v := eval vm_compute in n in change n with v end; lia.
Qed.

Lemma digits_uint : forall d, digits 0 (NilEmpty.string_of_uint d) = Z.of_N (N.of_uint d).
Proof.
  induction d as [|d IH|d IH|d IH|d IH|d IH|d IH|d IH|d IH|d IH|d IH]; [reflexivity|exact IH|..];
  (refine (eq_trans _ (digits_acc d _))); reflexivity.
Qed.

Lemma first_digit : forall d, d <> Nil -> exists c r, NilEmpty.string_of_uint d = String c r /\ isDigit c = true /\ isSpace c = false /\ c <> "-"%char /\ c <> "+"%char.
Proof.
  intros d H. destruct d; [destruct H; reflexivity|..]; cbn [NilEmpty.string_of_uint]; do 2 eexists; (split; [reflexivity|]); repeat split; discriminate.
Qed.

Lemma to_uint_some : forall n, N.to_uint n <> Nil.
Proof. intros n H. assert (E := Unsigned.of_to n). rewrite H in E. change (N.of_uint Nil) with 0%N in E. subst n. discriminate. Qed.

Lemma signed_digit : forall c r, c <> "-"%char -> c <> "+"%char -> signed (String c r) = number (String c r).
Proof.
  intros c r A B. unfold signed. destruct c as [b0 b1 b2 b3 b4 b5 b6 b7].
  destruct b0, b1, b2, b3, b4, b5, b6, b7; try reflexivity; exfalso; (apply A; reflexivity) || (apply B; reflexivity).
Qed.

Lemma stoi_number : forall n, (n <= 2147483647)%N -> stoi (NilEmpty.string_of_uint (N.to_uint n)) = Some (Z.of_N n).
Proof.
  intros n L. destruct (first_digit _ (to_uint_some n)) as [c [r [E [D [Sp [M P]]]]]]. unfold stoi. rewrite E. cbn [skip]. rewrite Sp.
  rewrite (signed_digit c r M P). unfold number. rewrite D. rewrite <- E, digits_uint, Unsigned.of_to.
  assert (X : ((-2147483648 <=? Z.of_N n) && (Z.of_N n <=? 2147483647))%Z = true) by (apply andb_true_iff; split; apply Z.leb_le; lia). rewrite X. reflexivity.
Qed.

Lemma stoi_large : forall n, (2147483647 < n)%N -> stoi (NilEmpty.string_of_uint (N.to_uint n)) = None.
Proof.
  intros n L. destruct (first_digit _ (to_uint_some n)) as [c [r [E [D [Sp [M P]]]]]]. unfold stoi. rewrite E. cbn [skip]. rewrite Sp.
  rewrite (signed_digit c r M P). unfold number. rewrite D. rewrite <- E, digits_uint, Unsigned.of_to.
  assert (X : (Z.of_N n <=? 2147483647)%Z = false) by (apply Z.leb_gt; lia). rewrite X, andb_false_r. reflexivity.
Qed.
