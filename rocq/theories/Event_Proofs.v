(** Proofs for C32. *)
From Verif Require Import Base Event_Model Event_Spec.

(** ** The subscribed handlers *)
Definition view (l : list entry) : list (Z * bool) := map (fun a => (hid (hd a), hmuted a)) l.

Lemma erase_view : forall x l, (forall a, In a l -> (hid (hd a) = hid x <-> hhash (hd a) = hhash x)) ->
  view (erase_hash (hhash x) l) = drop_first (hid x) (view l).
Proof.
  induction l as [|a l IH]; intros H; cbn [erase_hash view map drop_first fst]; auto.
  pose proof (H a (or_introl eq_refl)) as K. destruct (Z.eqb_spec (hhash (hd a)) (hhash x)); destruct (Z.eqb_spec (hid (hd a)) (hid x)); try tauto.
  cbn [view map]. f_equal. apply IH. intros. apply H. now right.
Qed.

Lemma muted_view : forall x b l, (forall a, In a l -> (hid (hd a) = hid x <-> hhash (hd a) = hhash x)) ->
  view (set_muted (hhash x) b l) = silence_first (hid x) b (view l).
Proof.
  induction l as [|a l IH]; intros H; cbn [set_muted view map silence_first fst]; auto.
  pose proof (H a (or_introl eq_refl)) as K. destruct (Z.eqb_spec (hhash (hd a)) (hhash x)); destruct (Z.eqb_spec (hid (hd a)) (hid x)); try tauto.
  - cbn [view map hd hmuted]. congruence.
  - cbn [view map]. f_equal. apply IH. intros. apply H. now right.
Qed.

Lemma erase_In : forall a x l, In a (erase_hash x l) -> In a l.
Proof.
  induction l as [|b l IH]; cbn [erase_hash]; auto. destruct (hhash (hd b) =? x)%Z; cbn [In]; intuition.
Qed.

Lemma muted_In : forall a x b l, In a (set_muted x b l) -> exists a', In a' l /\ hd a' = hd a.
Proof.
  induction l as [|c l IH]; cbn [set_muted]; [intros []|]. destruct (hhash (hd c) =? x)%Z; cbn [In]; intros [H|H].
  - exists c. subst a. auto.
  - exists a. auto.
  - exists c. subst a. auto.
  - destruct (IH H) as (a' & A & B). exists a'. auto.
Qed.

Lemma advance_keeps : forall i e, handlers (fst (advance i e)) = handlers e /\ muted (fst (advance i e)) = muted e /\ frozen (fst (advance i e)) = frozen e.
Proof. intros i e. unfold advance. destruct (next_from i (skipn i (handlers e))) as [[j h]|]; cbn [fst set_stack handlers muted frozen]; auto. Qed.

Lemma step_keeps : forall o e, match o with Trigger | Return _ => True | _ => False end ->
  handlers (fst (step e o)) = handlers e /\ muted (fst (step e o)) = muted e /\ frozen (fst (step e o)) = frozen e.
Proof.
  intros o e H. destruct o; try destruct H; cbn [step].
  - destruct (muted e) eqn:M; [cbn [fst]; auto|]. destruct (advance_keeps 0 e) as (A & B & C). rewrite B, M. auto.
  - destruct (stack e) as [|i s]; [cbn [fst]; auto|]. destruct ok; [apply (advance_keeps (S i) (set_stack s e))|cbn [fst set_stack handlers muted frozen]; auto].
Qed.

Lemma no_collisions_tl : forall o h, no_collisions (o :: h) -> no_collisions h.
Proof. intros o h H x y X Y. apply H; cbn [flat_map]; apply in_or_app; now right. Qed.

Lemma after_ok : forall h, no_collisions h ->
  view (handlers (after h)) = subscribed h /\ muted (after h) = is_muted h /\ frozen (after h) = is_frozen h
  /\ (forall a, In a (handlers (after h)) -> In (hd a) (flat_map mentions h)).
Proof.
  induction h as [|o h IH]; intros NC.
  - repeat split; auto.
  - destruct (IH (no_collisions_tl _ _ NC)) as (A & B & C & D). cbn [after].
    assert (EQ : forall x, In x (mentions o) -> forall a, In a (handlers (after h)) -> (hid (hd a) = hid x <-> hhash (hd a) = hhash x)).
    { intros x X a Y. apply NC; cbn [flat_map]; apply in_or_app; auto. }
    assert (DD : forall a, In a (handlers (after h)) -> In (hd a) (flat_map mentions (o :: h))).
    { intros a Y. cbn [flat_map]. apply in_or_app. auto. }
    destruct o; cbn [subscribed is_muted is_frozen].
    + cbn [step]. rewrite C. destruct (is_frozen h); cbn [fst set_handlers handlers muted frozen]; [auto|].
      split; [unfold view; rewrite map_app; cbn [map hd hmuted]; fold (view (handlers (after h))); now rewrite A|]. split; auto. split; auto.
      intros a H. apply in_app_or in H. destruct H as [H|[<-|[]]]; auto. cbn. auto.
    + cbn [step]. rewrite C. destruct (is_frozen h); cbn [fst set_handlers handlers muted frozen]; [auto|].
      split; [rewrite erase_view, A by (apply EQ; now left); auto|]. split; auto. split; auto. intros a H. apply erase_In in H. auto.
    + cbn [step]. rewrite C. destruct (is_frozen h); cbn [fst set_handlers handlers muted frozen]; [auto|]. repeat split; auto. intros a [].
    + cbn [step fst handlers muted frozen]. auto.
    + cbn [step fst handlers muted frozen]. auto.
    + cbn [step fst set_handlers handlers muted frozen].
      split; [rewrite muted_view, A by (apply EQ; now left); auto|]. split; auto. split; auto.
      intros a H. apply muted_In in H. destruct H as (a' & H & <-). auto.
    + cbn [step fst set_handlers handlers muted frozen].
      split; [rewrite muted_view, A by (apply EQ; now left); auto|]. split; auto. split; auto.
      intros a H. apply muted_In in H. destruct H as (a' & H & <-). auto.
    + cbn [step]. destruct (frozen (after h)) eqn:F; cbn [fst handlers muted frozen]; auto.
    + destruct (step_keeps Trigger (after h) I) as (E1 & E2 & E3). rewrite E1, E2, E3. auto.
    + destruct (step_keeps (Return ok) (after h) I) as (E1 & E2 & E3). rewrite E1, E2, E3. auto.
Qed.

(** ** One trigger *)
Definition heard (l : list entry) : list Z := map (fun a => hid (hd a)) (filter (fun a => negb (hmuted a)) l).

Lemma heard_app : forall l l', heard (l ++ l') = heard l ++ heard l'.
Proof. intros. unfold heard. now rewrite filter_app, map_app. Qed.

Lemma heard_view : forall l, heard l = map fst (filter (fun e => negb (snd e)) (view l)).
Proof. induction l as [|a l IH]; auto. unfold heard, view in *. cbn [filter map snd]. destruct (hmuted a); cbn [negb map fst]; congruence. Qed.

Lemma next_ok : forall l i,
  match next_from i l with
  | Some (j, h) => exists k, j = i + k /\ k < length l /\ heard (firstn (S k) l) = [hid h]
  | None => heard l = []
  end.
Proof.
  induction l as [|a l IH]; intros i; cbn [next_from]; auto. unfold heard. cbn [filter]. destruct (hmuted a) eqn:M; cbn [negb].
  - specialize (IH (S i)). destruct (next_from (S i) l) as [[j h]|]; auto. destruct IH as (k & -> & K & E). exists (S k).
    split; [lia|]. split; [cbn [length]; lia|]. rewrite firstn_cons. cbn [filter]. rewrite M. exact E.
  - exists 0. split; [lia|]. split; [cbn [length]; lia|]. cbn [firstn filter]. rewrite M. reflexivity.
Qed.

Lemma calls_app : forall n a b, calls n (a ++ b) = calls n a ++ calls n b.
Proof. intros. unfold calls. apply flat_map_app. Qed.

(** the loop at level [S (length st)] has called [c] so far and stands at some index *)
Record Ongoing (st : list nat) (e : event) (c : list Z) : Prop := {
  og_stack : exists pre i, stack e = pre ++ i :: st /\ i < length (handlers e) /\ c = heard (firstn (S i) (handlers e)) }.

Definition Over (st : list nat) (e : event) (c : list Z) (os : list out) : Prop :=
  stack e = st /\ (In (Finished (S (length st)) true) os -> c = heard (handlers e)).

Lemma firstn_skipn_add : forall {A} i k (l : list A), firstn i l ++ firstn k (skipn i l) = firstn (i + k) l.
Proof.
  induction i as [|i IH]; intros k l; auto. destruct l as [|a l]; [cbn [firstn skipn Nat.add]; now rewrite firstn_nil|].
  rewrite skipn_cons, !firstn_cons. cbn [Nat.add app]. rewrite firstn_cons. f_equal. apply IH.
Qed.

Lemma advance_ok : forall st i e c, stack e = st -> c = heard (firstn i (handlers e)) -> i <= length (handlers e) ->
  let (e', os) := advance i e in
  (Ongoing st e' (c ++ calls (S (length st)) os) /\ (length st < length (stack e')) \/ Over st e' (c ++ calls (S (length st)) os) os)
  /\ handlers e' = handlers e.
Proof.
  intros st i e c S C L. unfold advance. rewrite S. pose proof (next_ok (skipn i (handlers e)) i) as K.
  destruct (next_from i (skipn i (handlers e))) as [[j h]|].
  - destruct K as (k & -> & K & E). split; auto. left. unfold calls. cbn [flat_map called_at app]. rewrite Nat.eqb_refl, app_nil_r.
    rewrite skipn_length in K. split; [|cbn; lia]. constructor. exists [], (i + k). cbn [set_stack stack handlers app]. split; auto. split; [lia|].
    subst c. rewrite <- E. rewrite <- heard_app. f_equal. rewrite firstn_skipn_add. f_equal. lia.
  - split; auto. right. split; auto. intros _. unfold calls. cbn [flat_map called_at app]. rewrite app_nil_r. subst c.
    rewrite <- (firstn_skipn i (handlers e)) at 2. rewrite heard_app, K, app_nil_r. reflexivity.
Qed.

Lemma calls_deeper : forall n os i e e', advance i e = (e', os) -> n <> S (length (stack e)) -> calls n os = [].
Proof.
  intros n os i e e' H N. unfold advance in H. destruct (next_from i (skipn i (handlers e))) as [[j h]|]; inversion H; subst; auto.
  unfold calls. cbn [flat_map called_at]. destruct (Nat.eqb_spec (S (length (stack e))) n); [congruence|reflexivity].
Qed.

Lemma deeper_finish : forall n b os i e e', advance i e = (e', os) -> n <> S (length (stack e)) -> ~ In (Finished n b) os.
Proof.
  intros n b os i e e' H N. unfold advance in H. destruct (next_from i (skipn i (handlers e))) as [[j h]|]; inversion H; subst; intros [K|[]]; congruence.
Qed.

Lemma step_ok : forall st e c o, Ongoing st e c -> gentle o = true ->
  let (e', os) := step e o in
  Ongoing st e' (c ++ calls (S (length st)) os) /\ ~ In (Finished (S (length st)) true) os \/ Over st e' (c ++ calls (S (length st)) os) os.
Proof.
  intros st e c o [(pre & i & S & L & C)] G. destruct o; try discriminate; cbn [step].
  - destruct (frozen e); left; (split; [|intros [K|[]]; discriminate]); unfold calls; cbn [flat_map called_at app]; rewrite app_nil_r.
    + constructor. exists pre, i. auto.
    + constructor. exists pre, i. cbn [set_handlers stack handlers]. split; auto. rewrite app_length. split; [lia|].
      rewrite firstn_app. replace (Datatypes.S i - length (handlers e)) with 0 by lia. cbn [firstn]. now rewrite app_nil_r.
  - left. split; [|intros [K|[]]; discriminate]. unfold calls. cbn [flat_map called_at app]. rewrite app_nil_r. constructor. exists pre, i. auto.
  - left. split; [|intros [K|[]]; discriminate]. unfold calls. cbn [flat_map called_at app]. rewrite app_nil_r. constructor. exists pre, i. auto.
  - destruct (muted e).
    + left. split; [|intros [K|[]]; discriminate]. unfold calls. cbn [flat_map called_at app]. rewrite app_nil_r. constructor. exists pre, i. auto.
    + destruct (advance 0 e) as [e' os] eqn:A. left.
      assert (N : Datatypes.S (length st) <> Datatypes.S (length (stack e))) by (rewrite S, app_length; cbn [length]; lia).
      rewrite (calls_deeper _ _ _ _ _ A N), app_nil_r. split; [|now apply (deeper_finish _ true _ _ _ _ A)].
      pose proof (advance_keeps 0 e) as (HK & _ & _). rewrite A in HK. cbn [fst] in HK. unfold advance in A.
      destruct (next_from 0 (skipn 0 (handlers e))) as [[j h]|]; inversion A; subst e'; constructor.
      * exists (j :: pre), i. cbn [set_stack stack handlers]. rewrite S. auto.
      * exists pre, i. auto.
  - rewrite S. destruct pre as [|p pre]; cbn [app].
    + destruct ok.
      * pose proof (advance_ok st (Datatypes.S i) (set_stack st e) c eq_refl) as K. cbn [set_stack handlers] in K.
        specialize (K C L). destruct (advance (Datatypes.S i) _) as [e' os] eqn:A. destruct K as [[[K K0]|K] _]; auto.
        left. split; auto. unfold advance in A. cbn [set_stack handlers stack] in A.
        destruct (next_from (Datatypes.S i) (skipn (Datatypes.S i) (handlers e))) as [[j h]|]; inversion A; subst.
        -- intros [Q|[]]; discriminate.
        -- cbn [stack set_stack] in K0. lia.
      * right. unfold calls. cbn [flat_map called_at app]. rewrite app_nil_r. split; auto. intros [Q|[]]. discriminate.
    + destruct ok.
      * destruct (advance (Datatypes.S p) _) as [e' os] eqn:A. left.
        assert (N : Datatypes.S (length st) <> Datatypes.S (length (stack (set_stack (pre ++ i :: st) e)))) by (cbn [set_stack stack]; rewrite app_length; cbn [length]; lia).
        rewrite (calls_deeper _ _ _ _ _ A N), app_nil_r. split; [|now apply (deeper_finish _ true _ _ _ _ A)].
        unfold advance in A. cbn [set_stack stack handlers] in A.
        destruct (next_from (Datatypes.S p) (skipn (Datatypes.S p) (handlers e))) as [[j h]|]; inversion A; subst e'; constructor.
        -- exists (j :: pre), i. cbn [set_stack stack handlers]. auto.
        -- exists pre, i. auto.
      * left. unfold calls. cbn [flat_map called_at app]. rewrite app_nil_r. split; [|intros [Q|[]]; inversion Q].
        constructor. exists pre, i. auto.
Qed.

Lemma step_handlers : forall e o, gentle o = true ->
  view (handlers (fst (step e o))) = view (handlers e) ++ (if frozen e then [] else map (fun x => (x, false)) (additions [o]))
  /\ frozen (fst (step e o)) = frozen e.
Proof.
  intros e o G. destruct o; try discriminate; cbn [additions map].
  - cbn [step]. destruct (frozen e) eqn:F; cbn [fst set_handlers handlers frozen]; [now rewrite app_nil_r|]. unfold view. rewrite map_app. auto.
  - cbn [step fst handlers frozen]. now destruct (frozen e); rewrite app_nil_r.
  - cbn [step fst handlers frozen]. now destruct (frozen e); rewrite app_nil_r.
  - destruct (step_keeps Trigger e I) as (A & _ & B). rewrite A, B. now destruct (frozen e); rewrite app_nil_r.
  - destruct (step_keeps (Return ok) e I) as (A & _ & B). rewrite A, B. now destruct (frozen e); rewrite app_nil_r.
Qed.

Lemma additions_cons : forall o l, additions (o :: l) = additions [o] ++ additions l.
Proof. intros o l. destruct o; reflexivity. Qed.

Lemma run_handlers : forall l e, forallb gentle l = true ->
  view (handlers (fst (run e l))) = view (handlers e) ++ (if frozen e then [] else map (fun x => (x, false)) (additions l)).
Proof.
  induction l as [|o l IH]; intros e G; cbn [run].
  - cbn [fst additions map]. now destruct (frozen e); rewrite app_nil_r.
  - cbn [forallb] in G. apply andb_true_iff in G. destruct G as [G1 G2]. destruct (step_handlers e o G1) as [A B].
    rewrite additions_cons, map_app. destruct (step e o) as [e1 o1]. cbn [fst] in *. specialize (IH e1 G2). destruct (run e1 l) as [e2 o2]. cbn [fst] in *.
    rewrite IH, A, B. destruct (frozen e); now rewrite <- ?app_assoc, ?app_nil_r.
Qed.

Lemma run_ongoing : forall body st e c, Ongoing st e c -> forallb gentle body = true ->
  (forall p q, body = p ++ q -> q <> [] -> length st < length (stack (fst (run e p)))) ->
  let (e', os) := run e body in
  (In (Finished (S (length st)) true) os -> c ++ calls (S (length st)) os = heard (handlers e'))
  /\ exists rest, (c ++ calls (S (length st)) os) ++ rest = heard (handlers e').
Proof.
  induction body as [|o body IH]; intros st e c O G P; cbn [run].
  - split; [intros []|]. cbn [calls flat_map]. rewrite app_nil_r. destruct O as [(pre & i & S & L & ->)].
    exists (heard (skipn (Datatypes.S i) (handlers e))). rewrite <- heard_app. now rewrite firstn_skipn.
  - cbn [forallb] in G. apply andb_true_iff in G. destruct G as [G1 G2]. pose proof (step_ok st e c o O G1) as K.
    destruct (step e o) as [e1 o1] eqn:E1.
    assert (P1 : forall p q, body = p ++ q -> q <> [] -> length st < length (stack (fst (run e1 p)))).
    { intros p q -> Q. specialize (P (o :: p) q eq_refl Q). cbn [run] in P. rewrite E1 in P. destruct (run e1 p). exact P. }
    destruct K as [[K NF]|[K1 K2]].
    + specialize (IH st e1 _ K G2 P1). destruct (run e1 body) as [e2 o2]. destruct IH as [I1 I2]. rewrite calls_app, app_assoc. split; auto.
      intros H. apply in_app_or in H. destruct H as [H|H]; [tauto|auto].
    + destruct body as [|o' body].
      * cbn [run]. rewrite app_nil_r. split; auto.
        pose proof (step_handlers e o G1) as [V _]. rewrite E1 in V. cbn [fst] in V.
        destruct O as [(pre & i & S & L & ->)].
        destruct o; try discriminate; cbn [step] in E1.
        -- destruct (frozen e); inversion E1; subst e1 o1; cbn [set_handlers stack] in K1; rewrite S in K1; apply (f_equal (@length nat)) in K1; rewrite app_length in K1; cbn [length] in K1; lia.
        -- inversion E1; subst e1 o1; cbn [stack] in K1; rewrite S in K1; apply (f_equal (@length nat)) in K1; rewrite app_length in K1; cbn [length] in K1; lia.
        -- inversion E1; subst e1 o1; cbn [stack] in K1; rewrite S in K1; apply (f_equal (@length nat)) in K1; rewrite app_length in K1; cbn [length] in K1; lia.
        -- exfalso. destruct (muted e); [inversion E1; subst e1 o1|unfold advance in E1; destruct (next_from 0 (skipn 0 (handlers e))) as [[j h]|]; inversion E1; subst e1 o1];
           cbn [set_stack stack] in K1; rewrite S in K1; apply (f_equal (@length nat)) in K1; cbn [length] in K1; rewrite app_length in K1; cbn [length] in K1; lia.
        -- rewrite S in E1. destruct pre as [|p pre]; cbn [app] in E1.
           ++ destruct ok.
              ** unfold advance in E1. cbn [set_stack stack handlers] in E1.
                 destruct (next_from (Datatypes.S i) (skipn (Datatypes.S i) (handlers e))) as [[j h]|]; inversion E1; subst e1 o1.
                 --- cbn [set_stack stack] in K1. apply (f_equal (@length nat)) in K1. cbn [length] in K1. lia.
                 --- exists []. rewrite app_nil_r. apply K2. now left.
              ** inversion E1; subst e1 o1. cbn [set_stack handlers]. unfold calls. cbn [flat_map called_at app]. rewrite app_nil_r.
                 exists (heard (skipn (Datatypes.S i) (handlers e))). rewrite <- heard_app. now rewrite firstn_skipn.
           ++ exfalso. destruct ok.
              ** unfold advance in E1. cbn [set_stack stack handlers] in E1.
                 destruct (next_from (Datatypes.S p) (skipn (Datatypes.S p) (handlers e))) as [[j h]|]; inversion E1; subst e1 o1; cbn [set_stack stack] in K1;
                 apply (f_equal (@length nat)) in K1; cbn [length] in K1; rewrite app_length in K1; cbn [length] in K1; lia.
              ** inversion E1; subst e1 o1. cbn [set_stack stack] in K1. apply (f_equal (@length nat)) in K1; rewrite app_length in K1; cbn [length] in K1; lia.
      * exfalso. specialize (P1 [] (o' :: body) eq_refl ltac:(discriminate)). cbn [run fst] in P1. rewrite K1 in P1. lia.
Qed.

Lemma run_trigger : forall body e, muted e = false -> forallb gentle body = true ->
  (forall p q, body = p ++ q -> q <> [] -> length (stack e) < length (stack (fst (run e (Trigger :: p))))) ->
  let (e', os) := run e (Trigger :: body) in
  (In (Finished (S (length (stack e))) true) os -> calls (S (length (stack e))) os = heard (handlers e'))
  /\ exists rest, calls (S (length (stack e))) os ++ rest = heard (handlers e').
Proof.
  intros body e M G P. cbn [run step]. rewrite M. pose proof (advance_ok (stack e) 0 e [] eq_refl eq_refl ltac:(lia)) as K.
  cbn [run step] in P. rewrite M in P. destruct (advance 0 e) as [e1 o1] eqn:A. destruct K as [[[K K0]|[K1 K2]] HH]; cbn [app] in *.
  - assert (P1 : forall p q, body = p ++ q -> q <> [] -> length (stack e) < length (stack (fst (run e1 p)))).
    { intros p q E Q. specialize (P p q E Q). destruct (run e1 p). exact P. }
    pose proof (run_ongoing body (stack e) e1 _ K G P1) as R. destruct (run e1 body) as [e2 o2]. rewrite calls_app.
    destruct R as [R1 R2]. split; auto. intros H. apply in_app_or in H. destruct H as [H|H]; auto.
    unfold advance in A. destruct (next_from 0 (skipn 0 (handlers e))) as [[j h]|]; inversion A; subst e1 o1.
    + destruct H as [H|[]]; discriminate.
    + lia.
  - destruct body as [|o body].
    + cbn [run]. rewrite app_nil_r. split; auto.
      unfold advance in A. destruct (next_from 0 (skipn 0 (handlers e))) as [[j h]|]; inversion A; subst e1 o1.
      * cbn [set_stack stack] in K1. apply (f_equal (@length nat)) in K1. cbn [length] in K1. lia.
      * exists []. rewrite app_nil_r. apply K2. now left.
    + exfalso. specialize (P [] (o :: body) eq_refl ltac:(discriminate)). cbn [run fst] in P. rewrite K1 in P. lia.
Qed.
