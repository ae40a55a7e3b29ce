(** Proofs for C34. *)
From Verif Require Import Base Loop_Model Loop_Spec.
From Coq Require Import Sorting.Permutation Sorting.Sorted.
Local Open Scope nat_scope.

Lemma find_split : forall l x L, find l L = Some x ->
  exists A B, L = A ++ (l, x) :: B /\ (forall y, put l y L = A ++ (l, y) :: B) /\ drop l L = A ++ B.
Proof.
  induction L as [|[k z] L IH]; cbn [find]; [discriminate|]. destruct (Nat.eqb_spec k l) as [->|NE]; intros H.
  - inversion H; subst. exists [], L. split; auto. split; [intros y|]; cbn [put drop]; now rewrite Nat.eqb_refl.
  - destruct (IH H) as (A & B & E & P & D). exists ((k, z) :: A), B. cbn [put drop app]. apply Nat.eqb_neq in NE. rewrite NE. rewrite E at 1.
    split; auto. split; [intros y; now rewrite P|now rewrite D].
Qed.

Definition li (e : nat * loop) : list item :=
  match ph (snd e) with Waiting => [] | Busy k c t => k ++ match c with Some i => [i] | None => [] end ++ t end.
Definition ld (e : nat * loop) : list item := match ph (snd e) with Waiting => [] | Busy _ _ t => t end.
Definition lk (e : nat * loop) : list item := match ph (snd e) with Waiting => [] | Busy k _ _ => k end.
Definition all (s : state) : list item := queue s ++ flat_map li (loops s).
Definition waiting (s : state) : list item := queue s ++ flat_map ld (loops s).

Lemma filter_out : forall X i Y, NoDup (map num (X ++ i :: Y)) -> filter (fun j => negb (num j =? num i)) (X ++ i :: Y) = X ++ Y.
Proof.
  intros X i Y N. rewrite map_app in N. cbn [map] in N. apply NoDup_remove_2 in N. rewrite <- map_app in N.
  rewrite filter_app. cbn [filter]. rewrite Nat.eqb_refl. cbn [negb]. rewrite <- filter_app.
  assert (G : forall Z, ~ In (num i) (map num Z) -> filter (fun j => negb (num j =? num i)) Z = Z).
  { induction Z as [|z Z IH]; cbn [filter map In]; auto. intros H. destruct (Nat.eqb_spec (num z) (num i)) as [E|E]; [tauto|]. cbn [negb]. rewrite IH; tauto. }
  now apply G.
Qed.

Lemma Permutation_filter : forall {A} (f : A -> bool) a b, Permutation a b -> Permutation (filter f a) (filter f b).
Proof.
  intros A f a b P. induction P; cbn [filter]; auto.
  - destruct (f x); auto.
  - destruct (f x), (f y); auto. constructor.
  - eapply perm_trans; eauto.
Qed.

Record INV (s : state) (t : list ev) : Prop := {
  i_perm : Permutation (all s) (pending t);
  i_nodup : NoDup (map num (all s));
  i_fresh : Forall (fun i => num i < next s) (all s);
  i_once : NoDup (map num (filter one_shot (started t) ++ filter one_shot (waiting s)));
  i_sfresh : Forall (fun i => num i < next s) (started t);
  i_kept : Forall (fun e => Forall (fun i => one_shot i = false) (lk e)) (loops s);
  i_active : forall l, active t l <-> In l (map fst (loops s));
  i_keys : NoDup (map fst (loops s));
  i_calls : forall l b, In (Began l b) t -> l < calls s;
  i_ret : forall l, In (Returned l) t -> exists b, In (Began l b) t;
  i_waiting : forall l x, In (l, x) (loops s) -> ph x = Waiting -> once x = false
}.

Lemma filter_flat : forall {A B} (f : B -> bool) (g : A -> list B) L, filter f (flat_map g L) = flat_map (fun a => filter f (g a)) L.
Proof. induction L; cbn [flat_map]; auto. rewrite filter_app. now rewrite IHL. Qed.

(** events that change neither works nor calls *)
Lemma inv_mild : forall s t e, INV s t ->
  match e with Refused | IterBegins _ | IterEnds _ | Done _ _ true => True | _ => False end -> INV s (e :: t).
Proof.
  intros s t e [P N F O SF K A KS C R W] H.
  assert (PE : pending (e :: t) = pending t) by (destruct e as [| | | | |? ? []| |]; try contradiction; auto).
  assert (SE : started (e :: t) = started t) by (destruct e as [| | | | |? ? []| |]; try contradiction; auto).
  assert (AE : forall l, active (e :: t) l <-> active t l).
  { intros l. unfold active. split; intros [[b B] NR]; (split; [exists b|]).
    - destruct B as [B|B]; auto. subst e. contradiction.
    - intros I. apply NR. now right.
    - now right.
    - intros [I|I]; auto. subst e. contradiction. }
  constructor; auto.
  - now rewrite PE.
  - now rewrite SE.
  - now rewrite SE.
  - intros l. now rewrite AE.
  - intros l b [B|B]; [subst e; contradiction|eauto].
  - intros l [B|B]; [subst e; contradiction|]. destruct (R l B) as (b & I). exists b. now right.
Qed.

(** replacing the state by one with the same works and calls *)
Lemma inv_state : forall s s' t, INV s t -> Permutation (all s) (all s') -> Permutation (filter one_shot (waiting s)) (filter one_shot (waiting s')) ->
  next s' = next s -> calls s' = calls s -> map fst (loops s') = map fst (loops s) ->
  Forall (fun e => Forall (fun i => one_shot i = false) (lk e)) (loops s') ->
  (forall l x, In (l, x) (loops s') -> ph x = Waiting -> once x = false) -> INV s' t.
Proof.
  intros s s' t [P N F O SF K A KS C R W] PA PW EN EC EK K' W'. constructor; auto.
  - rewrite <- PA. auto.
  - eapply Permutation_NoDup; [|exact N]. now apply Permutation_map.
  - rewrite EN. eapply Permutation_Forall; eauto.
  - eapply Permutation_NoDup; [|exact O]. apply Permutation_map. now apply Permutation_app_head.
  - now rewrite EN.
  - intros l. now rewrite EK.
  - now rewrite EK.
  - intros l b. rewrite EC. eauto.
Qed.

Lemma flat_mid : forall {A B} (g : A -> list B) X y Z, flat_map g (X ++ y :: Z) = flat_map g X ++ g y ++ flat_map g Z.
Proof. intros. rewrite flat_map_app. reflexivity. Qed.

Lemma NoDup_add : forall (l : list nat) x, NoDup l -> ~ In x l -> NoDup (l ++ [x]).
Proof. intros l x N I. apply (Permutation_NoDup (l := x :: l)); [|now constructor]. apply Permutation_cons_append. Qed.

Lemma kept_mid : forall {P : nat * loop -> Prop} X y Z, Forall P (X ++ y :: Z) -> Forall P X /\ P y /\ Forall P Z.
Proof. intros P X y Z H. apply Forall_app in H. destruct H as [H1 H2]. inversion H2; auto. Qed.
Lemma kept_put : forall {P : nat * loop -> Prop} X y y' Z, Forall P (X ++ y :: Z) -> P y' -> Forall P (X ++ y' :: Z).
Proof. intros P X y y' Z H Y. apply kept_mid in H. apply Forall_app. split; [tauto|]. constructor; tauto. Qed.

Lemma in_mid : forall {A} (x y : A) X Z, In x (X ++ y :: Z) -> x = y \/ In x X \/ In x Z.
Proof. intros A x y X Z H. apply in_app_or in H. destruct H as [H|[H|H]]; auto. Qed.

Lemma inv_running : forall s t b, INV s t ->
  INV {| queue := queue s; running := b; next := next s; calls := calls s; loops := loops s |} t.
Proof. intros s t b I. destruct I. eapply inv_state; [constructor; eauto|..]; auto. Qed.

Lemma started_in_pending_fresh : forall s t i, INV s t -> In i (all s) -> num i < next s.
Proof. intros s t i I H. pose proof (i_fresh _ _ I) as F. rewrite Forall_forall in F. auto. Qed.

Lemma step_inv : forall s t o, INV s t -> INV (fst (step s o)) (rev (snd (step s o)) ++ t).
Proof.
  intros s t o I. destruct o as [k| | |l|l|l again|l]; cbn [step].
  - (* schedule *)
    unfold scheduleTask. cbn [fst snd rev app]. set (i := {| num := next s; ikind := k |}). destruct I as [P N F O SF K A KS C R W].
    assert (PA : Permutation (all {| queue := queue s ++ [i]; running := running s; next := S (next s); calls := calls s; loops := loops s |}) (i :: all s)).
    { unfold all. cbn [queue loops]. rewrite <- app_assoc. cbn [app]. symmetry. apply Permutation_middle. }
    assert (NI : ~ In (next s) (map num (all s))).
    { intros H. apply in_map_iff in H. destruct H as (j & E & J). rewrite Forall_forall in F. apply F in J. lia. }
    constructor; cbn [queue loops next calls running].
    + cbn [pending]. rewrite PA. now constructor.
    + eapply Permutation_NoDup; [apply Permutation_map; symmetry; exact PA|]. cbn [map]. constructor; auto.
    + eapply Permutation_Forall; [symmetry; exact PA|]. constructor; [cbn; lia|]. eapply Forall_impl; [|exact F]. cbn beta. lia.
    + cbn [started]. unfold waiting. cbn [queue loops]. rewrite <- app_assoc, filter_app. cbn [app]. cbn [filter].
      destruct (one_shot i) eqn:OI.
      * assert (Q : Permutation (num i :: map num (filter one_shot (started t) ++ filter one_shot (waiting s)))
                      (map num (filter one_shot (started t) ++ filter one_shot (queue s) ++ i :: filter one_shot (flat_map ld (loops s))))).
        { change (num i :: map num (filter one_shot (started t) ++ filter one_shot (waiting s))) with (map num (i :: filter one_shot (started t) ++ filter one_shot (waiting s))).
          apply Permutation_map. unfold waiting. rewrite filter_app, !app_assoc. apply Permutation_middle. }
        eapply Permutation_NoDup; [exact Q|]. constructor; auto. cbn [num i]. rewrite map_app. intros H. apply in_app_or in H. destruct H as [H|H].
        -- apply in_map_iff in H. destruct H as (j & E & J). apply filter_In in J. rewrite Forall_forall in SF. destruct J as [J _]. apply SF in J. lia.
        -- apply in_map_iff in H. destruct H as (j & E & J). apply filter_In in J. destruct J as [J _]. apply NI. apply in_map_iff. exists j. split; auto.
           unfold waiting, all in *. apply in_app_or in J. apply in_or_app. destruct J as [J|J]; auto. right. apply in_flat_map in J. destruct J as (e & Q1 & Q2).
           apply in_flat_map. exists e. split; auto. unfold ld, li in *. destruct (ph (snd e)); auto. apply in_or_app. right. apply in_or_app. now right.
      * unfold waiting in O. rewrite filter_app in O. auto.
    + cbn [started]. eapply Forall_impl; [|exact SF]. cbn beta. lia.
    + auto.
    + intros l. rewrite <- A. unfold active. split; intros [[b B] NR]; (split; [exists b|]).
      * destruct B as [B|B]; [discriminate|auto].
      * intros J. apply NR. now right.
      * now right.
      * intros [J|J]; [discriminate|auto].
    + auto.
    + intros l b [B|B]; [discriminate|eauto].
    + intros l [B|B]; [discriminate|]. destruct (R l B) as (b & Q). exists b. now right.
    + auto.
  - (* run *)
    unfold beginRun. destruct (running s); cbn [fst snd rev app]; [now apply inv_mild|]. destruct I as [P N F O SF K A KS C R W].
    assert (NC : ~ In (calls s) (map fst (loops s))). { intros H. apply A in H. destruct H as [[b B] _]. apply C in B. lia. }
    assert (EA : forall q r n c, all {| queue := q; running := r; next := n; calls := c; loops := loops s ++ [(calls s, {| once := false; ph := Waiting |})] |} = q ++ flat_map li (loops s)).
    { intros. unfold all. cbn [queue loops]. rewrite flat_mid. cbn [li ph snd flat_map app]. now rewrite app_nil_r. }
    assert (EW : forall q r n c, waiting {| queue := q; running := r; next := n; calls := c; loops := loops s ++ [(calls s, {| once := false; ph := Waiting |})] |} = q ++ flat_map ld (loops s)).
    { intros. unfold waiting. cbn [queue loops]. rewrite flat_mid. cbn [ld ph snd flat_map app]. now rewrite app_nil_r. }
    constructor; cbn [next calls loops running]; rewrite ?EA, ?EW; auto.
    + apply Forall_app. split; auto. constructor; [constructor|constructor].
    + intros l. rewrite map_app, in_app_iff, <- A. cbn [map fst In]. unfold active. split.
      * intros [[b [B|B]] NR]; [inversion B; auto|]. left. split; [eauto|]. intros H. apply NR. now right.
      * intros [[[b B] NR]|[E|[]]].
        -- split; [exists b; now right|]. intros [H|H]; [discriminate|auto].
        -- subst l. split; [exists false; now left|]. intros [H|H]; [discriminate|]. destruct (R _ H) as (b & B). apply C in B. lia.
    + rewrite map_app. cbn [map fst]. now apply NoDup_add.
    + intros l b [B|B]; [inversion B; lia|]. apply C in B. lia.
    + intros l [B|B]; [discriminate|]. destruct (R l B) as (b & Q). exists b. now right.
    + intros l x H. apply in_app_or in H. destruct H as [H|[H|[]]]; [eauto|]. inversion H; subst. auto.
  - (* runIteration *)
    unfold beginIteration. destruct (running s); cbn [fst snd rev app]; [now apply inv_mild|].
    change (IterBegins (calls s) :: Began (calls s) true :: t) with ([IterBegins (calls s)] ++ Began (calls s) true :: t). apply inv_mild; [|exact Logic.I].
    destruct I as [P N F O SF K A KS C R W].
    assert (NC : ~ In (calls s) (map fst (loops s))). { intros H. apply A in H. destruct H as [[b B] _]. apply C in B. lia. }
    assert (EA : forall q r n c, Permutation (all {| queue := []; running := r; next := n; calls := c; loops := loops s ++ [(calls s, {| once := true; ph := Busy [] None q |})] |}) (q ++ flat_map li (loops s))).
    { intros. unfold all. cbn [queue loops]. rewrite flat_mid. cbn [li ph snd flat_map app]. rewrite app_nil_r. apply Permutation_app_comm. }
    assert (EW : forall q r n c, Permutation (waiting {| queue := []; running := r; next := n; calls := c; loops := loops s ++ [(calls s, {| once := true; ph := Busy [] None q |})] |}) (q ++ flat_map ld (loops s))).
    { intros. unfold waiting. cbn [queue loops]. rewrite flat_mid. cbn [ld ph snd flat_map app]. rewrite app_nil_r. apply Permutation_app_comm. }
    constructor; cbn [next calls loops running].
    + rewrite EA. exact P.
    + eapply Permutation_NoDup; [apply Permutation_map; symmetry; apply EA|]. exact N.
    + eapply Permutation_Forall; [symmetry; apply EA|]. exact F.
    + eapply Permutation_NoDup; [|exact O]. apply Permutation_map. cbn [started]. apply Permutation_app_head. apply Permutation_filter. symmetry. apply EW.
    + exact SF.
    + apply Forall_app. split; auto. constructor; [constructor|constructor].
    + intros l. rewrite map_app, in_app_iff, <- A. cbn [map fst In]. unfold active. split.
      * intros [[b [B|B]] NR]; [inversion B; auto|]. left. split; [eauto|]. intros H. apply NR. now right.
      * intros [[[b B] NR]|[E|[]]].
        -- split; [exists b; now right|]. intros [H|H]; [discriminate|auto].
        -- subst l. split; [exists true; now left|]. intros [H|H]; [discriminate|]. destruct (R _ H) as (b & B). apply C in B. lia.
    + rewrite map_app. cbn [map fst]. now apply NoDup_add.
    + intros l b [B|B]; [inversion B; lia|]. apply C in B. lia.
    + intros l [B|B]; [discriminate|]. destruct (R l B) as (b & Q). exists b. now right.
    + intros l x H. apply in_app_or in H. destruct H as [H|[H|[]]]; [eauto|]. inversion H; subst. discriminate.
  - (* wake *)
    unfold wake. destruct (find l (loops s)) as [[o [|kept cur todo]]|] eqn:FL; cbn [fst snd rev app]; auto.
    apply inv_mild; [|exact Logic.I]. destruct (find_split _ _ _ FL) as (X & Z & E & PE & _).
    apply (inv_state s); auto; cbn [loops next calls]; rewrite ?PE.
    + unfold all. cbn [queue loops]. rewrite ?PE, E, !flat_mid. cbn [li ph snd app]. rewrite !app_assoc. apply Permutation_app_tail. apply Permutation_app_comm.
    + apply Permutation_filter. unfold waiting. cbn [queue loops]. rewrite ?PE, E, !flat_mid. cbn [ld ph snd app]. rewrite !app_assoc. apply Permutation_app_tail. apply Permutation_app_comm.
    + rewrite E, !map_app. reflexivity.
    + pose proof (i_kept _ _ I) as K. rewrite E in K. eapply kept_put; [exact K|]. constructor.
    + intros k x H PW. apply in_mid in H. destruct H as [H|H]; [inversion H; subst; discriminate|]. apply (i_waiting _ _ I k x); auto. rewrite E. apply in_or_app. cbn [In]. tauto.
  - (* start *)
    unfold start. destruct (find l (loops s)) as [[o [|kept [i0|] [|i todo]]]|] eqn:FL; cbn [fst snd rev app]; auto.
    destruct (find_split _ _ _ FL) as (X & Z & E & PE & _). pose proof I as [P N F O SF K A KS C R W].
    assert (IA : In i (all s)). { unfold all. rewrite E, flat_mid. apply in_or_app. right. apply in_or_app. right. apply in_or_app. left. cbn [li ph snd]. apply in_or_app. right. now left. }
    assert (EA : all (set_loop l (Busy kept (Some i) todo) o s) = all s).
    { unfold all, set_loop. cbn [queue loops]. rewrite ?PE, E, !flat_mid. cbn [li ph snd app]. reflexivity. }
    assert (EW : Permutation (waiting s) (i :: waiting (set_loop l (Busy kept (Some i) todo) o s))).
    { unfold waiting, set_loop. cbn [queue loops]. rewrite ?PE, E, !flat_mid. cbn [ld ph snd app]. symmetry. rewrite !(app_assoc (queue s) (flat_map ld X)). apply Permutation_middle. }
    constructor; try rewrite EA; auto; unfold set_loop; cbn [next calls loops]; rewrite ?PE; auto.
    + unfold set_loop in EW. rewrite PE in EW. eapply Permutation_NoDup; [|exact O]. apply Permutation_map. cbn [started filter].
      eapply perm_trans; [apply Permutation_app_head; apply Permutation_filter; exact EW|]. unfold set_loop. cbn [filter]. destruct (one_shot i); auto. cbn [app]. symmetry. apply Permutation_middle.
    + cbn [started]. constructor; auto. rewrite Forall_forall in F. auto.
    + rewrite E in K. eapply kept_put; [exact K|]. apply kept_mid in K. unfold lk in *. cbn [ph snd] in *. tauto.
    + intros k. assert (M : map fst (X ++ (l, {| once := o; ph := Busy kept (Some i) todo |}) :: Z) = map fst (loops s)) by (rewrite E, !map_app; reflexivity).
      rewrite M, <- A. unfold active. split; intros [[b B] NR]; (split; [exists b|]).
      * destruct B as [B|B]; [discriminate|auto].
      * intros J. apply NR. now right.
      * now right.
      * intros [J|J]; [discriminate|auto].
    + rewrite E in KS. rewrite map_app in *. exact KS.
    + intros k b [B|B]; [discriminate|eauto].
    + intros k [B|B]; [discriminate|]. destruct (R k B) as (b & Q). exists b. now right.
    + intros k x H PW. apply in_mid in H. destruct H as [H|H]; [inversion H; subst; discriminate|]. apply (W k x); auto. rewrite E. apply in_or_app. cbn [In]. tauto.
  - (* finish *)
    unfold finish. destruct (find l (loops s)) as [[o [|kept [i|] todo]]|] eqn:FL; cbn [fst snd rev app]; auto.
    destruct (find_split _ _ _ FL) as (X & Z & E & PE & _). pose proof I as [P N F O SF K A KS C R W].
    assert (KEPT : Forall (fun i => one_shot i = false) kept) by (rewrite E in K; apply kept_mid in K; unfold lk in K; cbn [ph snd] in K; tauto).
    assert (GONE : INV (set_loop l (Busy kept None todo) o s) (Done l i false :: t)).
    { assert (SA : exists U V, all s = U ++ i :: V /\ all (set_loop l (Busy kept None todo) o s) = U ++ V).
      { exists (queue s ++ flat_map li X ++ kept), (todo ++ flat_map li Z). unfold all, set_loop. cbn [queue loops]. rewrite ?PE, E, !flat_mid. cbn [li ph snd app]. rewrite <- !app_assoc. split; reflexivity. }
      destruct SA as (U & V & E1 & E2).
      assert (EW : waiting (set_loop l (Busy kept None todo) o s) = waiting s).
      { unfold waiting, set_loop. cbn [queue loops]. rewrite ?PE, E, !flat_mid. reflexivity. }
      assert (MK : map fst (X ++ (l, {| once := o; ph := Busy kept None todo |}) :: Z) = map fst (loops s)) by (rewrite E, !map_app; reflexivity).
      constructor; rewrite ?EW; auto; try (rewrite E2).
      - cbn [pending]. eapply perm_trans; [|apply Permutation_filter; exact P]. rewrite E1, filter_out by (rewrite <- E1; exact N). reflexivity.
      - rewrite E1 in N. rewrite map_app in *. cbn [map] in N. now apply NoDup_remove_1 in N.
      - rewrite E1 in F. unfold set_loop. cbn [next]. apply Forall_app in F. destruct F as [F1 F2]. inversion F2; subst. apply Forall_app; auto.
      - unfold set_loop. cbn [loops]. rewrite PE. rewrite E in K. eapply kept_put; [exact K|exact KEPT].
      - intros k. unfold set_loop. cbn [loops]. rewrite PE, MK, <- A. unfold active. split; intros [[b B] NR]; (split; [exists b|]).
        + destruct B as [B|B]; [discriminate|auto].
        + intros J. apply NR. now right.
        + now right.
        + intros [J|J]; [discriminate|auto].
      - unfold set_loop. cbn [loops]. now rewrite PE, MK.
      - intros k b [B|B]; [discriminate|eauto].
      - intros k [B|B]; [discriminate|]. destruct (R k B) as (b & Q). exists b. now right.
      - unfold set_loop. cbn [loops]. rewrite PE. intros k x H PW. apply in_mid in H. destruct H as [H|H]; [inversion H; subst; discriminate|]. apply (W k x); auto. rewrite E. apply in_or_app. cbn [In]. tauto. }
    destruct (ikind i) eqn:KI; cbn [fst snd rev app]; auto.
    + destruct again; cbn [fst snd rev app]; auto. apply inv_mild; [|exact Logic.I]. apply (inv_state s); auto; unfold set_loop; cbn [loops next calls]; rewrite ?PE.
      * unfold all. cbn [queue loops]. rewrite ?PE, E, !flat_mid. cbn [li ph snd app]. rewrite <- !app_assoc. reflexivity.
      * unfold waiting. cbn [queue loops]. rewrite ?PE, E, !flat_mid. reflexivity.
      * rewrite E, !map_app. reflexivity.
      * rewrite E in K. eapply kept_put; [exact K|]. unfold lk. cbn [ph snd]. apply Forall_app. split; auto. constructor; auto. unfold one_shot. now rewrite KI.
      * intros k x H PW. apply in_mid in H. destruct H as [H|H]; [inversion H; subst; discriminate|]. apply (W k x); auto. rewrite E. apply in_or_app. cbn [In]. tauto.
    + exact (inv_running _ _ false GONE).
  - (* end of iteration *)
    unfold endIteration. destruct (find l (loops s)) as [[o [|kept [i|] [|i2 todo]]]|] eqn:FL; cbn [fst snd rev app]; auto.
    destruct (find_split _ _ _ FL) as (X & Z & E & PE & DE). pose proof I as [P N F O SF K A KS C R W].
    assert (KEPT : Forall (fun i => one_shot i = false) kept) by (rewrite E in K; apply kept_mid in K; unfold lk in K; cbn [ph snd] in K; tauto).
    assert (KF : filter one_shot kept = []). { clear - KEPT. induction KEPT; cbn [filter]; auto. now rewrite H. }
    assert (PA : Permutation (queue s ++ flat_map li (X ++ (l, {| once := o; ph := Busy kept None [] |}) :: Z)) ((queue s ++ kept) ++ flat_map li X ++ flat_map li Z)).
    { rewrite flat_mid. cbn [li ph snd app]. rewrite app_nil_r, <- app_assoc. apply Permutation_app_head. rewrite !app_assoc. apply Permutation_app_tail. apply Permutation_app_comm. }
    destruct (o || negb (running s)) eqn:G; cbn [fst snd rev app].
    + (* returns *)
      assert (RET : ~ In l (map fst (X ++ Z))). { rewrite E in KS. rewrite map_app in *. cbn [map fst] in KS. now apply NoDup_remove_2 in KS. }
      assert (BEG : exists b, In (Began l b) t). { assert (H : active t l) by (apply A; rewrite E, map_app; apply in_or_app; right; now left). destruct H as [H _]. exact H. }
      unfold all, waiting in *. rewrite E in *. constructor; unfold all, waiting; cbn [queue loops next calls]; rewrite ?DE, ?flat_map_app.
      * cbn [pending]. rewrite <- PA. exact P.
      * eapply Permutation_NoDup; [apply Permutation_map; exact PA|exact N].
      * eapply Permutation_Forall; [exact PA|exact F].
      * cbn [started]. rewrite flat_mid in O. cbn [ld ph snd app] in O. rewrite !filter_app in *. rewrite KF, app_nil_r. exact O.
      * exact SF.
      * apply kept_mid in K. apply Forall_app. tauto.
      * intros k. split.
        -- intros [[b B] NR]. assert (B' : In (Began k b) t) by (destruct B as [B|[B|B]]; [discriminate|discriminate|auto]).
           assert (AK : active t k) by (split; [eauto|]; intros H; apply NR; right; now right). apply A in AK. rewrite map_app in *. cbn [map fst] in AK. apply in_mid in AK. apply in_or_app.
           destruct AK as [->|[AK|AK]]; auto. exfalso. apply NR. now left.
        -- intros H. assert (AK : active t k) by (apply A; rewrite map_app in *; cbn [map fst]; apply in_or_app; cbn [In]; apply in_app_or in H; tauto).
           destruct AK as [[b B] NR]. split; [exists b; right; now right|]. intros [J|[J|J]]; [inversion J; subst; tauto|discriminate|auto].
      * rewrite map_app in *. cbn [map fst] in KS. now apply NoDup_remove_1 in KS.
      * intros k b [B|[B|B]]; [discriminate|discriminate|eauto].
      * intros k [B|[B|B]]; [inversion B; subst|discriminate|].
        -- destruct BEG as (b & B2). exists b. right. now right.
        -- destruct (R k B) as (b & B2). exists b. right. now right.
      * intros k x H PW. apply (W k x); auto. apply in_or_app. cbn [In]. apply in_app_or in H. tauto.
    + apply inv_mild; [|exact Logic.I]. apply orb_false_iff in G. destruct G as [-> G]. apply (inv_state s); auto; cbn [loops next calls]; rewrite ?PE.
      * unfold all. cbn [queue loops]. rewrite ?PE, E, PA, flat_mid. reflexivity.
      * unfold waiting. cbn [queue loops]. rewrite ?PE, E, !flat_mid. cbn [ld ph snd app]. rewrite !filter_app, KF, app_nil_r. reflexivity.
      * rewrite E, !map_app. reflexivity.
      * rewrite E in K. eapply kept_put; [exact K|]. constructor.
      * intros k x H PW. apply in_mid in H. destruct H as [H|H]; [inversion H; subst; auto|]. apply (W k x); auto. rewrite E. apply in_or_app. cbn [In]. tauto.
Qed.

Lemma inv_init : INV init [].
Proof.
  constructor; cbn; auto; try constructor; try (intros; tauto).
  intros [[b []] _].
Qed.

Lemma inv_after : forall h, INV (after h) (trace h).
Proof. induction h as [|o h IH]; [apply inv_init|]. cbn [after trace]. now apply step_inv. Qed.

(** ** One call at a time *)
Lemma orderly_app : forall a t, orderly (a ++ t) -> orderly t.
Proof. induction a as [|e a IH]; intros t; cbn [app orderly]; auto. destruct e; try apply IH. intros [_ H]. now apply IH. Qed.

Definition sorted_items (l : list item) : Prop := StronglySorted lt (map num (filter one_shot l)).

Record ORD (s : state) (t : list ev) : Prop := {
  o_one : loops s = [] \/ exists l x, loops s = [(l, x)];
  o_sorted : sorted_items (rev (started t) ++ flat_map ld (loops s) ++ queue s);
  o_idle : loops s = [] -> running s = false;
  o_waits : forall l x, loops s = [(l, x)] -> ph x = Waiting -> running s = true;
  o_busy : forall l x k c d, loops s = [(l, x)] -> ph x = Busy k c d ->
    exists t2 t1, t = t2 ++ IterBegins l :: t1 /\ within l t2 /\ Permutation (rev (started t2) ++ d) (pending t1)
      /\ (running s = false <-> stop_done t2)
}.

Lemma sorted_app_lt : forall l i n, Forall (fun j => num j < n) l -> num i = n -> sorted_items l -> sorted_items (l ++ [i]).
Proof.
  intros l i n F E. unfold sorted_items. induction l as [|x l IH]; cbn [app filter map].
  - intros _. destruct (one_shot i); cbn [map]; repeat constructor.
  - inversion F; subst. destruct (one_shot x) eqn:X; auto. cbn [map]. intros S. inversion S as [|? ? S1 S2]; subst. constructor; auto.
    rewrite filter_app, map_app. apply Forall_app. split; auto. cbn [filter]. destruct (one_shot i); cbn [map]; constructor; auto. 
Qed.

Lemma sorted_eq : forall a b, filter one_shot a = filter one_shot b -> sorted_items a -> sorted_items b.
Proof. unfold sorted_items. intros a b ->. auto. Qed.

Lemma in_ld_all : forall s i, In i (waiting s) -> In i (all s).
Proof.
  intros s i J. unfold waiting, all in *. apply in_app_or in J. apply in_or_app. destruct J as [J|J]; auto. right. apply in_flat_map in J. destruct J as (e & Q1 & Q2).
  apply in_flat_map. exists e. split; auto. unfold ld, li in *. destruct (ph (snd e)); auto. apply in_or_app. right. apply in_or_app. now right.
Qed.

Lemma sched_fresh : forall s t, INV s t -> Forall (fun j => num j < next s) (rev (started t) ++ flat_map ld (loops s) ++ queue s).
Proof.
  intros s t I. apply Forall_app. split; [apply Forall_rev; apply (i_sfresh _ _ I)|]. apply Forall_forall. intros i H.
  pose proof (i_fresh _ _ I) as F. rewrite Forall_forall in F. apply F. apply in_ld_all. unfold waiting. apply in_app_or in H. apply in_or_app. tauto.
Qed.

Lemma within_cons : forall l e t, within l t -> e <> IterEnds l -> e <> IterBegins l -> within l (e :: t).
Proof. intros l e t [A B] H1 H2. split; intros [H|H]; auto. Qed.

Lemma stop_cons : forall e t, (forall l i, e = Done l i false -> ikind i <> StopRequest) -> (stop_done (e :: t) <-> stop_done t).
Proof.
  intros e t H. unfold stop_done. split; intros (l & i & J & K); exists l, i; split; auto; [|now right].
  destruct J as [J|J]; auto. subst e. exfalso. eapply H; eauto.
Qed.

Lemma one_find : forall l x k y, find k [(l, x)] = Some y -> k = l /\ y = x.
Proof. intros l x k y. cbn [find]. destruct (Nat.eqb_spec l k); [|discriminate]. intros H. inversion H. auto. Qed.

Lemma no_active : forall s t, INV s t -> (forall k, ~ active t k) -> loops s = [].
Proof.
  intros s t I H. destruct (loops s) as [|[l x] L] eqn:E; auto. exfalso. apply (H l). apply (i_active _ _ I). rewrite E. now left.
Qed.

Lemma started_app : forall a b, started (a ++ b) = started a ++ started b.
Proof. induction a as [|e a IH]; intros b; cbn [app started]; auto. destruct e; cbn [app]; auto. now rewrite IH. Qed.

(** a step that adds one event within the iteration, the works taken being unchanged *)
Lemma step_ord : forall s t o, INV s t -> ORD s t -> orderly (rev (snd (step s o)) ++ t) ->
  ORD (fst (step s o)) (rev (snd (step s o)) ++ t).
Proof.
  intros s t o I R OR. destruct o as [k| | |l|l|l again|l]; cbn [step] in *.
  - unfold scheduleTask in *. cbn [fst snd rev app] in *. set (i := {| num := next s; ikind := k |}) in *. destruct R as [O1 S O2 O3 O4]. constructor; cbn [loops queue running started]; auto.
    + pose proof (sorted_app_lt _ i (next s) (sched_fresh _ _ I) eq_refl S) as Q. rewrite <- !app_assoc in Q. exact Q.
    + intros l x kk c d E P. destruct (O4 l x kk c d E P) as (t2 & t1 & ET & W & PE & ST). exists (Scheduled i :: t2), t1. rewrite ET. split; [reflexivity|].
      split; [apply within_cons; auto; discriminate|]. split; auto. rewrite stop_cons; auto. discriminate.
  - unfold beginRun in *. destruct (running s) eqn:RU; cbn [fst snd rev app] in *.
    + destruct R as [O1 S O2 O3 O4]. constructor; auto. intros l x kk c d E P. destruct (O4 l x kk c d E P) as (t2 & t1 & ET & W & PE & ST). exists (Refused :: t2), t1.
      rewrite ET. split; [reflexivity|]. split; [apply within_cons; auto; discriminate|]. split; auto. rewrite stop_cons; auto. discriminate.
    + destruct OR as [NA _]. pose proof (no_active _ _ I NA) as L. destruct R as [O1 S O2 O3 O4]. rewrite L in *. constructor; cbn [loops queue running started app]; auto.
      * right. eauto.
      * intros H. discriminate.
      * intros l x kk c d E P. inversion E; subst. discriminate.
  - unfold beginIteration in *. destruct (running s) eqn:RU; cbn [fst snd rev app] in *.
    + destruct R as [O1 S O2 O3 O4]. constructor; auto. intros l x kk c d E P. destruct (O4 l x kk c d E P) as (t2 & t1 & ET & W & PE & ST). exists (Refused :: t2), t1.
      rewrite ET. split; [reflexivity|]. split; [apply within_cons; auto; discriminate|]. split; auto. rewrite stop_cons; auto. discriminate.
    + destruct OR as [NA _]. pose proof (no_active _ _ I NA) as L. destruct R as [O1 S O2 O3 O4]. rewrite L in *. constructor; cbn [loops queue running started app].
      * right. eauto.
      * cbn [flat_map ld ph snd]. rewrite !app_nil_r. exact S.
      * intros H. discriminate.
      * intros l x E P. inversion E; subst. discriminate.
      * intros l x kk c d E P. inversion E; subst. inversion P; subst. exists [], (Began (calls s) true :: t). split; [reflexivity|]. split; [split; intros []|]. split.
        -- cbn [started rev app pending]. pose proof (i_perm _ _ I) as Q. unfold all in Q. rewrite L in Q. cbn [flat_map] in Q. rewrite app_nil_r in Q. exact Q.
        -- split; [discriminate|]. intros (l & i & [] & _).
  - unfold wake in *. destruct (find l (loops s)) as [[o [|kept cur todo]]|] eqn:FL; cbn [fst snd rev app] in *; auto.
    destruct R as [O1 S O2 O3 O4]. destruct O1 as [E|(l' & x & E)]; rewrite E in *; [discriminate|]. apply one_find in FL. destruct FL as [<- FL]. subst x.
    cbn [put]. rewrite Nat.eqb_refl. constructor; cbn [loops queue running started].
    + right. eauto.
    + cbn [flat_map ld ph snd] in *. rewrite !app_nil_r. exact S.
    + discriminate.
    + intros l0 x E' P. inversion E'; subst. discriminate.
    + intros l0 x kk c d E' P. inversion E'; subst. inversion P; subst. exists [], t. split; [reflexivity|]. split; [split; intros []|]. split.
      * cbn [started rev app]. pose proof (i_perm _ _ I) as Q. unfold all in Q. rewrite E in Q. cbn [flat_map li ph snd] in Q. rewrite app_nil_r in Q. exact Q.
      * rewrite (O3 l0 _ eq_refl eq_refl). split; [discriminate|]. intros (l & i & [] & _).
  - unfold start in *. destruct (find l (loops s)) as [[o [|kept [i0|] [|i todo]]]|] eqn:FL; cbn [fst snd rev app] in *; auto.
    destruct R as [O1 S O2 O3 O4]. destruct O1 as [E|(l' & x & E)]; rewrite E in *; [discriminate|]. apply one_find in FL. destruct FL as [<- FL]. subst x.
    unfold set_loop. rewrite E. cbn [put]. rewrite Nat.eqb_refl. constructor; cbn [loops queue running started].
    + right. eauto.
    + cbn [flat_map ld ph snd] in *. rewrite !app_nil_r in *. cbn [rev]. rewrite <- app_assoc. exact S.
    + discriminate.
    + intros l0 x E' P. inversion E'; subst. discriminate.
    + intros l0 x kk c d E' P. inversion E'; subst. inversion P; subst. destruct (O4 l0 _ kk None (i :: d) eq_refl eq_refl) as (t2 & t1 & ET & W & PE & ST).
      exists (Exec l0 i :: t2), t1. rewrite ET. split; [reflexivity|]. split; [apply within_cons; auto; discriminate|]. split.
      * cbn [started rev]. rewrite <- app_assoc. exact PE.
      * rewrite stop_cons; auto. discriminate.
  - unfold finish in *. destruct (find l (loops s)) as [[o [|kept [i|] todo]]|] eqn:FL; cbn [fst snd rev app] in *; auto.
    destruct R as [O1 S O2 O3 O4]. destruct O1 as [E|(l' & x & E)]; rewrite E in *; [discriminate|]. apply one_find in FL. destruct FL as [<- FL]. subst x.
    destruct (O4 l _ kept (Some i) todo eq_refl eq_refl) as (t2 & t1 & ET & W & PE & ST). clear O3 O4.
    cbn [flat_map ld ph snd] in S. rewrite app_nil_r in S.
    assert (G : forall a r k', (r = false <-> stop_done (Done l i a :: t2)) ->
              ORD {| queue := queue s; running := r; next := next s; calls := calls s; loops := [(l, {| once := o; ph := Busy k' None todo |})] |} (Done l i a :: t)).
    { intros a r k' H. constructor; cbn [loops queue running started].
      - right. eauto.
      - cbn [flat_map ld ph snd]. rewrite app_nil_r. exact S.
      - discriminate.
      - intros l0 x E' P. inversion E'; subst. discriminate.
      - intros l0 x kk c d E' P. inversion E'; subst. inversion P; subst. exists (Done l0 i a :: t2), t1. split; [reflexivity|]. split; [apply within_cons; auto; discriminate|]. split; auto. }
    destruct (ikind i) eqn:KI; [| destruct again |]; cbn [fst snd rev app]; unfold set_loop; cbn [queue running next calls loops]; rewrite E; cbn [put]; rewrite Nat.eqb_refl; apply G.
    + rewrite stop_cons; auto. intros l0 i0 H. inversion H; subst. congruence.
    + rewrite stop_cons; auto. intros l0 i0 H. inversion H; subst.
    + rewrite stop_cons; auto. intros l0 i0 H. inversion H; subst. congruence.
    + split; auto. intros _. exists l, i. split; [now left|auto].
  - unfold endIteration in *. destruct (find l (loops s)) as [[o [|kept [i|] [|i2 todo]]]|] eqn:FL; cbn [fst snd rev app] in *; auto.
    pose proof (i_kept _ _ I) as K. destruct R as [O1 S O2 O3 O4]. destruct O1 as [E|(l' & x & E)]; rewrite E in *; [discriminate|]. apply one_find in FL. destruct FL as [<- FL]. subst x.
    assert (KF : filter one_shot kept = []). { inversion K as [|? ? KK _]; subst. unfold lk in KK. cbn [ph snd] in KK. clear - KK. induction KK; cbn [filter]; auto. now rewrite H. }
    assert (SQ : sorted_items (rev (started t) ++ queue s ++ kept)).
    { eapply sorted_eq; [|exact S]. cbn [flat_map ld ph snd app]. rewrite !filter_app, KF, app_nil_r. reflexivity. }
    destruct (o || negb (running s)) eqn:G; cbn [fst snd rev app]; constructor; cbn [loops queue running started drop put]; rewrite ?Nat.eqb_refl; auto.
    + discriminate.
    + intros l0 x kk c d E'. discriminate.
    + right. eauto.
    + discriminate.
    + intros l0 x kk c d E' P. inversion E'; subst. discriminate.
Qed.

Lemma ord_init : ORD init [].
Proof.
  constructor; cbn; auto; try discriminate. constructor.
Qed.

Lemma ord_after : forall h, orderly (trace h) -> ORD (after h) (trace h).
Proof.
  induction h as [|o h IH]; intros H; [apply ord_init|]. cbn [after trace] in *. apply step_ord; auto; [apply inv_after|]. apply IH. now apply orderly_app in H.
Qed.

Lemma split_unique : forall l a b a' b', within l a -> within l a' -> a ++ IterBegins l :: b = a' ++ IterBegins l :: b' -> a = a' /\ b = b'.
Proof.
  intros l. induction a as [|e a IH]; intros b [|e' a'] b' W W' E; cbn [app] in E.
  - inversion E. auto.
  - inversion E; subst. exfalso. apply (proj2 W'). now left.
  - inversion E; subst. exfalso. apply (proj2 W). now left.
  - inversion E; subst. destruct (IH b a' b') as [-> ->]; auto; [destruct W as [W1 W2]|destruct W' as [W1 W2]]; split; intros H; [apply W1|apply W2|apply W1|apply W2]; now right.
Qed.

Lemma end_iteration : forall h l t2 t1, orderly (trace h) -> trace h = t2 ++ IterBegins l :: t1 -> within l t2 ->
  snd (step (after h) (EndIteration l)) <> [] ->
  Permutation (rev (started t2)) (pending t1)
  /\ exists o, find l (loops (after h)) = Some o
     /\ (In (Returned l) (snd (step (after h) (EndIteration l))) <-> once o = true \/ stop_done t2).
Proof.
  intros h l t2 t1 OR ET W NE. pose proof (ord_after h OR) as [O1 S O2 O3 O4]. cbn [step] in *. unfold endIteration in *.
  destruct (find l (loops (after h))) as [[o [|kept [i|] [|i2 todo]]]|] eqn:FL; cbn [snd] in NE; try congruence.
  destruct O1 as [E|(l' & x & E)]; rewrite E in FL; [discriminate|]. apply one_find in FL. destruct FL as [<- FL]. subst x.
  destruct (O4 l _ kept None [] E eq_refl) as (t2' & t1' & ET' & W' & PE & ST). rewrite ET in ET'. destruct (split_unique _ _ _ _ _ W W' ET') as [-> ->].
  rewrite app_nil_r in PE. split; auto. exists {| once := o; ph := Busy kept None [] |}. split; auto. cbn [once].
  rewrite <- ST. destruct o, (running (after h)); cbn [orb negb snd In]; split; auto; try (intros _; right; now left).
  - intros [H|[]]. discriminate.
  - intros [H|H]; discriminate.
Qed.

Definition KIN (s : state) (t : list ev) : Prop := forall l b x, In (Began l b) t -> In (l, x) (loops s) -> once x = b.
Lemma kin_same : forall s t s' e, KIN s t -> (forall l b, ~ In (Began l b) e) ->
  (forall l x, In (l, x) (loops s') -> exists y, In (l, y) (loops s) /\ once y = once x) -> KIN s' (e ++ t).
Proof.
  intros s t s' e K NB L l b x B J. apply in_app_or in B. destruct B as [B|B]; [now apply NB in B|]. destruct (L l x J) as (y & Y & <-). eauto.
Qed.
Lemma step_kin : forall s t o, INV s t -> KIN s t -> KIN (fst (step s o)) (rev (snd (step s o)) ++ t).
Proof.
  intros s t o I K.
  assert (PUT : forall l x y L, find l L = Some x -> once y = once x -> forall k z, In (k, z) (put l y L) -> exists w, In (k, w) L /\ once w = once z).
  { intros l x y L F E k z J. destruct (find_split _ _ _ F) as (A & B & EL & PE & _). rewrite PE in J. rewrite EL. apply in_mid in J. destruct J as [J|J].
    - inversion J; subst. exists x. split; auto. apply in_or_app. right. now left.
    - exists z. split; auto. apply in_or_app. cbn [In]. tauto. }
  assert (NEW : forall b p, KIN {| queue := queue s; running := true; next := next s; calls := S (calls s); loops := loops s ++ [(calls s, {| once := b; ph := p |})] |} (Began (calls s) b :: t)).
  { intros b p l b' x B J. cbn [loops] in J. apply in_app_or in J. destruct B as [B|B].
    - inversion B; subst. destruct J as [J|[J|[]]]; [|now inversion J]. exfalso. assert (AC : active t (calls s)) by (apply (i_active _ _ I); now apply (in_map fst) in J).
      destruct AC as [[b0 B0] _]. apply (i_calls _ _ I) in B0. lia.
    - destruct J as [J|[J|[]]]; [eauto|]. inversion J; subst. apply (i_calls _ _ I) in B. lia. }
  destruct o as [k| | |l|l|l again|l]; cbn [step].
  - apply (kin_same s); auto; [intros l b [H|[]]; discriminate|eauto].
  - unfold beginRun. destruct (running s); cbn [fst snd rev app]; [|apply NEW]. apply (kin_same s t s [Refused]); auto; [intros l b [H|[]]; discriminate|eauto].
  - unfold beginIteration. destruct (running s); cbn [fst snd rev app].
    + apply (kin_same s t s [Refused]); auto; [intros l b [H|[]]; discriminate|eauto].
    + intros l b x [B|B] J; [discriminate|]. cbn [loops] in J. exact (NEW true (Busy [] None (queue s)) l b x B J).
  - unfold wake. destruct (find l (loops s)) as [[o [|kept cur todo]]|] eqn:FL; cbn [fst snd rev app]; auto.
    apply (kin_same s t _ [IterBegins l]); auto; [intros l0 b [H|[]]; discriminate|]. cbn [loops]. intros k z. eapply PUT; eauto.
  - unfold start. destruct (find l (loops s)) as [[o [|kept [i0|] [|i todo]]]|] eqn:FL; cbn [fst snd rev app]; auto.
    apply (kin_same s t _ [Exec l i]); auto; [intros l0 b [H|[]]; discriminate|]. unfold set_loop. cbn [loops]. intros k z. eapply PUT; eauto.
  - unfold finish. destruct (find l (loops s)) as [[o [|kept [i|] todo]]|] eqn:FL; cbn [fst snd rev app]; auto.
    destruct (ikind i); [|destruct again|]; cbn [fst snd rev app];
      apply (kin_same s t _ [_]); auto; try (intros l0 b [H|[]]; discriminate); unfold set_loop; cbn [loops]; intros k z; eapply PUT; eauto.
  - unfold endIteration. destruct (find l (loops s)) as [[o [|kept [i|] [|i2 todo]]]|] eqn:FL; cbn [fst snd rev app]; auto.
    destruct (o || negb (running s)); cbn [fst snd rev app].
    + apply (kin_same s t _ [Returned l; IterEnds l]); auto; [intros l0 b [H|[H|[]]]; discriminate|]. cbn [loops]. destruct (find_split _ _ _ FL) as (A & B & EL & _ & DE). rewrite DE, EL.
      intros k z J. exists z. split; auto. apply in_or_app. cbn [In]. apply in_app_or in J. tauto.
    + apply (kin_same s t _ [IterEnds l]); auto; [intros l0 b [H|[]]; discriminate|]. cbn [loops]. intros k z. eapply PUT; eauto.
Qed.
Lemma kin_after : forall h, KIN (after h) (trace h).
Proof. induction h as [|o h IH]; [intros l b x []|]. cbn [after trace]. apply step_kin; auto. apply inv_after. Qed.

Lemma find_In : forall l x L, find l L = Some x -> In (l, x) L.
Proof. intros l x L F. destruct (find_split _ _ _ F) as (A & B & -> & _). apply in_or_app. right. now left. Qed.

Lemma stop_app : forall a b, stop_done b -> stop_done (a ++ b).
Proof. intros a b (l & i & H & K). exists l, i. split; auto. apply in_or_app. auto. Qed.
Lemma stop_app_l : forall a b, stop_done a -> stop_done (a ++ b).
Proof. intros a b (l & i & H & K). exists l, i. split; auto. apply in_or_app. auto. Qed.

Lemma running_active : forall h, ~ stop_done (trace h) -> orderly (trace h) -> (running (after h) = true <-> exists l, active (trace h) l).
Proof.
  intros h NS OR. pose proof (ord_after h OR) as [O1 S O2 O3 O4]. pose proof (i_active _ _ (inv_after h)) as A. destruct O1 as [E|(l & x & E)].
  - rewrite (O2 E). split; [discriminate|]. intros (l & H). apply A in H. rewrite E in H. destruct H.
  - split; [intros _; exists l; apply A; rewrite E; now left|]. intros _. destruct (ph x) as [|k c d] eqn:P; [eauto|].
    destruct (O4 l x k c d E P) as (t2 & t1 & ET & W & PE & ST). destruct (running (after h)); auto. exfalso. apply NS. rewrite ET. apply stop_app_l. now apply ST.
Qed.

Lemma no_stop_orderly : forall h, ~ stop_done (trace h) -> orderly (trace h).
Proof.
  induction h as [|o h IH]; intros NS; [exact Logic.I|]. cbn [trace] in *.
  assert (NS' : ~ stop_done (trace h)) by (intros H; apply NS; now apply stop_app). specialize (IH NS'). pose proof (running_active h NS' IH) as RA.
  assert (NE : forall k, running (after h) = false -> ~ active (trace h) k) by (intros k R AC; assert (running (after h) = true) by (apply RA; eauto); congruence).
  destruct o as [k| | |l|l|l again|l]; cbn [step].
  - exact IH.
  - unfold beginRun. destruct (running (after h)) eqn:R; cbn [snd rev app orderly]; auto.
  - unfold beginIteration. destruct (running (after h)) eqn:R; cbn [snd rev app orderly]; auto.
  - unfold wake. destruct (find l (loops (after h))) as [[o [|kept cur todo]]|]; exact IH.
  - unfold start. destruct (find l (loops (after h))) as [[o [|kept [i0|] [|i todo]]]|]; exact IH.
  - unfold finish. destruct (find l (loops (after h))) as [[o [|kept [i|] todo]]|]; try exact IH. destruct (ikind i); [|destruct again|]; exact IH.
  - unfold endIteration. destruct (find l (loops (after h))) as [[o [|kept [i|] [|i2 todo]]]|]; try exact IH. destruct (o || negb (running (after h))); exact IH.
Qed.

Lemma numbers : forall h, map num (rev (scheduled (trace h))) = seq 0 (next (after h)).
Proof.
  assert (SA : forall a b, scheduled (a ++ b) = scheduled a ++ scheduled b).
  { induction a as [|e a IH]; intros b; cbn [app scheduled]; auto. destruct e; auto. cbn [app]. now rewrite IH. }
  induction h as [|o h IH]; [reflexivity|]. cbn [trace after]. rewrite SA. destruct o as [k| | |l|l|l again|l]; cbn [step].
  - unfold scheduleTask. cbn [snd fst rev app scheduled next]. cbn [rev]. rewrite map_app, IH. cbn [map num]. now rewrite <- Nat.add_1_r, seq_app.
  - unfold beginRun. destruct (running (after h)); exact IH.
  - unfold beginIteration. destruct (running (after h)); exact IH.
  - unfold wake. destruct (find l (loops (after h))) as [[o [|kept cur todo]]|]; exact IH.
  - unfold start. destruct (find l (loops (after h))) as [[o [|kept [i0|] [|i todo]]]|]; exact IH.
  - unfold finish. destruct (find l (loops (after h))) as [[o [|kept [i|] todo]]|]; try exact IH. destruct (ikind i); [|destruct again|]; exact IH.
  - unfold endIteration. destruct (find l (loops (after h))) as [[o [|kept [i|] [|i2 todo]]]|]; try exact IH. destruct (o || negb (running (after h))); exact IH.
Qed.

Lemma NoDup_front : forall (a b : list nat), NoDup (a ++ b) -> NoDup a.
Proof. induction a as [|x a IH]; intros b N; [constructor|]. inversion N; subst. constructor; eauto. intros H. apply H1. apply in_or_app. auto. Qed.
