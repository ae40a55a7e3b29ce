From Coq Require Import String List Bool Arith Lia.
From Verif Require Import StrSrc_Model StrSrc_Spec.
Import ListNotations.
Open Scope string_scope.

Lemma has_in : forall c s, hasStatus c s = true <-> In c (statuses s).
Proof.
  intros c s. unfold hasStatus. rewrite existsb_exists. split.
  - intros [x [I E]]. apply String.eqb_eq in E. subst x. exact I.
  - intros I. exists c. split; [exact I|apply String.eqb_refl].
Qed.

Lemma has_not : forall c s, hasStatus c s = false <-> ~ In c (statuses s).
Proof.
  intros c s. rewrite <- has_in. destruct (hasStatus c s); split; intros H; try reflexivity; try discriminate.
  - exfalso. apply H. reflexivity.
Qed.

Lemma find_none : forall cs c s, findSource cs c s = None <-> ~ In c (map cs (sources s)).
Proof.
  intros cs c s. unfold findSource. split.
  - intros F I. apply in_map_iff in I. destruct I as [k [E I]].
    pose proof (find_none _ _ F k I) as N. cbv beta in N. rewrite E, String.eqb_refl in N. discriminate N.
  - intros N. destruct (find (fun k => String.eqb c (cs k)) (sources s)) as [k|] eqn:F; [|reflexivity].
    exfalso. apply find_some in F. destruct F as [I E]. apply String.eqb_eq in E.
    apply N. rewrite E. apply in_map, I.
Qed.

Lemma find_some' : forall cs c s k, findSource cs c s = Some k -> In k (sources s) /\ cs k = c.
Proof.
  intros cs c s k F. apply find_some in F. destruct F as [I E]. apply String.eqb_eq in E.
  split; [exact I | symmetry; exact E].
Qed.

Lemma erase_in : forall cs c l k, NoDup (map cs l) ->
  (In k (eraseFirst cs c l) <-> In k l /\ cs k <> c).
Proof.
  intros cs c. induction l as [|x l IH]; intros k N; cbn [eraseFirst].
  - split; [intros [] | intros [[] _]].
  - cbn [map] in N. apply NoDup_cons_iff in N. destruct N as [X N].
    destruct (String.eqb c (cs x)) eqn:E.
    + apply String.eqb_eq in E. split.
      * intros I. split; [right; exact I|]. intros C. apply X. rewrite <- E, <- C. apply in_map, I.
      * intros [[I|I] C]; [subst x; exfalso; apply C; symmetry; exact E | exact I].
    + apply String.eqb_neq in E. cbn [In]. rewrite (IH k N). split.
      * intros [I|[I C]]; [subst x; split; [left; reflexivity | intros C; apply E; symmetry; exact C] | split; [right; exact I|exact C]].
      * intros [[I|I] C]; [left; exact I | right; split; assumption].
Qed.

Lemma erase_map : forall cs c l, NoDup (map cs l) -> NoDup (map cs (eraseFirst cs c l)).
Proof.
  intros cs c. induction l as [|x l IH]; intros N; cbn [eraseFirst map]; [constructor|].
  cbn [map] in N. apply NoDup_cons_iff in N. destruct N as [X N].
  destruct (String.eqb c (cs x)) eqn:E; [exact N|].
  cbn [map]. constructor; [|apply IH, N].
  intros I. apply X. apply in_map_iff in I. destruct I as [k [K I]].
  apply (erase_in cs c l k N) in I. apply in_map_iff. exists k. split; [exact K | apply I].
Qed.

Lemma nodup_snoc : forall (A : Type) (l : list A) x, NoDup l -> ~ In x l -> NoDup (l ++ [x]).
Proof.
  intros A l x N I. apply NoDup_Add with (a := x) (l := l).
  - pose proof (Add_app x l []) as P. rewrite app_nil_r in P. exact P.
  - split; assumption.
Qed.

(** The invariant: in step, and every source has a proper string. *)
Definition inv (cs : nat -> string) (conf : string) (s : dev) : Prop :=
  inStep cs conf s /\ (forall k, In k (sources s) -> cs k <> conf).

Lemma attach_ok : forall cs conf k s, inv cs conf s -> cs k <> "" -> cs k <> conf ->
  ~ In (cs k) (map cs (sources s)) ->
  attach cs k s
  = (Dev (sources s ++ [k]) (statuses s ++ [cs k]) (confAdded s)
       (fun x => if Nat.eqb x k then true else owned s x), Success).
Proof.
  intros cs conf k s [[N [O T]] P] E C D. unfold attach, addStatus.
  apply String.eqb_neq in E. rewrite E.
  assert (H : hasStatus (cs k) (push k s) = false).
  { apply has_not. cbn [push statuses]. intros I. apply (T _ C) in I. destruct I as [j [J1 J2]].
    apply D. rewrite <- J2. apply in_map, J1. }
  rewrite H. reflexivity.
Qed.

Lemma attach_inv : forall cs conf k s, inv cs conf s -> cs k <> "" -> cs k <> conf ->
  ~ In (cs k) (map cs (sources s)) -> inv cs conf (fst (attach cs k s)).
Proof.
  intros cs conf k s V E C D. rewrite (attach_ok cs conf k s V E C D). cbn [fst].
  destruct V as [[N [O T]] P]. split; [split; [|split]|]; cbn [sources statuses owned].
  - rewrite map_app. apply nodup_snoc; assumption.
  - intros j. rewrite in_app_iff. cbn [In]. destruct (Nat.eqb j k) eqn:J.
    + apply Nat.eqb_eq in J. subst j. split; [intros _; right; left; reflexivity | reflexivity].
    + apply Nat.eqb_neq in J. rewrite O. split; [intros I; left; exact I|].
      intros [I|[I|[]]]; [exact I | exfalso; apply J; symmetry; exact I].
  - intros c X. rewrite in_app_iff, (T c X). cbn [In]. split.
    + intros [[j [J1 J2]]|[I|[]]].
      * exists j. split; [apply in_or_app; left; exact J1 | exact J2].
      * exists k. split; [apply in_or_app; right; left; reflexivity | exact I].
    + intros [j [J1 J2]]. apply in_app_iff in J1. destruct J1 as [J1|[J1|[]]].
      * left. exists j. split; assumption.
      * right. left. rewrite J1. exact J2.
  - intros j I. apply in_app_iff in I. destruct I as [I|[I|[]]]; [apply P, I | rewrite <- I; exact C].
Qed.

Lemma remove_ok : forall cs conf c k s, inv cs conf s -> findSource cs c s = Some k ->
  removeSource cs c s
  = (Dev (eraseFirst cs c (sources s)) (filter (fun x => negb (String.eqb c x)) (statuses s)) (confAdded s)
       (fun x => if Nat.eqb x k then false else owned s x), Success).
Proof.
  intros cs conf c k s [[N [O T]] P] F. unfold removeSource. rewrite F.
  destruct (find_some' cs c s k F) as [I E]. unfold removeStatus.
  assert (X : c <> conf) by (rewrite <- E; apply P, I).
  assert (H : hasStatus c s = true) by (apply has_in, (T c X); exists k; split; assumption).
  rewrite H. reflexivity.
Qed.

Lemma filter_status : forall c x l, In x (filter (fun y => negb (String.eqb c y)) l) <-> In x l /\ x <> c.
Proof.
  intros c x l. rewrite filter_In. split; intros [A B]; (split; [exact A|]).
  - intros E. subst x. rewrite String.eqb_refl in B. discriminate B.
  - destruct (String.eqb c x) eqn:E; [|reflexivity]. apply String.eqb_eq in E. exfalso. apply B. symmetry. exact E.
Qed.

Lemma same_string : forall (cs : nat -> string) l a b, NoDup (map cs l) -> In a l -> In b l -> cs a = cs b -> a = b.
Proof.
  intros cs. induction l as [|x l IH]; intros a b N A B E; [destruct A|].
  cbn [map] in N. apply NoDup_cons_iff in N. destruct N as [X N].
  destruct A as [A|A]; destruct B as [B|B].
  - congruence.
  - subst x. exfalso. apply X. rewrite E. apply in_map, B.
  - subst x. exfalso. apply X. rewrite <- E. apply in_map, A.
  - apply IH; assumption.
Qed.

Lemma remove_inv : forall cs conf c s, inv cs conf s -> inv cs conf (fst (removeSource cs c s)).
Proof.
  intros cs conf c s V. destruct (findSource cs c s) as [k|] eqn:F.
  - rewrite (remove_ok cs conf c k s V F). cbn [fst].
    destruct (find_some' cs c s k F) as [I E].
    destruct V as [[N [O T]] P]. split; [split; [|split]|]; cbn [sources statuses owned].
    + apply erase_map, N.
    + intros j. rewrite (erase_in cs c _ j N). destruct (Nat.eqb j k) eqn:J.
      * apply Nat.eqb_eq in J. subst j. split; [discriminate | intros [_ X]; contradiction].
      * apply Nat.eqb_neq in J. rewrite O. split.
        -- intros K. split; [exact K|]. intros X. apply J. apply (same_string cs (sources s) j k N K I). congruence.
        -- intros [K _]. exact K.
    + intros x X. rewrite filter_status, (T x X). split.
      * intros [[j [J1 J2]] Y]. exists j. split; [apply (erase_in cs c _ j N); split; [exact J1 | congruence] | exact J2].
      * intros [j [J1 J2]]. apply (erase_in cs c _ j N) in J1. destruct J1 as [J1 J3].
        split; [exists j; split; assumption | congruence].
    + intros j J. apply (erase_in cs c _ j N) in J. apply P, J.
  - unfold removeSource. rewrite F. exact V.
Qed.

(** The loop of [removed] when every source has a status of its own. *)
Lemma detach_ok : forall cs l s, NoDup (map cs l) ->
  (forall k, In k l -> In (cs k) (statuses s)) ->
  exists s', detachAll cs l s = (s', Success) /\ sources s' = sources s /\ confAdded s' = confAdded s /\
    (forall c, In c (statuses s') <-> In c (statuses s) /\ ~ In c (map cs l)) /\
    (forall k, owned s' k = true <-> owned s k = true /\ ~ In k l).
Proof.
  intros cs. induction l as [|x l IH]; intros s N A.
  - exists s. cbn [detachAll map In]. split; [reflexivity|]. split; [reflexivity|]. split; [reflexivity|].
    split; intros y; tauto.
  - cbn [map] in N. apply NoDup_cons_iff in N. destruct N as [X N].
    cbn [detachAll]. unfold removeStatus.
    assert (H : hasStatus (cs x) s = true) by (apply has_in, A; left; reflexivity).
    rewrite H.
    destruct (IH (setOwner x false (Dev (sources s) (filter (fun y => negb (String.eqb (cs x) y)) (statuses s)) (confAdded s) (owned s))) N)
      as [s' [E [B1 [B2 [B3 B4]]]]].
    { intros k K. cbn [setOwner statuses]. apply filter_status. split; [apply A; right; exact K|].
      intros C. apply X. rewrite <- C. apply in_map, K. }
    exists s'. cbn [setOwner sources statuses confAdded owned] in *.
    split; [exact E|]. split; [exact B1|]. split; [exact B2|]. split.
    + intros c. rewrite B3, filter_status. cbn [map In].
      split; [intros [[Y1 Y2] Y3]; split; [exact Y1|]; intros [Y|Y]; [apply Y2; symmetry; exact Y | exact (Y3 Y)]
             | intros [Y1 Y2]; split; [split; [exact Y1|]; intros Y; apply Y2; left; symmetry; exact Y | intros Y; apply Y2; right; exact Y]].
    + intros k. rewrite B4. cbn [In]. destruct (Nat.eqb k x) eqn:K.
      * apply Nat.eqb_eq in K. subst k. split; [intros [Y _]; discriminate Y | intros [_ Y]; exfalso; apply Y; left; reflexivity].
      * apply Nat.eqb_neq in K. split; intros [Y1 Y2]; (split; [exact Y1|]).
        -- intros [Y|Y]; [apply K; symmetry; exact Y | exact (Y2 Y)].
        -- intros Y. apply Y2. right. exact Y.
Qed.

Lemma removed_ok : forall cs conf s, inv cs conf s -> exists s',
  removed cs s = (s', Success) /\ sources s' = [] /\ confAdded s' = confAdded s /\
  (forall c, In c (statuses s') <-> In c (statuses s) /\ ~ In c (map cs (sources s))) /\
  (forall k, owned s' k = false).
Proof.
  intros cs conf s [[N [O T]] P].
  destruct (detach_ok cs (sources s) s N) as [s' [E [B1 [B2 [B3 B4]]]]].
  { intros k K. apply (T _ (P k K)). exists k. split; [exact K|reflexivity]. }
  exists (Dev [] (statuses s') (confAdded s') (owned s')). unfold removed. rewrite E.
  cbn [sources statuses confAdded owned]. split; [reflexivity|]. split; [reflexivity|]. split; [exact B2|].
  split; [exact B3|]. intros k. destruct (owned s' k) eqn:K; [|reflexivity].
  apply B4 in K. destruct K as [K1 K2]. exfalso. apply K2, O, K1.
Qed.

Lemma step_inv : forall cs conf s o, inv cs conf s -> clean cs conf o -> inv cs conf (step cs s o).
Proof.
  intros cs conf s o V C. destruct o as [c|k|req k|c|]; cbn [step].
  - cbn [clean] in C. subst c. unfold addConfig.
    destruct (String.eqb conf ""); [exact V|]. destruct (confAdded s || hasStatus conf s); [exact V|]. cbn [fst].
    destruct V as [[N [O T]] P]. split; [split; [exact N|split; [exact O|]]|exact P].
    cbn [statuses sources]. intros c X. rewrite in_app_iff, (T c X). cbn [In]. split.
    + intros [Y|[Y|[]]]; [exact Y | exfalso; apply X; symmetry; exact Y].
    + intros Y. left. exact Y.
  - destruct C as [C1 C2]. unfold addSource. destruct (findSource cs (cs k) s) eqn:F; [exact V|].
    apply find_none in F. apply attach_inv; assumption.
  - destruct C as [C1 [C2 C3]]. subst req. unfold addStreaming. destruct (findSource cs (cs k) s) eqn:F; [exact V|].
    apply find_none in F. apply attach_inv; assumption.
  - apply remove_inv, V.
  - destruct (removed_ok cs conf s V) as [s' [E [B1 [B2 [B3 B4]]]]]. rewrite E. cbn [fst].
    destruct V as [[N [O T]] P]. unfold inv, inStep. rewrite B1. split; [split; [constructor|split]|].
    + intros k. rewrite B4. split; [discriminate | intros []].
    + intros c X. rewrite B3, (T c X). split.
      * intros [[k [K1 K2]] Y]. exfalso. apply Y. rewrite <- K2. apply in_map, K1.
      * intros [k [[] _]].
    + intros k [].
Qed.

Lemma run_inv : forall cs conf ops, Forall (clean cs conf) ops -> inv cs conf (run cs ops).
Proof.
  intros cs conf ops F. unfold run.
  assert (G : forall s, inv cs conf s -> inv cs conf (fold_left (step cs) ops s)).
  { induction ops as [|o ops IH]; intros s V; [exact V|].
    apply Forall_cons_iff in F. destruct F as [F1 F2]. cbn [fold_left]. apply IH; [exact F2|].
    apply step_inv; assumption. }
  apply G. split; [split; [constructor|split]|].
  - intros k. cbn. split; [discriminate | intros []].
  - intros c _. cbn. split; [intros [] | intros [k [[] _]]].
  - intros k [].
Qed.

(** ** Any history *)

Lemma attach_owned : forall cs k s,
  (forall j, owned s j = true -> In j (sources s)) ->
  forall j, owned (fst (attach cs k s)) j = true -> In j (sources (fst (attach cs k s))).
Proof.
  intros cs k s H j. unfold attach, addStatus.
  destruct (String.eqb (cs k) ""); [|destruct (hasStatus (cs k) (push k s))]; cbn [fst push setOwner sources owned];
    rewrite in_app_iff; cbn [In].
  - intros O. left. apply H, O.
  - intros O. left. apply H, O.
  - destruct (Nat.eqb j k) eqn:J; [apply Nat.eqb_eq in J; subst j; intros _; right; left; reflexivity|].
    intros O. left. apply H, O.
Qed.

Lemma erase_sub : forall cs c l k, In k l -> find (fun x => String.eqb c (cs x)) l <> Some k -> In k (eraseFirst cs c l).
Proof.
  intros cs c. induction l as [|x l IH]; intros k I F; [destruct I|].
  cbn [find eraseFirst] in *. destruct (String.eqb c (cs x)).
  - destruct I as [I|I]; [subst x; exfalso; apply F; reflexivity | exact I].
  - destruct I as [I|I]; [left; exact I | right; apply IH; assumption].
Qed.

Lemma detach_owned : forall cs l s k, owned (fst (detachAll cs l s)) k = true ->
  owned s k = true.
Proof.
  intros cs. induction l as [|x l IH]; intros s k H; [exact H|].
  cbn [detachAll] in H. unfold removeStatus in H. destruct (hasStatus (cs x) s); [|exact H].
  apply IH in H. cbn [setOwner owned] in H. destruct (Nat.eqb k x); [discriminate H | exact H].
Qed.

Lemma detach_sources : forall cs l s, sources (fst (detachAll cs l s)) = sources s.
Proof.
  intros cs. induction l as [|x l IH]; intros s; [reflexivity|].
  cbn [detachAll]. unfold removeStatus. destruct (hasStatus (cs x) s); [|reflexivity].
  rewrite IH. reflexivity.
Qed.

Lemma detach_all_owned : forall cs l s s' k, detachAll cs l s = (s', Success) -> In k l -> owned s' k = false.
Proof.
  intros cs. induction l as [|x l IH]; intros s s' k E I; [destruct I|].
  cbn [detachAll] in E. unfold removeStatus in E. destruct (hasStatus (cs x) s); [|discriminate E].
  destruct (owned s' k) eqn:O; [|reflexivity]. exfalso.
  destruct I as [I|I].
  - subst x. pose proof (detach_owned cs l (setOwner k false
      (Dev (sources s) (filter (fun y => negb (String.eqb (cs k) y)) (statuses s)) (confAdded s) (owned s))) k) as D.
    rewrite E in D. specialize (D O). cbn [setOwner owned] in D. rewrite Nat.eqb_refl in D. discriminate D.
  - rewrite (IH _ s' k E I) in O. discriminate O.
Qed.

Lemma step_owned : forall cs s o, (forall j, owned s j = true -> In j (sources s)) ->
  forall j, owned (step cs s o) j = true -> In j (sources (step cs s o)).
Proof.
  intros cs s o H j. destruct o as [c|k|req k|c|]; cbn [step].
  - unfold addConfig. destruct (String.eqb c ""); [apply H|]. destruct (confAdded s || hasStatus c s); apply H.
  - unfold addSource. destruct (findSource cs (cs k) s); [apply H | apply attach_owned, H].
  - unfold addStreaming. destruct (findSource cs req s); [apply H | apply attach_owned, H].
  - unfold removeSource. destruct (findSource cs c s) as [k|] eqn:F; [|apply H].
    unfold removeStatus. destruct (hasStatus c s); [|apply H]. cbn [fst setOwner sources owned].
    destruct (Nat.eqb j k) eqn:J; [discriminate|]. apply Nat.eqb_neq in J. intros O.
    apply erase_sub; [apply H, O|]. unfold findSource in F. rewrite F. congruence.
  - unfold removed. destruct (detachAll cs (sources s) s) as [s' e] eqn:E.
    pose proof (detach_owned cs (sources s) s j) as D. pose proof (detach_sources cs (sources s) s) as S'.
    rewrite E in D, S'. cbn [fst] in D, S'.
    destruct e; cbn [fst sources owned]; intros O; try (rewrite S'; apply H, D, O).
    exfalso. pose proof (detach_all_owned cs (sources s) s s' j E (H j (D O))) as X. rewrite X in O. discriminate O.
Qed.
