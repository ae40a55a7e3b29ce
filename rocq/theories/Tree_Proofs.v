(** * Proofs about tags, search filters and component ids *)
From Coq Require Import ZArith List Bool Ascii String Arith Lia Permutation.
From Verif Require Import Base Eval_Model Eval_Spec Eval_Calc Eval_Props Tree_Model Tree_Spec.
Import ListNotations.
Local Open Scope nat_scope.

Lemma text_eqb_eq a b : text_eqb a b = true <-> a = b.
Proof. unfold text_eqb. destruct (list_eq_dec ascii_dec a b); split; congruence. Qed.

Lemma has_in s l : has s l = true <-> In s l.
Proof.
  unfold has. rewrite existsb_exists. split.
  - intros (x & I & E). apply text_eqb_eq in E. subst x. exact I.
  - intro I. exists s. split; [exact I|]. apply text_eqb_eq. reflexivity.
Qed.

Lemma has_not s l : has s l = false <-> ~ In s l.
Proof. rewrite <- has_in. destruct (has s l); split; congruence. Qed.

(** ** Tags *)

Lemma nodup_snoc {A} (l : list A) x : NoDup l -> ~ In x l -> NoDup (l ++ [x]).
Proof.
  intros N I. apply (Permutation_NoDup (l := x :: l)).
  - apply Permutation_cons_append.
  - constructor; assumption.
Qed.

Lemma insert_spec t s :
  NoDup t -> NoDup (insert t s) /\ forall x, In x (insert t s) <-> In x t \/ x = s.
Proof.
  intro N. unfold insert. destruct (has s t) eqn:H.
  - apply has_in in H. split; [exact N|]. intro x. split; [tauto|]. intros [I| ->]; assumption.
  - apply has_not in H. split; [apply nodup_snoc; assumption|].
    intro x. rewrite in_app_iff. cbn. intuition.
Qed.

Lemma insert_all l : forall t,
  NoDup t -> NoDup (fold_left insert l t) /\ forall x, In x (fold_left insert l t) <-> In x t \/ In x l.
Proof.
  induction l as [|s l IH]; intros t N.
  - cbn. split; [exact N|tauto].
  - cbn [fold_left]. destruct (insert_spec t s N) as [N1 I1]. destruct (IH _ N1) as [N2 I2].
    split; [exact N2|]. intro x. rewrite I2, I1. cbn. intuition.
Qed.

Lemma add_fst s t : fst (fst (add s t)) = insert t s.
Proof. unfold add, insert. destruct (has s t); reflexivity. Qed.

Lemma nodup_filter {A} (p : A -> bool) l : NoDup l -> NoDup (List.filter p l).
Proof. apply NoDup_filter. Qed.

Lemma remove_spec s t :
  NoDup t -> NoDup (fst (fst (remove s t))) /\
  forall x, In x (fst (fst (remove s t))) <-> In x t /\ s <> x.
Proof.
  intro N. unfold remove. destruct (has s t) eqn:H; cbn [fst].
  - split; [apply NoDup_filter; exact N|]. intro x. rewrite filter_In, negb_true_iff.
    rewrite <- (text_eqb_eq s x). destruct (text_eqb s x); intuition congruence.
  - apply has_not in H. split; [exact N|]. intro x. split; [|tauto].
    intro I. split; [exact I|]. intros ->. contradiction.
Qed.

Lemma tags_inv h : NoDup (tags_after h) /\ forall s, In s (tags_after h) <-> tagged h s.
Proof.
  induction h as [|c h [N I]]; [split; [constructor|reflexivity]|].
  destruct c as [s|s|l]; cbn [tags_after tagged].
  - rewrite add_fst. destruct (insert_spec _ s N) as [N1 I1]. split; [exact N1|].
    intro x. rewrite I1, I. intuition.
  - destruct (remove_spec s _ N) as [N1 I1]. split; [exact N1|]. intro x. rewrite I1, I. intuition.
  - unfold replace. cbn [fst]. destruct (insert_all l [] (NoDup_nil _)) as [N1 I1].
    split; [exact N1|]. intro x. rewrite I1. cbn. intuition.
Qed.

Lemma has_tagged h s : has s (tags_after h) = true <-> tagged h s.
Proof. rewrite has_in. apply tags_inv. Qed.

Lemma deserialize_spec l :
  NoDup (deserialize l) /\ forall s, In s (deserialize l) <-> In s l.
Proof.
  unfold deserialize.
  assert (E : forall t, fold_left (fun t s => fst (fst (add s t))) l t = fold_left insert l t).
  { induction l as [|s l IH]; intro t; [reflexivity|]. cbn [fold_left]. rewrite add_fst. apply IH. }
  rewrite E. destruct (insert_all l [] (NoDup_nil _)) as [N I]. split; [exact N|].
  intro s. rewrite I. cbn. intuition.
Qed.

Lemma equals_spec t o : NoDup t -> NoDup o ->
  equals t o = true <-> (forall s, In s t <-> In s o).
Proof.
  intros Nt No. unfold equals, getList. rewrite andb_true_iff, Nat.eqb_eq, forallb_forall.
  split.
  - intros [L S] s.
    assert (Inc : incl o t) by (intros x I; apply has_in; apply S; exact I).
    split; [|apply Inc].
    apply (NoDup_length_incl No); [lia|exact Inc].
  - intro E. split.
    + apply Nat.le_antisymm; apply NoDup_incl_length; try assumption; intros x; apply E.
    + intros x I. apply has_in. apply E. exact I.
Qed.

(** the value of a tag expression *)
Fixpoint truth_of (t : tags) (e : tagexp) : bool :=
  match e with
  | Tag s => has s t
  | Const b => b
  | Neither a => negb (truth_of t a)
  | Both a b => truth_of t a && truth_of t b
  | Either a b => truth_of t a || truth_of t b
  | Same a b => Bool.eqb (truth_of t a) (truth_of t b)
  | Different a b => negb (Bool.eqb (truth_of t a) (truth_of t b))
  end.

Lemma tag_calc t e :
  resolved (tagRef t) (tag_tree e) = true /\
  Eval_Model.calc (tagRef t) (tag_tree e) = Val (VBool (truth_of t e)).
Proof.
  induction e as [s|b|a [Ra Ca]|a [Ra Ca] b [Rb Cb]|a [Ra Ca] b [Rb Cb]|a [Ra Ca] b [Rb Cb]|a [Ra Ca] b [Rb Cb]];
    cbn [tag_tree resolved tagRef Eval_Model.calc truth_of];
    try (rewrite Ra; try rewrite Rb; rewrite Ca; try rewrite Cb; cbn [bind truthOf]);
    try (split; reflexivity).
  all: try (split; [reflexivity|]; destruct (truth_of t a), (truth_of t b); reflexivity).
Qed.

Lemma truth_holds h e : truth_of (tags_after h) e = true <-> holds e (tagged h).
Proof.
  induction e as [s|b|a IHa|a IHa b IHb|a IHa b IHb|a IHa b IHb|a IHa b IHb]; cbn [truth_of holds].
  - apply has_tagged.
  - reflexivity.
  - rewrite <- IHa. destruct (truth_of (tags_after h) a); cbn; intuition congruence.
  - rewrite andb_true_iff, IHa, IHb. reflexivity.
  - rewrite orb_true_iff, IHa, IHb. reflexivity.
  - rewrite <- IHa, <- IHb. destruct (truth_of (tags_after h) a), (truth_of (tags_after h) b);
      cbn; intuition congruence.
  - rewrite <- IHa, <- IHb. destruct (truth_of (tags_after h) a), (truth_of (tags_after h) b);
      cbn; intuition congruence.
Qed.

Lemma query_spec h s e : expression_text true s (tag_tree e) ->
  exists b, query s (tags_after h) = Answer b /\ (b = true <-> holds e (tagged h)).
Proof.
  intro T. exists (truth_of (tags_after h) e). split; [|apply truth_holds].
  unfold query, Eval_Model.getResult. rewrite (c42_parse _ _ _ T).
  destruct (tag_calc (tags_after h) e) as [R C]. rewrite R, C. reflexivity.
Qed.

(** ** Filters *)

Lemma accepts_spec f c : sound_filter f ->
  exists b, acceptsObject f c = Some b /\ (b = true <-> matches f c).
Proof.
  induction f as [|l IHl r IHr|l IHl r IHr|g IH|acc v|g IH| |l|l|i|s|]; intro S;
    cbn [sound_filter acceptsObject matches] in *.
  - exists true. intuition.
  - destruct S as [Sl Sr]. destruct (IHl Sl) as (b & -> & B). destruct (IHr Sr) as (b' & -> & B').
    exists (b || b'). split; [destruct b; reflexivity|]. rewrite orb_true_iff, B, B'. reflexivity.
  - destruct S as [Sl Sr]. destruct (IHl Sl) as (b & -> & B). destruct (IHr Sr) as (b' & -> & B').
    exists (b && b'). split; [destruct b; reflexivity|]. rewrite andb_true_iff, B, B'. reflexivity.
  - destruct (IH S) as (b & -> & B). exists (negb b). split; [reflexivity|].
    rewrite <- B. destruct b; cbn; intuition congruence.
  - destruct S as [S _]. specialize (S c). destruct (acc c) as [b|]; [|congruence].
    exists b. split; [reflexivity|]. split; congruence.
  - apply IH. exact S.
  - exists (visible c). intuition.
  - eexists. split; [reflexivity|]. rewrite forallb_forall. split.
    + intros H s I. apply has_in. apply H. exact I.
    + intros H s I. apply has_in. apply H. exact I.
  - eexists. split; [reflexivity|]. rewrite negb_true_iff. split.
    + intros H s I J. assert (E : existsb (fun s => has s l) (getList (tagsOf c)) = true); [|congruence].
      apply existsb_exists. exists s. split; [exact J|]. apply has_in. exact I.
    + intro H. destruct (existsb (fun s => has s l) (getList (tagsOf c))) eqn:E; [|reflexivity].
      apply existsb_exists in E. destruct E as (s & J & I). apply has_in in I.
      exfalso. exact (H s I J).
  - eexists. split; [reflexivity|]. rewrite existsb_exists. split.
    + intros (x & I & E). apply Nat.eqb_eq in E. subst x. exact I.
    + intro I. exists i. split; [exact I|apply Nat.eqb_refl].
  - eexists. split; [reflexivity|]. apply text_eqb_eq.
  - destruct S.
Qed.

Lemma visits_spec f c : sound_filter f ->
  exists b, visitChildren f c = Some b /\ (b = true <-> enters f c).
Proof.
  induction f as [|l IHl r IHr|l IHl r IHr|g IH|acc v|g IH| |l|l|i|s|]; intro S;
    cbn [sound_filter visitChildren enters] in *.
  - exists true. intuition.
  - destruct S as [Sl Sr]. destruct (IHl Sl) as (b & -> & B). destruct (IHr Sr) as (b' & -> & B').
    exists (b || b'). split; [destruct b; reflexivity|]. rewrite orb_true_iff, B, B'. reflexivity.
  - destruct S as [Sl Sr]. destruct (IHl Sl) as (b & -> & B). destruct (IHr Sr) as (b' & -> & B').
    exists (b && b'). split; [destruct b; reflexivity|]. rewrite andb_true_iff, B, B'. reflexivity.
  - exists true. intuition.
  - destruct v as [w|]; [|exists true; intuition].
    destruct S as [_ S]. specialize (S w eq_refl c). destruct (w c) as [b|]; [|congruence].
    exists b. split; [reflexivity|]. split; congruence.
  - apply IH. exact S.
  - exists (visible c). intuition.
  - exists true. intuition.
  - exists true. intuition.
  - exists true. intuition.
  - exists true. intuition.
  - destruct S.
Qed.

(** ** Ids *)

Definition flat (p : list text) : text := flat_map (fun l => slash :: l) p.

Lemma id_below_flat p : forall g, id_below g p = g ++ flat p.
Proof.
  induction p as [|l p IH]; intro g; cbn [id_below flat flat_map]; [symmetry; apply app_nil_r|].
  rewrite IH. rewrite <- app_assoc. reflexivity.
Qed.

(** a text up to its first slash *)
Lemma cut (a b : text) (r s : text) :
  slashless a -> slashless b ->
  (r = [] \/ exists r', r = slash :: r') -> (s = [] \/ exists s', s = slash :: s') ->
  a ++ r = b ++ s -> a = b /\ r = s.
Proof.
  revert b. induction a as [|c a IH]; intros b Sa Sb Hr Hs E.
  - destruct b as [|d b]; [split; [reflexivity|exact E]|].
    cbn in E. destruct Hr as [-> |(r' & ->)]; [discriminate|].
    injection E as E1 E2. exfalso. apply Sb. left. symmetry. exact E1.
  - destruct b as [|d b].
    + cbn in E. destruct Hs as [-> |(s' & ->)]; [discriminate|].
      injection E as E1 E2. exfalso. apply Sa. left. exact E1.
    + cbn in E. injection E as -> E.
      destruct (IH b) as [-> ->]; auto.
      * intro I. apply Sa. right. exact I.
      * intro I. apply Sb. right. exact I.
Qed.

Lemma flat_head p : flat p = [] \/ exists r, flat p = slash :: r.
Proof. destruct p as [|l p]; [left; reflexivity|right; eexists; reflexivity]. Qed.

Lemma flat_inj p : forall q,
  (forall l, In l p -> slashless l) -> (forall l, In l q -> slashless l) ->
  flat p = flat q -> p = q.
Proof.
  induction p as [|l p IH]; intros [|m q] Hp Hq E; try reflexivity; try discriminate.
  unfold flat in E. cbn [flat_map] in E. injection E as E.
  change (flat_map (fun l : list ascii => slash :: l) p) with (flat p) in E.
  change (flat_map (fun l : list ascii => slash :: l) q) with (flat q) in E.
  destruct (cut l m (flat p) (flat q)) as [-> E2]; auto.
  - apply Hp. left. reflexivity.
  - apply Hq. left. reflexivity.
  - apply flat_head.
  - apply flat_head.
  - f_equal. apply IH; auto; intros x I; [apply Hp|apply Hq]; right; exact I.
Qed.

(** everything below, whatever the filter *)
Inductive below : tree -> list text -> tree -> Prop :=
| be_item a items c : In c items -> below (Node a items) [lid (attr c)] c
| be_below a items c p t :
    In c items -> below c p t -> below (Node a items) (lid (attr c) :: p) t.

Lemma reached_below f t p t' : reached f t p t' -> below t p t'.
Proof. induction 1; [apply be_item; assumption|apply be_below; assumption]. Qed.

Lemma below_ids t p t' : tidy t -> below t p t' -> forall l, In l p -> slashless l.
Proof.
  intros T B. induction B as [a items c I|a items c p t I B IH]; intros l J.
  - inversion T as [? ? ? ? ? S]; subst. destruct J as [<-|[]].
    specialize (S c I). inversion S; subst. assumption.
  - inversion T as [? ? ? ? ? S]; subst. destruct J as [<-|J].
    + specialize (S c I). inversion S; subst. assumption.
    + apply IH; auto.
Qed.

Lemma same_lid items c d :
  NoDup (map (fun c => lid (attr c)) items) -> In c items -> In d items ->
  lid (attr c) = lid (attr d) -> c = d.
Proof.
  induction items as [|x items IH]; intros N I J E; [destruct I|].
  inversion N; subst. destruct I as [->|I], J as [->|J]; auto.
  - exfalso. apply H1. rewrite E. apply (in_map (fun c => lid (attr c))). exact J.
  - exfalso. apply H1. rewrite <- E. apply (in_map (fun c => lid (attr c))). exact I.
Qed.

Lemma below_nonempty t p t' : below t p t' -> p <> [].
Proof. destruct 1; discriminate. Qed.

Lemma below_det t p t1 : tidy t -> below t p t1 -> forall t2, below t p t2 -> t1 = t2.
Proof.
  intros T B. induction B as [a items c I|a items c p t I B IH]; intros t2 B2;
    inversion T as [? ? ? ? N S]; subst.
  - inversion B2; subst.
    + eapply same_lid; eauto.
    + match goal with H : below _ [] _ |- _ => apply below_nonempty in H; congruence end.
  - inversion B2; subst.
    + apply below_nonempty in B. congruence.
    + assert (c0 = c) by (eapply same_lid; eauto). subst c0. apply IH; auto.
Qed.

(** ** Searching *)

(** elements with different ids *)
Definition distinct (U : found -> Prop) : Prop :=
  forall x y, U x -> U y -> fst x = fst y -> x = y.

Lemma hasId_spec g l : hasId g l = true <-> In g (map fst l).
Proof.
  unfold hasId. rewrite existsb_exists, in_map_iff. split.
  - intros (x & I & E). apply text_eqb_eq in E. exists x. auto.
  - intros (x & E & I). exists x. split; [exact I|]. apply text_eqb_eq. auto.
Qed.

Lemma insertFound_spec U l x :
  distinct U -> (forall y, In y l -> U y) -> U x -> NoDup (map fst l) ->
  NoDup (map fst (insertFound l x)) /\ (forall y, In y (insertFound l x) -> U y) /\
  forall y, In y (insertFound l x) <-> In y l \/ y = x.
Proof.
  intros D Ul Ux N. unfold insertFound. destruct (hasId (fst x) l) eqn:H.
  - apply hasId_spec in H. apply in_map_iff in H. destruct H as (z & E & I).
    assert (z = x) by (apply D; auto). subst z.
    split; [exact N|]. split; [exact Ul|]. intro y. split; [tauto|]. intros [J| ->]; assumption.
  - assert (Ni : ~ In (fst x) (map fst l)).
    { intro I. apply hasId_spec in I. congruence. }
    split; [rewrite map_app; apply nodup_snoc; assumption|]. split.
    + intros y I. apply in_app_or in I. destruct I as [I|[<-|[]]]; auto.
    + intro y. rewrite in_app_iff. cbn. intuition.
Qed.

Lemma insertAll_spec U r : forall l,
  distinct U -> (forall y, In y l -> U y) -> (forall y, In y r -> U y) -> NoDup (map fst l) ->
  NoDup (map fst (fold_left insertFound r l)) /\
  (forall y, In y (fold_left insertFound r l) -> U y) /\
  forall y, In y (fold_left insertFound r l) <-> In y l \/ In y r.
Proof.
  induction r as [|x r IH]; intros l D Ul Ur N.
  - cbn. split; [exact N|]. split; [exact Ul|]. tauto.
  - cbn [fold_left].
    destruct (insertFound_spec U l x D Ul (Ur x (or_introl eq_refl)) N) as (N1 & U1 & I1).
    destruct (IH _ D U1 (fun y I => Ur y (or_intror I)) N1) as (N2 & U2 & I2).
    split; [exact N2|]. split; [exact U2|]. intro y. rewrite I2, I1. cbn. intuition.
Qed.

Section Search.
Variable f : filter.
Hypothesis Sf : sound_filter f.

Lemma accepted_spec U g l : forall acc,
  distinct U -> (forall c, In c l -> U (childId g (lid (attr c)), attr c)) ->
  (forall y, In y acc -> U y) -> NoDup (map fst acc) ->
  exists r, accepted f g l acc = Some r /\ NoDup (map fst r) /\ (forall y, In y r -> U y) /\
    forall y, In y r <-> In y acc \/
      exists c, In c l /\ y = (childId g (lid (attr c)), attr c) /\ matches f (attr c).
Proof.
  induction l as [|c l IH]; intros acc D Ul Ua N.
  - exists acc. cbn [accepted]. split; [reflexivity|]. split; [exact N|]. split; [exact Ua|].
    intro y. split; [tauto|]. intros [I|(c & [] & _)]; exact I.
  - cbn [accepted]. destruct (accepts_spec f (attr c) Sf) as (b & -> & B).
    assert (Uc := Ul c (or_introl eq_refl)).
    destruct b.
    + destruct (insertFound_spec U acc _ D Ua Uc N) as (N1 & U1 & I1).
      destruct (IH _ D (fun c I => Ul c (or_intror I)) U1 N1) as (r & E & Nr & Ur & Ir).
      exists r. split; [exact E|]. split; [exact Nr|]. split; [exact Ur|].
      intro y. rewrite Ir, I1. split.
      * intros [[I| ->]|(d & I & H)]; [tauto| |].
        -- right. exists c. split; [left; reflexivity|]. split; [reflexivity|apply B; reflexivity].
        -- right. exists d. split; [right; exact I|exact H].
      * intros [I|(d & [<-|I] & E2 & M)]; [tauto| |].
        -- left. right. exact E2.
        -- right. exists d. auto.
    + destruct (IH _ D (fun c I => Ul c (or_intror I)) Ua N) as (r & E & Nr & Ur & Ir).
      exists r. split; [exact E|]. split; [exact Nr|]. split; [exact Ur|].
      intro y. rewrite Ir. split.
      * intros [I|(d & I & H)]; [tauto|]. right. exists d. split; [right; exact I|exact H].
      * intros [I|(d & [<-|I] & E2 & M)]; [tauto| |].
        -- apply B in M. discriminate.
        -- right. exists d. auto.
Qed.

(** the elements of a subtree have different ids *)
Definition inside (g : text) (t : tree) (x : found) : Prop :=
  exists p t', below t p t' /\ x = (id_below g p, attr t').

Lemma inside_distinct g t : tidy t -> distinct (inside g t).
Proof.
  intros T x y (p & t1 & B1 & ->) (q & t2 & B2 & ->) E. cbn [fst] in E.
  rewrite !id_below_flat in E. apply app_inv_head in E.
  apply flat_inj in E; [|eapply below_ids; eassumption|eapply below_ids; eassumption].
  subst q. rewrite (below_det _ _ _ T B1 _ B2). reflexivity.
Qed.

Lemma inside_child g a items c x :
  In c items -> inside (childId g (lid (attr c))) c x -> inside g (Node a items) x.
Proof.
  intros I (p & t' & B & ->). exists (lid (attr c) :: p), t'. split.
  - apply be_below; assumption.
  - reflexivity.
Qed.

Lemma inside_item g a items c :
  In c items -> inside g (Node a items) (childId g (lid (attr c)), attr c).
Proof. intro I. exists [lid (attr c)], c. split; [apply be_item; exact I|reflexivity]. Qed.

Fixpoint go (g : text) (l : list tree) (acc : list found) : option (list found) :=
  match l with
  | [] => Some acc
  | t' :: l' =>
      match visitChildren f (attr t') with
      | None => None
      | Some false => go g l' acc
      | Some true =>
          if folder (attr t') then
            match getItems f (childId g (lid (attr t'))) t' with
            | None => None
            | Some r => go g l' (fold_left insertFound r acc)
            end
          else go g l' acc
      end
  end.

Lemma getItems_eq g a items :
  getItems f g (Node a items) =
  match accepted f g items [] with
  | None => None
  | Some acc => if isRecursive f then go g items acc else Some acc
  end.
Proof.
  cbn [getItems]. destruct (accepted f g items []) as [acc|]; [|reflexivity].
  destruct (isRecursive f); [|reflexivity].
  revert acc. generalize items as l. induction l as [|t' l IH]; intro acc; [reflexivity|].
  cbn [go]. destruct (visitChildren f (attr t')) as [[|]|]; [|apply IH|reflexivity].
  destruct (folder (attr t')); [|apply IH].
  destruct (getItems f (childId g (lid (attr t'))) t') as [r|]; [apply IH|reflexivity].
Qed.

Lemma tree_ind2 (P : tree -> Prop) :
  (forall a items, (forall c, In c items -> P c) -> P (Node a items)) -> forall t, P t.
Proof.
  intro H. fix F 1. intros [a items]. apply H.
  induction items as [|c items IH]; [intros c []|].
  intros d [<-|I]; [apply F|apply IH; exact I].
Qed.

Hypothesis Rf : isRecursive f = true.

Lemma search_recursive t : tidy t -> forall g,
  exists r, getItems f g t = Some r /\ NoDup (map fst r) /\
    forall x, In x r <->
      exists p t', reached f t p t' /\ x = (id_below g p, attr t') /\ matches f (attr t').
Proof.
  induction t as [a items IH] using tree_ind2. intros T g.
  rewrite getItems_eq, Rf.
  pose proof (inside_distinct g _ T) as D.
  destruct (accepted_spec (inside g (Node a items)) g items [] D) as (acc & -> & Na & Ua & Ia).
  { intros c I. apply inside_item. exact I. }
  { intros y []. }
  { constructor. }
  assert (G : forall l, incl l items -> forall acc,
    (forall y, In y acc -> inside g (Node a items) y) -> NoDup (map fst acc) ->
    exists r, go g l acc = Some r /\ NoDup (map fst r) /\
      forall x, In x r <-> In x acc \/
        exists c p t', In c l /\ folder (attr c) = true /\ enters f (attr c) /\ reached f c p t' /\
          x = (id_below (childId g (lid (attr c))) p, attr t') /\ matches f (attr t')).
  { clear acc Na Ua Ia. induction l as [|c l IHl]; intros Inc acc Ua Na.
    - exists acc. split; [reflexivity|]. split; [exact Na|]. intro x. split; [tauto|].
      intros [I|(c & p & t' & [] & _)]. exact I.
    - assert (Ic : In c items) by (apply Inc; left; reflexivity).
      assert (Incl : incl l items) by (intros y I; apply Inc; right; exact I).
      cbn [go]. destruct (visits_spec f (attr c) Sf) as (b & -> & B).
      assert (Skip : b = false \/ folder (attr c) = false ->
        forall acc, (forall y, In y acc -> inside g (Node a items) y) -> NoDup (map fst acc) ->
        exists r, go g l acc = Some r /\ NoDup (map fst r) /\
        forall x, In x r <-> In x acc \/
        exists c0 p t', In c0 (c :: l) /\ folder (attr c0) = true /\ enters f (attr c0) /\ reached f c0 p t' /\
          x = (id_below (childId g (lid (attr c0))) p, attr t') /\ matches f (attr t')).
      { clear acc Ua Na. intros No acc Ua Na. destruct (IHl Incl acc Ua Na) as (r & E & N & I).
        exists r. split; [exact E|]. split; [exact N|]. intro x. rewrite I. split.
        - intros [H|(d & p & t' & J & H)]; [tauto|]. right. exists d, p, t'. split; [right; exact J|exact H].
        - intros [H|(d & p & t' & [<-|J] & Fo & En & H)]; [tauto| |].
          + exfalso. destruct No as [No|No]; [apply B in En|]; congruence.
          + right. exists d, p, t'. auto. }
      destruct b; [|apply Skip; auto].
      destruct (folder (attr c)) eqn:Fo; [|apply Skip; auto].
      assert (Tc : tidy c) by (inversion T; auto).
      destruct (IH c Ic Tc (childId g (lid (attr c)))) as (rc & -> & Nc & Irc).
      assert (Uc : forall y, In y rc -> inside g (Node a items) y).
      { intros y I. apply Irc in I. destruct I as (p & t' & Re & E & _).
        apply (inside_child g a items c); [exact Ic|]. exists p, t'.
        split; [eapply reached_below; exact Re|exact E]. }
      destruct (insertAll_spec _ rc acc D Ua Uc Na) as (N2 & U2 & I2).
      destruct (IHl Incl _ U2 N2) as (r & E & N & I).
      exists r. split; [exact E|]. split; [exact N|]. intro x. rewrite I, I2, Irc. split.
      + intros [[H|(p & t' & Re & H)]|(d & p & t' & J & H)]; [tauto| |].
        * right. exists c, p, t'. split; [left; reflexivity|]. split; [exact Fo|].
          split; [apply B; reflexivity|]. split; [exact Re|exact H].
        * right. exists d, p, t'. split; [right; exact J|exact H].
      + intros [H|(d & p & t' & [<-|J] & Fd & En & Re & H)]; [tauto| |].
        * left. right. exists p, t'. auto.
        * right. exists d, p, t'. auto. }
  destruct (G items (incl_refl _) acc Ua Na) as (r & E & N & I).
  exists r. split; [exact E|]. split; [exact N|]. intro x. rewrite I, Ia. split.
  - intros [[[]|(c & J & -> & M)]|(c & p & t' & J & Fo & En & Re & -> & M)].
    + exists [lid (attr c)], c. split; [apply re_item; exact J|]. split; [reflexivity|exact M].
    + exists (lid (attr c) :: p), t'. split; [apply re_below; assumption|].
      split; [reflexivity|exact M].
  - intros (p & t' & Re & -> & M). inversion Re; subst.
    + left. right. exists t'. auto.
    + right. exists c, p0, t'. auto 10.
Qed.
End Search.

Lemma search_flat f t g : sound_filter f -> isRecursive f = false -> tidy t ->
  exists r, getItems f g t = Some r /\ NoDup (map fst r) /\
    forall x, In x r <->
      exists c, In c (children t) /\ x = (id_below g [lid (attr c)], attr c) /\ matches f (attr c).
Proof.
  intros Sf Rf T. destruct t as [a items]. rewrite getItems_eq, Rf.
  destruct (accepted_spec f Sf (inside g (Node a items)) g items []) as (acc & -> & Na & Ua & Ia).
  { apply inside_distinct. exact T. }
  { intros c I. apply inside_item. exact I. }
  { intros y []. }
  { constructor. }
  exists acc. split; [reflexivity|]. split; [exact Na|]. intro x. rewrite Ia. cbn [In children].
  split; [intros [[]|H]; exact H|tauto].
Qed.

(** ** Lookup *)

Lemma getItem_spec t l c : NoDup (map (fun c => lid (attr c)) (children t)) ->
  getItem t l = Some c <-> In c (children t) /\ lid (attr c) = l.
Proof.
  intro N. unfold getItem. split.
  - intro H. apply find_some in H. destruct H as [I E]. apply text_eqb_eq in E. auto.
  - intros [I E]. destruct (find (fun c => text_eqb (lid (attr c)) l) (children t)) as [d|] eqn:F.
    + apply find_some in F. destruct F as [J Ed]. apply text_eqb_eq in Ed. f_equal.
      eapply same_lid; eauto. congruence.
    + exfalso. pose proof (find_none _ _ F c I) as Z. cbn in Z.
      assert (text_eqb (lid (attr c)) l = true) by (apply text_eqb_eq; exact E). congruence.
Qed.

Lemma split_none s : slashless s -> splitRelativeId s = None.
Proof.
  induction s as [|c s IH]; intro S; [reflexivity|]. cbn [splitRelativeId].
  destruct (Ascii.eqb_spec c slash) as [->|N]; [exfalso; apply S; left; reflexivity|].
  rewrite IH; [reflexivity|]. intro I. apply S. right. exact I.
Qed.

Lemma split_at s r : slashless s -> splitRelativeId (s ++ slash :: r) = Some (s, r).
Proof.
  induction s as [|c s IH]; intro S; [reflexivity|]. cbn [splitRelativeId app].
  destruct (Ascii.eqb_spec c slash) as [->|N]; [exfalso; apply S; left; reflexivity|].
  rewrite IH; [reflexivity|]. intro I. apply S. right. exact I.
Qed.

Lemma split_sound s a r : splitRelativeId s = Some (a, r) -> s = a ++ slash :: r /\ slashless a.
Proof.
  revert a. induction s as [|c s IH]; intros a H; [discriminate|]. cbn [splitRelativeId] in H.
  destruct (Ascii.eqb_spec c slash) as [->|N].
  - injection H as <- <-. split; [reflexivity|intros []].
  - destruct (splitRelativeId s) as [[b r']|]; [|discriminate]. injection H as <- <-.
    destruct (IH b eq_refl) as [-> S]. split; [reflexivity|].
    intros [I|I]; [exact (N I)|exact (S I)].
Qed.

Lemma split_none_sound s : splitRelativeId s = None -> slashless s.
Proof.
  induction s as [|c s IH]; intro H; [intros []|]. cbn [splitRelativeId] in H.
  destruct (Ascii.eqb_spec c slash) as [->|N]; [discriminate|].
  destruct (splitRelativeId s) as [[b r']|]; [discriminate|].
  intros [I|I]; [exact (N I)|exact (IH eq_refl I)].
Qed.

Lemma joined_cons l p : p <> [] -> joined (l :: p) = l ++ slash :: joined p.
Proof. destruct p; [congruence|reflexivity]. Qed.

Lemma joined_nonempty p : p <> [] -> plain p -> joined p <> [].
Proof.
  destruct p as [|l [|m p]]; intros N P; [congruence| |].
  - cbn. apply P. left. reflexivity.
  - rewrite joined_cons by discriminate. destruct l; discriminate.
Qed.

(** the equation of one step *)
Lemma findInternal_S n t id :
  id <> [] ->
  findInternal (S n) t id =
  if folder (attr t) then
    match splitRelativeId id with
    | None => getItem t id
    | Some (start, rest) =>
        match getItem t start with
        | Some t' => findInternal n t' rest
        | None => None
        end
    end
  else None.
Proof. destruct id; [congruence|reflexivity]. Qed.

Lemma find_complete p : forall n t t',
  plain p -> tidy t -> (List.length (joined p) <= n) ->
  findInternal n t (joined p) = Some t' <-> at_path t p t'.
Proof.
  induction p as [|l p IH]; intros n t t' P T L.
  - cbn [joined] in *. split.
    + intro H. destruct n; cbn in H; injection H as <-; constructor.
    + intro H. inversion H; subst. destruct n; reflexivity.
  - assert (Pl : slashless l /\ l <> []) by (apply P; left; reflexivity). destruct Pl as [Sl Nl].
    assert (Pp : plain p) by (intros x I; apply P; right; exact I).
    destruct t as [a items]. inversion T as [? ? _ _ N Tc]; subst.
    assert (Ne : joined (l :: p) <> []) by (apply joined_nonempty; [discriminate|exact P]).
    destruct n as [|n]; [destruct (joined (l :: p)); [congruence|cbn in L; lia]|].
    rewrite findInternal_S by exact Ne. cbn [attr].
    destruct (folder a) eqn:Fo.
    2:{ split; [discriminate|]. intro H. inversion H; subst. congruence. }
    destruct p as [|m p].
    + cbn [joined]. rewrite split_none by exact Sl. rewrite getItem_spec by exact N. split.
      * intros [I E]. cbn [children] in I. rewrite <- E. apply at_below; [exact I|exact Fo|constructor].
      * intro H. inversion H; subst. match goal with H : at_path _ [] _ |- _ => inversion H; subst end.
        auto.
    + rewrite joined_cons in * by discriminate. rewrite split_at by exact Sl.
      rewrite app_length in L. cbn [List.length] in L.
      destruct (getItem (Node a items) l) as [c|] eqn:G.
      * apply getItem_spec in G; [|exact N]. destruct G as [I E]. cbn [children] in I.
        rewrite IH; [|exact Pp|apply Tc; exact I|lia]. split.
        -- intro H. rewrite <- E. apply at_below; assumption.
        -- intro H. inversion H; subst.
           match goal with J : In ?d items, K : lid (attr ?d) = _ |- _ => rename J into J', K into K' end.
           rewrite <- (same_lid items c0 c); auto.
      * split; [discriminate|]. intro H. inversion H; subst.
        match goal with J : In ?d items |- _ =>
          assert (getItem (Node a items) (lid (attr d)) = Some d) by (apply getItem_spec; auto) end.
        congruence.
Qed.

Lemma find_sound n : forall t id t', tidy t -> findInternal n t id = Some t' ->
  exists p, at_path t p t' /\ plain p /\
    (id = joined p \/ (p <> [] /\ id = joined p ++ [slash])).
Proof.
  induction n as [|n IH]; intros t id t' T H.
  - destruct id; [|discriminate]. injection H as <-. exists []. split; [constructor|].
    split; [intros l []|left; reflexivity].
  - destruct id as [|c0 id0].
    { injection H as <-. exists []. split; [constructor|]. split; [intros l []|left; reflexivity]. }
    set (id := c0 :: id0) in *.
    rewrite findInternal_S in H by discriminate.
    destruct t as [a items]. cbn [attr] in H. destruct (folder a) eqn:Fo; [|discriminate].
    inversion T as [? ? _ _ N Tc]; subst.
    destruct (splitRelativeId id) as [[start rest]|] eqn:Sp.
    + apply split_sound in Sp. destruct Sp as [Es Ss].
      destruct (getItem (Node a items) start) as [c|] eqn:G; [|discriminate].
      apply getItem_spec in G; [|exact N]. destruct G as [I E]. cbn [children] in I.
      destruct (IH c rest t' (Tc c I) H) as (p & A & Pp & R).
      assert (Nl : start <> []) by (rewrite <- E; destruct (Tc c I); assumption).
      exists (start :: p). split; [rewrite <- E; apply at_below; assumption|].
      split; [intros l [<-|J]; [auto|apply Pp; exact J]|].
      destruct R as [R|[Np R]].
      * destruct p as [|m p].
        -- right. split; [discriminate|]. rewrite Es, R. reflexivity.
        -- left. rewrite joined_cons by discriminate. rewrite Es, R. reflexivity.
      * right. split; [discriminate|]. rewrite joined_cons by exact Np. rewrite Es, R.
        rewrite <- app_assoc. reflexivity.
    + apply split_none_sound in Sp. apply getItem_spec in H; [|exact N].
      destruct H as [I E]. cbn [children] in I. exists [id].
      split; [rewrite <- E at 1; apply at_below; [exact I|exact Fo|constructor]|].
      split; [intros l [<-|[]]; split; [exact Sp|discriminate]|]. left. reflexivity.
Qed.

Lemma startsWith_spec p : forall s, startsWith p s = true <-> exists r, s = p ++ r.
Proof.
  induction p as [|c p IH]; intro s.
  - split; [intros _; exists s; reflexivity|reflexivity].
  - destruct s as [|d s]; cbn [startsWith].
    + split; [discriminate|]. intros (r & E). discriminate.
    + rewrite andb_true_iff, IH. split.
      * intros [E (r & ->)]. apply Ascii.eqb_eq in E. subst d. exists r. reflexivity.
      * intros (r & E). injection E as -> ->. split; [apply Ascii.eqb_refl|exists r; reflexivity].
Qed.

Lemma nested_spec g p q : plain p -> plain q ->
  isNestedComponentId (id_below g p) (id_below g q) = true <-> exists r, r <> [] /\ q = p ++ r.
Proof.
  intros P Q. unfold isNestedComponentId. rewrite startsWith_spec. rewrite !id_below_flat. split.
  - intros (r & E). rewrite <- !app_assoc in E. apply app_inv_head in E.
    cbn [app] in E. revert q Q E. induction p as [|l p IH]; intros q Q E.
    + exists q. split; [|reflexivity]. intros ->. discriminate.
    + destruct q as [|m q]; [discriminate|].
      unfold flat in E. cbn [flat_map app] in E. injection E as E.
      change (flat_map (fun l : list ascii => slash :: l) p) with (flat p) in E.
      change (flat_map (fun l : list ascii => slash :: l) q) with (flat q) in E.
      rewrite <- app_assoc in E.
      assert (Lm : m = l /\ flat q = flat p ++ slash :: r).
      { apply cut; auto.
        - apply Q. left. reflexivity.
        - apply P. left. reflexivity.
        - apply flat_head.
        - right. destruct (flat_head p) as [-> |(r' & ->)]; eexists; reflexivity. }
      destruct Lm as [-> E2].
      destruct (IH (fun x I => P x (or_intror I)) q (fun x I => Q x (or_intror I)) E2) as (r' & N & ->).
      exists r'. split; [exact N|reflexivity].
  - intros (r & N & ->). unfold flat. rewrite flat_map_app. destruct r as [|l r]; [congruence|].
    exists (l ++ flat r). cbn [flat_map]. rewrite <- !app_assoc. reflexivity.
Qed.

Lemma endsWith_spec s e : idEndsWith s e = true <-> ends_with s e.
Proof.
  unfold idEndsWith, ends_with. destruct (Nat.ltb_spec (List.length s) (List.length e)) as [L|L].
  - split; [discriminate|]. intros (b & ->). rewrite app_length in L. lia.
  - rewrite startsWith_spec. split.
    + intros (r & E). exists (rev r). rewrite <- (rev_involutive s), E, rev_app_distr, rev_involutive.
      reflexivity.
    + intros (b & ->). exists (rev b). apply rev_app_distr.
Qed.
