(** C26, C27: theorems. *)
From Coq Require Import String.
From Verif Require Import Base Comp_Model Comp_Spec Comp_Proofs Comp_Inv.
Local Open Scope nat_scope.

Lemma active_iff : forall h c x, get h c = Some x -> is_active h c <-> active x = true.
Proof. intros h c x E. unfold is_active. cbn [step]. unfold with_comp. rewrite E. cbn [snd]. split; [congruence|intros ->; reflexivity]. Qed.
Lemma local_iff : forall h c x, get h c = Some x -> local_active h c <-> localActive x = true.
Proof. intros h c x E. unfold local_active. cbn [step]. unfold with_comp. rewrite E. cbn [snd]. split; [congruence|intros ->; reflexivity]. Qed.
Lemma parent_iff : forall h c x, get h c = Some x -> parent_active h c <-> parentActive x = true.
Proof. intros h c x E. unfold parent_active. cbn [step]. unfold with_comp. rewrite E. cbn [snd]. split; [congruence|intros ->; reflexivity]. Qed.

(** ** C26 *)
(** After any history: a component is active iff it is active itself and takes its parent to be. *)
Theorem c26_own : forall l c, exists_ (after l) c -> (is_active (after l) c <-> parent_active (after l) c /\ local_active (after l) c).
Proof.
  intros l c Ex. unfold exists_ in Ex. destruct (get (after l) c) as [x|] eqn:E; [|contradiction]. rewrite (active_iff _ _ _ E), (parent_iff _ _ _ E), (local_iff _ _ _ E), (coh_after l c x E). apply andb_true_iff.
Qed.

(** After any tidy history: a component of the tree is active iff it and all the components above it are active themselves. *)
Theorem c26_active_partial : forall l c, tidy l -> in_tree (after l) c ->
  (is_active (after l) c <-> forall a, ancestor_or_self (after l) a c -> local_active (after l) a).
Proof.
  intros l c T. pose proof (inv_after l T) as HI. generalize dependent (after l). clear l T. intros h HI Ht. induction Ht as [c Ex P|c p Ex P Hc Hp IH].
  - unfold exists_ in Ex. unfold parent_of in P. destruct (get h c) as [x|] eqn:E; [|contradiction]. pose proof (i_par h HI c x E) as Hpa. rewrite P in Hpa.
    rewrite (active_iff _ _ _ E), (i_coh h HI c x E), Hpa. cbn [andb]. rewrite <- (local_iff _ _ _ E). split.
    + intros H a Ha. inversion Ha as [|a' c' q Hq]; subst; [exact H|]. unfold parent_of in Hq. rewrite E in Hq. congruence.
    + intros H. apply H. constructor.
  - unfold exists_ in Ex. destruct (get h c) as [x|] eqn:E; [|contradiction]. apply content_in in Hc. destruct Hc as (y & Ey & Hi). destruct (i_its h HI p y c Ey Hi) as (x' & Ex' & _ & _ & _ & A).
    rewrite E in Ex'. injection Ex' as <-. rewrite (active_iff _ _ _ E), (i_coh h HI c x E), andb_true_iff, A, <- (active_iff _ _ _ Ey), IH, <- (local_iff _ _ _ E). split.
    + intros [H1 H2] a Ha. inversion Ha as [|a' c' q Hq Ha']; subst; [exact H2|]. rewrite P in Hq. injection Hq as <-. auto.
    + intros H. split; [|apply H; constructor]. intros a Ha. apply H. eapply above; eassumption.
Qed.

(** A removed component is not active. *)
Theorem c26_removed_partial : forall l c, tidy l -> is_removed (after l) c -> ~ is_active (after l) c.
Proof.
  intros l c T R. pose proof (inv_after l T) as HI. destruct (get (after l) c) as [x|] eqn:E.
  - apply (removed_iff _ _ _ E) in R. rewrite (active_iff _ _ _ E), (i_rem _ HI c x E R). discriminate.
  - unfold is_active. cbn [step]. unfold with_comp. rewrite E. discriminate.
Qed.

(** Setting a component's activity sets its own and nobody else's, never fails on a
    changeable component, and changes nothing at all on any other. *)
Theorem c26_set_partial : forall l c b h' out, tidy l -> step (after l) (SetActive c b) = (h', out) ->
  (changeable (after l) c -> fails out = false /\ forall k, exists_ (after l) k -> (local_active h' k <-> (k = c /\ b = true) \/ (k <> c /\ local_active (after l) k)))
  /\ (~ changeable (after l) c -> h' = after l).
Proof.
  intros l c b h' out T S. pose proof (inv_after l T) as HI. generalize dependent (after l). clear l T. intros h S HI. cbn [step] in S. unfold setActive in S. split.
  - intros (x & Ex & Fr & Rm & Lo). rewrite Ex, Fr, Rm, Lo in S. destruct (Bool.eqb b (localActive x)) eqn:Eb.
    + apply Bool.eqb_prop in Eb. injection S as <- <-. split; [reflexivity|]. intros k _. destruct (Nat.eq_dec k c) as [->|N]; [rewrite (local_iff _ _ _ Ex), <- Eb; intuition congruence|intuition].
    + destruct (inv_notify false h c x b HI Ex Rm) as (_ & F & L & H). cbv zeta in S, F, L, H.
      assert (R : fails out = false /\ forall k y, get h k = Some y -> exists l p, get h' k = Some (set_active l p y) /\ l = (if k =? c then b else localActive y)).
      { destruct (Bool.eqb (active x) _); [injection S as <- <-; split; [reflexivity|exact H]|rewrite S in F, H; auto]. }
      destruct R as [R1 R2]. split; [exact R1|]. intros k Hk. unfold exists_ in Hk. destruct (get h k) as [y|] eqn:Ey; [|contradiction]. destruct (R2 k y Ey) as (l & p & E & El).
      rewrite (local_iff _ _ _ E), (local_iff _ _ _ Ey). cbn [set_active localActive]. rewrite El. destruct (Nat.eqb_spec k c) as [->|N]; intuition.
  - intros H. destruct (get h c) as [x|] eqn:Ex; [|now injection S]. destruct (frozen x) eqn:Fr; [now injection S|]. destruct (removed x) eqn:Rm; [now injection S|].
    destruct (Bool.eqb b (localActive x)); [now injection S|]. destruct (lockedActive x) eqn:Lo; [now injection S|]. exfalso. apply H. exists x. auto.
Qed.

(** ** C27 *)
(** After any history: no folder holds two components with one local id. *)
Theorem c27_unique : forall l f, NoDup (content (after l) f) /\ forall i j, In i (content (after l) f) -> In j (content (after l) f) -> id_of (after l) i = id_of (after l) j -> i = j.
Proof.
  intros l f. pose proof (uniq_after l) as U. unfold content. destruct (get (after l) f) as [x|] eqn:E; [|split; [constructor|intros i j []]].
  split; [exact (u_nod _ U f x E)|]. intros i j Hi Hj. exact (u_lid _ U f x i j E Hi Hj).
Qed.

(** Looking up a local id in a folder finds exactly the item with that id. *)
Theorem c27_lookup : forall l f s x, get (after l) f = Some x -> accepts x <> None ->
  (forall i, snd (step (after l) (GetItem f s)) = Found i <-> In i (content (after l) f) /\ id_of (after l) i = s) /\
  (snd (step (after l) (GetItem f s)) = ErrNotFound <-> forall i, In i (content (after l) f) -> id_of (after l) i <> s) /\
  (snd (step (after l) (HasItem f s)) = Flag true <-> exists i, In i (content (after l) f) /\ id_of (after l) i = s).
Proof.
  intros l f s x E A. pose proof (c27_unique l f) as [_ U]. rewrite (content_get _ _ _ E) in *. cbn [step]. unfold with_folder, with_comp. rewrite E. destruct (accepts x); [|contradiction]. cbn [snd].
  destruct (findItem (after l) (items x) s) as [i|] eqn:Ef.
  - apply find_facts in Ef. destruct Ef as [Hi Ei]. change (id_of (after l) i = s) in Ei. repeat split.
    + now injection H as <-.
    + now injection H as <-.
    + intros [Hj Ej]. f_equal. apply U; congruence.
    + discriminate.
    + intros H. destruct (H i Hi Ei).
    + eauto.
  - pose proof (fun i => find_none (after l) (items x) s i Ef) as N. repeat split; try discriminate.
    + intros [Hj Ej]. destruct (N i Hj Ej).
    + intros _ i Hi. exact (N i Hi).
    + intros (i & Hi & Ei). destruct (N i Hi Ei).
Qed.

(** A successful add puts the component at the end of that folder and touches no
    other; a failing one changes nothing, and fails only for a reason. *)
Theorem c27_add : forall l f c h' out, step (after l) (AddItem f c) = (h', out) ->
  (out = Success /\ content h' f = content (after l) f ++ [c] /\ (forall g, g <> f -> content h' g = content (after l) g) /\ (forall k, id_of h' k = id_of (after l) k))
  \/ (h' = after l /\ fails out = true /\ (out = ErrDuplicate <-> exists x y t i, get (after l) f = Some x /\ accepts x = Some t /\ get (after l) c = Some y /\ In t (intfs y) /\ In i (content (after l) f) /\ id_of (after l) i = id_of (after l) c)).
Proof.
  intros l f c h' out. generalize (after l). intros h S. cbn [step] in S. unfold addItem in S. destruct (get h f) as [x|] eqn:Ex.
  2: { right. injection S as <- <-. repeat split; try discriminate. intros (x & y & t & i & E & _). discriminate. }
  destruct (get h c) as [y|] eqn:Ey.
  2: { right. injection S as <- <-. repeat split; try discriminate. intros (x' & y & t & i & _ & _ & E & _). discriminate. }
  destruct (accepts x) as [t|] eqn:Ac.
  2: { right. injection S as <- <-. repeat split; try discriminate. intros (x' & y' & t & i & E & E' & _). congruence. }
  destruct (existsb (Nat.eqb t) (intfs y)) eqn:Et; cbn [negb] in S.
  2: { right. injection S as <- <-. repeat split; try discriminate. intros (x' & y' & t' & i & E & E' & E2 & E3 & _). exfalso.
       assert (existsb (Nat.eqb t) (intfs y) = true); [|congruence]. apply existsb_exists. exists t. split; [congruence|apply Nat.eqb_refl]. }
  destruct (findItem h (items x) (lid y)) as [i|] eqn:Ef; injection S as <- <-.
  - right. split; [reflexivity|]. split; [reflexivity|]. split; [intros _|reflexivity]. apply find_facts in Ef. destruct Ef as [Hi Ei]. apply existsb_exists in Et. destruct Et as (t' & Ht & Et). apply Nat.eqb_eq in Et. subst t'.
    exists x, y, t, i. rewrite (content_get _ _ _ Ex). repeat split; auto. change (lidOf h i = lidOf h c). rewrite Ei. unfold lidOf. now rewrite Ey.
  - left. split; [reflexivity|]. unfold content, id_of. rewrite (get_put_same _ _ _ _ Ex), Ex. cbn [set_items items]. split; [reflexivity|]. split; [intros g N; now rewrite get_put_other|].
    intros k. rewrite get_put. destruct (Nat.eqb_spec k f) as [->|N]; [rewrite Ex; reflexivity|reflexivity].
Qed.

(** Every other operation of a tidy history takes out exactly the components it
    names, removes them and all they hold, and leaves everything else where it was,
    in the same order. *)
Theorem c27_content_partial : forall l o h' out, tidy (o :: l) -> step (after l) o = (h', out) -> (forall f c, o <> AddItem f c) ->
  out <> Endless /\
  (forall g, gone (after l) o g -> content h' g = []) /\
  (forall g, ~ gone (after l) o g -> exists keep, content h' g = filter keep (content (after l) g) /\ forall i, In i (content (after l) g) -> (keep i = true <-> ~ taken (after l) o i)) /\
  (forall k, exists_ (after l) k -> (is_removed h' k <-> is_removed (after l) k \/ gone (after l) o k)).
Proof.
  intros l o h' out [T Tl] S NA. pose proof (inv_after l Tl) as HI. pose proof (took_step (after l) o HI (uniq_after l) T NA) as [(K1 & K2 & K3 & K4) R]. rewrite S in K1, K2, K3, R. cbn [fst snd] in K1, K2, K3, R.
  generalize dependent (after l). clear l Tl. intros h T S HI K1 K2 K3 K4. split; [exact R|]. split; [|split].
  - intros g Hg. unfold content. destruct (get h g) as [y|] eqn:Ey.
    + rewrite (K1 g y Ey Hg). apply dead_facts. exact (i_coh h HI g y Ey).
    + destruct (get h' g) as [z|] eqn:Ez; [exact (K3 g z Ey Ez)|reflexivity].
  - intros g Hg. unfold content. destruct (get h g) as [y|] eqn:Ey.
    + destruct (K2 g y Ey Hg) as (z & keep & Ez & _ & I & P). rewrite Ez. eauto.
    + exists (fun _ => true). split; [|intros i []]. destruct (get h' g) as [z|] eqn:Ez; [exact (K3 g z Ey Ez)|reflexivity].
  - intros k Hk. unfold exists_ in Hk. destruct (get h k) as [y|] eqn:Ey; [|contradiction]. rewrite (removed_iff _ _ _ Ey).
    destruct (K4 k) as [G|G].
    + rewrite (removed_iff _ _ _ (K1 k y Ey G)). destruct (dead_facts y (i_coh h HI k y Ey)) as (_ & _ & _ & _ & _ & E & _). rewrite E. split; [intros _; right; exact G|reflexivity].
    + destruct (K2 k y Ey G) as (z & keep & Ez & Rz & _). rewrite (removed_iff _ _ _ Ez), Rz. split; [now left|intros [H|H]; [exact H|contradiction]].
Qed.

(** A folder lists its visible items in the order they were added in (see c27_add and
    c27_content_partial for the order of the content). *)
Theorem c27_listed : forall l f x, get (after l) f = Some x -> accepts x <> None ->
  exists keep, snd (step (after l) (GetItems f)) = Listed (filter keep (content (after l) f)) /\
  forall i, In i (content (after l) f) -> exists y, get (after l) i = Some y /\ keep i = visible y.
Proof.
  intros l f x E A. cbn [step]. unfold with_folder, with_comp. rewrite E, (content_get _ _ _ E). destruct (accepts x); [|contradiction].
  exists (fun i => match get (after l) i with Some y => visible y | None => false end). split; [reflexivity|]. intros i Hi. pose proof (u_its _ (uniq_after l) f x i E Hi) as N.
  destruct (get (after l) i) as [y|]; [eauto|contradiction].
Qed.

(** ** Cases *)
Local Open Scope string_scope.
(** a device (0) with a folder (1) holding a function block (2) with a signal (3), and another (4) *)
Definition ex_tree : list op :=
  [AddItem 1 4; Create (Some 1) "fb2" [7] None; AddItem 2 3; Create (Some 2) "sig" [8] None; AddItem 1 2; Create (Some 1) "fb1" [7] (Some 8); AddItem 0 1; Create (Some 0) "FB" [6] (Some 7); Create None "dev" [5] (Some 6)].
Ltac tidy_tac := vm_compute; repeat split; try discriminate; try (intros H; discriminate H).
Example ex_tree_tidy : tidy ex_tree.
Proof. tidy_tac. Qed.
Example ex_tree_in : in_tree (after ex_tree) 3.
Proof.
  apply in_item with (p := 2); [vm_compute; discriminate|vm_compute; reflexivity|vm_compute; auto|]. apply in_item with (p := 1); [vm_compute; discriminate|vm_compute; reflexivity|vm_compute; auto|].
  apply in_item with (p := 0); [vm_compute; discriminate|vm_compute; reflexivity|vm_compute; auto|]. apply in_root; [vm_compute; discriminate|vm_compute; reflexivity].
Qed.
Example ex_deactivate : tidy (SetActive 1 false :: ex_tree) /\ ~ is_active (after (SetActive 1 false :: ex_tree)) 3 /\ local_active (after (SetActive 1 false :: ex_tree)) 3.
Proof. split; [tidy_tac|]. split; [|reflexivity]. unfold is_active. vm_compute. discriminate. Qed.
Example ex_reactivate : is_active (after (SetActive 1 true :: SetActive 3 false :: SetActive 1 false :: ex_tree)) 2 /\ ~ is_active (after (SetActive 1 true :: SetActive 3 false :: SetActive 1 false :: ex_tree)) 3.
Proof. split; [vm_compute; reflexivity|]. unfold is_active. vm_compute. discriminate. Qed.
Example ex_changeable : changeable (after ex_tree) 1.
Proof. eexists. repeat split. Qed.
Example ex_remove : tidy (RemoveById 1 "fb1" :: ex_tree) /\ content (after (RemoveById 1 "fb1" :: ex_tree)) 1 = [4] /\ is_removed (after (RemoveById 1 "fb1" :: ex_tree)) 3 /\ taken (after ex_tree) (RemoveById 1 "fb1") 2.
Proof. split; [tidy_tac|]. split; [vm_compute; reflexivity|]. split; [vm_compute; reflexivity|]. split; [cbn; auto|reflexivity]. Qed.
Example ex_duplicate : snd (step (after (Create (Some 1) "fb1" [7] None :: ex_tree)) (AddItem 1 5)) = ErrDuplicate.
Proof. vm_compute. reflexivity. Qed.
Example ex_listed : snd (step (after (SetVisible 2 false :: LockVisible 2 false :: ex_tree)) (GetItems 1)) = Listed [4] /\ snd (step (after ex_tree) (GetItems 1)) = Listed [2; 4].
Proof. split; vm_compute; reflexivity. Qed.
Example ex_lookup : snd (step (after ex_tree) (GetItem 1 "fb2")) = Found 4 /\ snd (step (after ex_tree) (GetItem 1 "x")) = ErrNotFound.
Proof. split; vm_compute; reflexivity. Qed.

(** ** What fails without tidiness (C26) *)
(** A component created under an active parent that is deactivated before the
    component is added stays active. *)
Theorem c26_late_add_refuted : exists l c, in_tree (after l) c /\ is_active (after l) c /\ exists a, ancestor_or_self (after l) a c /\ ~ local_active (after l) a.
Proof.
  exists [AddItem 0 1; SetActive 0 false; Create (Some 0) "c" [6] None; Create None "root" [5] (Some 6)], 1. split.
  - apply in_item with (p := 0); [vm_compute; discriminate|vm_compute; reflexivity|vm_compute; auto|]. apply in_root; [vm_compute; discriminate|vm_compute; reflexivity].
  - split; [vm_compute; reflexivity|]. exists 0. split; [eapply above; [reflexivity|constructor]|]. unfold local_active. vm_compute. discriminate.
Qed.
(** An item removed on its own stays in its folder; deactivating the folder then
    fails half way and the items behind it stay active. *)
Theorem c26_removed_item_refuted : exists l c, in_tree (after l) c /\ is_active (after l) c /\ ~ is_removed (after l) c /\ exists a, ancestor_or_self (after l) a c /\ ~ local_active (after l) a.
Proof.
  exists [SetActive 0 false; Remove 1; AddItem 0 2; Create (Some 0) "d" [6] None; AddItem 0 1; Create (Some 0) "c" [6] None; Create None "root" [5] (Some 6)], 2. split.
  - apply in_item with (p := 0); [vm_compute; discriminate|vm_compute; reflexivity|vm_compute; auto|]. apply in_root; [vm_compute; discriminate|vm_compute; reflexivity].
  - split; [vm_compute; reflexivity|]. split; [unfold is_removed; vm_compute; discriminate|]. exists 0. split; [eapply above; [reflexivity|constructor]|]. unfold local_active. vm_compute. discriminate.
Qed.
(** Updating a removed component makes it active again. *)
Theorem c26_update_removed_refuted : exists l c, is_removed (after l) c /\ is_active (after l) c.
Proof. exists [Update 1 (Some true); RemoveById 0 "c"; AddItem 0 1; Create (Some 0) "c" [6] None; Create None "root" [5] (Some 6)], 1. split; vm_compute; reflexivity. Qed.
(** A component can be added to a folder that is not its parent, and does not follow
    that folder's activity when that is changed before. *)
Theorem c26_stranger_refuted : exists l f c, In c (content (after l) f) /\ is_active (after l) c /\ ~ is_active (after l) f.
Proof.
  exists [AddItem 0 2; SetActive 0 false; Create (Some 1) "c" [6] None; Create None "other" [5] (Some 6); Create None "root" [5] (Some 6)], 0, 2.
  split; [vm_compute; auto|]. split; [vm_compute; reflexivity|]. unfold is_active. vm_compute. discriminate.
Qed.
(** A frozen component is changed by update. *)
Theorem c26_frozen_refuted : exists l c b, snd (step (after l) (SetActive c b)) = ErrFrozen /\ ~ is_active (after (Update c (Some b) :: l)) c /\ is_active (after l) c.
Proof. exists [Freeze 0; Create None "root" [5] (Some 6)], 0, false. split; [vm_compute; reflexivity|]. split; [unfold is_active; vm_compute; discriminate|reflexivity]. Qed.

(** ** What fails (C27) *)
(** removeItem takes out another component that has the argument's local id. *)
Theorem c27_remove_other_refuted : exists l f c i, snd (step (after l) (RemoveItem f c)) = Success /\ ~ In c (content (after l) f) /\ i <> c /\ In i (content (after l) f) /\ ~ In i (content (after (RemoveItem f c :: l)) f).
Proof.
  exists [Create None "c" [6] None; AddItem 0 1; Create (Some 0) "c" [6] None; Create None "root" [5] (Some 6)], 0, 2, 1. split; [vm_compute; reflexivity|]. split; [vm_compute; intuition discriminate|]. split; [discriminate|]. split; [vm_compute; auto|]. vm_compute. auto.
Qed.
(** A removed component stays an item of its folder when it was removed on its own. *)
Theorem c27_removed_stays_refuted : exists l f c, is_removed (after l) c /\ In c (content (after l) f).
Proof. exists [Remove 1; AddItem 0 1; Create (Some 0) "c" [6] None; Create None "root" [5] (Some 6)], 0, 1. split; [vm_compute; reflexivity|vm_compute; auto]. Qed.
(** A removed folder takes new items. *)
Theorem c27_add_to_removed_refuted : exists l f c, is_removed (after l) f /\ snd (step (after l) (AddItem f c)) = Success.
Proof. exists [Remove 0; Create (Some 0) "c" [6] None; Create None "root" [5] (Some 6)], 0, 1. split; vm_compute; reflexivity. Qed.

Print Assumptions c26_own.
Print Assumptions c26_active_partial.
Print Assumptions c26_removed_partial.
Print Assumptions c26_set_partial.
Print Assumptions c26_late_add_refuted.
Print Assumptions c26_removed_item_refuted.
Print Assumptions c26_update_removed_refuted.
Print Assumptions c26_stranger_refuted.
Print Assumptions c26_frozen_refuted.
Print Assumptions c27_unique.
Print Assumptions c27_lookup.
Print Assumptions c27_listed.
Print Assumptions c27_add.
Print Assumptions c27_content_partial.
Print Assumptions c27_remove_other_refuted.
Print Assumptions c27_removed_stays_refuted.
Print Assumptions c27_add_to_removed_refuted.
