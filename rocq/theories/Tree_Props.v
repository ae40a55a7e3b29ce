(** * C36, C37: tags, search filters, ids *)
From Coq Require Import ZArith List Bool Ascii String Arith Lia Permutation.
From Verif Require Import Base Eval_Model Eval_Spec Eval_Props Tree_Model Tree_Spec Tree_Proofs.
Import ListNotations.
Local Open Scope nat_scope.

(** ** C36: tags *)

(** The tags are those put there and not taken away since, each once. *)
Theorem c36_tags : forall h,
  NoDup (getList (tags_after h)) /\
  (forall s, In s (getList (tags_after h)) <-> tagged h s) /\
  (forall s, contains s (tags_after h) = true <-> tagged h s).
Proof.
  intro h. destruct (tags_inv h) as [N I]. split; [exact N|]. split; [exact I|apply has_tagged].
Qed.

(** Adding and removing say whether they changed anything, and only then is
    there an event. *)
Theorem c36_changes : forall h s,
  (tagged h s -> add s (tags_after h) = (tags_after h, Ignored, false)) /\
  (~ tagged h s -> snd (fst (add s (tags_after h))) = Success /\ snd (add s (tags_after h)) = true) /\
  (~ tagged h s -> remove s (tags_after h) = (tags_after h, Ignored, false)) /\
  (tagged h s -> snd (fst (remove s (tags_after h))) = Success /\ snd (remove s (tags_after h)) = true).
Proof.
  intros h s. unfold add, remove. pose proof (has_tagged h s) as H.
  destruct (has s (tags_after h)).
  - assert (T : tagged h s) by tauto. split; [reflexivity|]. split; [intro; contradiction|].
    split; [intro; contradiction|]. split; reflexivity.
  - assert (T : ~ tagged h s) by (intro K; apply H in K; discriminate).
    split; [intro; contradiction|]. split; [split; reflexivity|]. split; [reflexivity|intro; contradiction].
Qed.

(** Two tag objects are equal iff they hold the same tags. *)
Theorem c36_equals : forall h h',
  equals (tags_after h) (tags_after h') = true <-> (forall s, tagged h s <-> tagged h' s).
Proof.
  intros h h'. destruct (tags_inv h) as [N I], (tags_inv h') as [N' I'].
  rewrite equals_spec by assumption. split; intros E s; specialize (E s); rewrite I, I' in *; exact E.
Qed.

(** Saving, in whatever order, and loading keeps the tags. *)
Theorem c36_saved : forall h l,
  Permutation l (serialize (tags_after h)) ->
  NoDup (getList (deserialize l)) /\ forall s, In s (getList (deserialize l)) <-> tagged h s.
Proof.
  intros h l P. destruct (deserialize_spec l) as [N I]. split; [exact N|].
  intro s. unfold getList. rewrite I. rewrite <- (proj2 (tags_inv h) s). split; intro J.
  - eapply Permutation_in; [exact P|exact J].
  - eapply Permutation_in; [apply Permutation_sym; exact P|exact J].
Qed.

(** A query answers the truth of its expression about the tags. *)
Theorem c36_query : forall h s e,
  expression_text true s (tag_tree e) ->
  exists b, query s (tags_after h) = Answer b /\ (b = true <-> holds e (tagged h)).
Proof. exact query_spec. Qed.

(** ** C36: filters *)

Theorem c36_filter : forall f c, sound_filter f ->
  exists b, acceptsObject f c = Some b /\ (b = true <-> matches f c).
Proof. exact accepts_spec. Qed.

Theorem c36_visit : forall f c, sound_filter f ->
  exists b, visitChildren f c = Some b /\ (b = true <-> enters f c).
Proof. exact visits_spec. Qed.

(** A search through a tree finds every accepted component behind folders
    that are entered, and nothing else, each once. Missing: trees with slashes
    in local ids. *)
Theorem c36_search_partial : forall f t g, sound_filter f -> tidy t ->
  exists r, getItems (FRecursive f) g t = Some r /\ NoDup (map fst r) /\
    forall x, In x r <->
      exists p t', reached f t p t' /\ x = (id_below g p, attr t') /\ matches f (attr t').
Proof.
  intros f t g S T.
  destruct (search_recursive (FRecursive f) S eq_refl t T g) as (r & E & N & I).
  exists r. split; [exact E|]. split; [exact N|]. intro x. rewrite I.
  assert (R : forall t p t', reached (FRecursive f) t p t' <-> reached f t p t').
  { clear. intros t p t'. split; induction 1; try (apply re_item; assumption);
      apply re_below; assumption. }
  split; intros (p & t' & H & K); exists p, t'; (split; [apply R; exact H|exact K]).
Qed.

(** Without the recursive mark only the items themselves are looked at. *)
Theorem c36_items_partial : forall f t g, sound_filter f -> isRecursive f = false -> tidy t ->
  exists r, getItems f g t = Some r /\ NoDup (map fst r) /\
    forall x, In x r <->
      exists c, In c (children t) /\ x = (id_below g [lid (attr c)], attr c) /\ matches f (attr c).
Proof. intros f t g. apply search_flat. Qed.

Theorem c36_no_filter : forall t g x,
  In x (getVisibleItems g t) <->
  exists c, In c (children t) /\ visible (attr c) = true /\ x = (id_below g [lid (attr c)], attr c).
Proof.
  intros t g x. unfold getVisibleItems. rewrite in_map_iff. split.
  - intros (c & <- & I). apply filter_In in I. exists c. split; [tauto|]. split; [tauto|reflexivity].
  - intros (c & I & V & ->). exists c. split; [reflexivity|]. apply filter_In. auto.
Qed.

Definition item (l : text) (fo : bool) (items : list tree) : tree :=
  Node {| lid := l; visible := true; tagsOf := []; interfaces := []; folder := fo |} items.

(** Two components may have the same global id - nothing keeps slashes out of
    local ids - and a search then loses one of them. *)
Theorem c36_same_id_refuted :
  exists t, getItems (FRecursive FAny) (txt "/r") t =
    Some [(txt "/r/a/b", attr (item (txt "a/b") false [])); (txt "/r/a", attr (item (txt "a") true []))] /\
  reached FAny t [txt "a"; txt "b"] (item (txt "b") false []).
Proof.
  exists (item (txt "r") true [item (txt "a/b") false []; item (txt "a") true [item (txt "b") false []]]).
  split; [reflexivity|].
  apply (re_below FAny _ _ (item (txt "a") true [item (txt "b") false []])); try reflexivity.
  - right. left. reflexivity.
  - apply (re_item FAny _ _ (item (txt "b") false [])). left. reflexivity.
Qed.

(** The recursive mark is lost inside and / or / not. *)
Theorem c36_inner_recursive_refuted :
  exists t, getItems (FAnd (FRecursive FAny) FVisible) (txt "/r") t <>
            getItems (FRecursive (FAnd FAny FVisible)) (txt "/r") t.
Proof.
  exists (item (txt "r") true [item (txt "a") true [item (txt "b") false []]]).
  vm_compute. discriminate.
Qed.

(** ** C37 *)

(** A relative path finds exactly the component at it. *)
Theorem c37_relative_partial : forall t p t', tidy t -> plain p ->
  findComponent t (joined p) = Some t' <-> at_path t p t'.
Proof.
  intros t p t' T P.
  assert (E : findComponent t (joined p) = findInternal (List.length (joined p)) t (joined p)).
  { unfold findComponent. destruct (joined p) as [|c s] eqn:J; [reflexivity|].
    destruct (Ascii.eqb_spec c slash) as [->|N]; [|reflexivity].
    exfalso. destruct p as [|l p]; [discriminate|].
    destruct (P l (or_introl eq_refl)) as [Sl Nl]. destruct l as [|d l]; [congruence|].
    destruct p as [|m p].
    - cbn [joined] in J. injection J as -> ->. apply Sl. left. reflexivity.
    - rewrite joined_cons in J by discriminate. injection J as -> _. apply Sl. left. reflexivity. }
  rewrite E. apply find_complete; auto.
Qed.

(** Whatever is found is at the path the id spells, up to a slash at its end. *)
Theorem c37_only_partial : forall t id t', tidy t -> hd_error id <> Some "/"%char ->
  findComponent t id = Some t' ->
  exists p, at_path t p t' /\ plain p /\ (id = joined p \/ id = joined p ++ ["/"%char]).
Proof.
  intros t id t' T H F. unfold findComponent in F.
  assert (F' : findInternal (List.length id) t id = Some t').
  { destruct id as [|c s]; [exact F|]. destruct (Ascii.eqb_spec c slash) as [->|N]; [|exact F].
    exfalso. apply H. reflexivity. }
  apply find_sound in F'; [|exact T]. destruct F' as (p & A & P & R).
  exists p. split; [exact A|]. split; [exact P|]. destruct R as [R|[_ R]]; auto.
Qed.

(** The global id of a component below the root finds it from the root. *)
Theorem c37_global_partial : forall t p t', tidy t -> plain p -> p <> [] ->
  findComponent t (id_below ("/"%char :: lid (attr t)) p) = Some t' <-> at_path t p t'.
Proof.
  intros t p t' T P N. rewrite id_below_flat.
  assert (Ef : flat p = slash :: joined p).
  { clear - N. induction p as [|l p IH]; [congruence|]. destruct p as [|m p].
    - unfold flat. cbn. rewrite app_nil_r. reflexivity.
    - unfold flat. cbn [flat_map]. rewrite joined_cons by discriminate.
      change (flat_map (fun l : list ascii => slash :: l) p) with (flat p).
      change ((slash :: m) ++ flat p) with (flat (m :: p)). rewrite IH by discriminate. reflexivity. }
  rewrite Ef. assert (Sl : slashless (lid (attr t))) by (destruct T; assumption).
  unfold findComponent. cbn [app]. change (Ascii.eqb "/"%char slash) with true. cbv iota.
  rewrite split_at by exact Sl.
  assert (R : text_eqb (lid (attr t)) (lid (attr t)) = true) by (apply text_eqb_eq; reflexivity).
  rewrite R. apply find_complete; auto.
Qed.

(** Different places have different global ids. *)
Theorem c37_distinct_partial : forall g t p q t1 t2, tidy t -> plain p -> plain q ->
  at_path t p t1 -> at_path t q t2 -> id_below g p = id_below g q -> p = q.
Proof.
  intros g t p q t1 t2 _ P Q _ _ E. rewrite !id_below_flat in E. apply app_inv_head in E.
  apply flat_inj in E; [exact E| |]; intros l I; [apply P|apply Q]; exact I.
Qed.

(** Nesting is being below. *)
Theorem c37_nested_partial : forall g p q, plain p -> plain q ->
  isNestedComponentId (id_below g p) (id_below g q) = true <-> exists r, r <> [] /\ q = p ++ r.
Proof. exact nested_spec. Qed.

Theorem c37_ends_with : forall s e, idEndsWith s e = true <-> ends_with s e.
Proof. exact endsWith_spec. Qed.

(** A component does not find itself by its own global id. *)
Theorem c37_own_id_refuted :
  exists t, tidy t /\ findComponent t ("/"%char :: lid (attr t)) = None.
Proof.
  exists (item (txt "r") true []). split; [|reflexivity].
  constructor.
  - intros [E|[]]. discriminate.
  - discriminate.
  - constructor.
  - intros c [].
Qed.

(** An absolute id of another tree is looked up as if it were relative. *)
Theorem c37_foreign_refuted :
  exists t t', tidy t /\ lid (attr t) = txt "r" /\ findComponent t (txt "/a/b") = Some t'.
Proof.
  exists (item (txt "r") true [item (txt "a") true [item (txt "b") false []]]), (item (txt "b") false []).
  split; [|split; reflexivity].
  assert (S : forall c, c <> "/"%char -> slashless [c]) by (intros c N [E|[]]; congruence).
  assert (Tb : tidy (item (txt "b") false [])).
  { constructor; [apply S; discriminate|discriminate|constructor|intros c []]. }
  assert (Ta : tidy (item (txt "a") true [item (txt "b") false []])).
  { constructor; [apply S; discriminate|discriminate|repeat constructor; intros []|].
    intros c [<-|[]]. exact Tb. }
  constructor; [apply S; discriminate|discriminate|repeat constructor; intros []|].
  intros c [<-|[]]. exact Ta.
Qed.

(** With a slash in a local id a component is nested in one it is not below. *)
Theorem c37_slash_refuted :
  isNestedComponentId (id_below [] [txt "r"; txt "a"]) (id_below [] [txt "r"; txt "a/b"]) = true.
Proof. reflexivity. Qed.

(** ** Examples *)

Example ex_tags :
  tags_after [Added (txt "b"); Removed (txt "a"); Added (txt "a"); ReplacedBy [txt "c"; txt "c"]; Added (txt "x")]
  = [txt "c"; txt "b"].
Proof. reflexivity. Qed.

Example ex_query : query (txt "c && !a") [txt "c"; txt "b"] = Answer true.
Proof. reflexivity. Qed.

Example ex_query_text :
  expression_text true (txt "!a") (tag_tree (Neither (Tag (txt "a")))).
Proof.
  exists [TExclamation; TIdent (txt "a")]. split.
  - change (txt "!a") with ([] ++ ["!"%char] ++ [] ++ txt "a" ++ []).
    apply w_tok; [constructor|constructor| |].
    + intros c r E. cbn in E. injection E as <- <-. discriminate.
    + apply w_tok; [constructor| | |constructor; constructor].
      * apply name_spelled.
        -- eexists _, _. split; [reflexivity|]. split; [left; unfold letter, within; cbn; lia|constructor].
        -- intros t k K. left. destruct K; discriminate.
      * intros c r E. discriminate.
  - apply d_not. apply d_name. reflexivity.
Qed.

Definition ex_tree : tree :=
  item (txt "r") true
    [item (txt "a") true [item (txt "c") false []];
     Node {| lid := txt "b"; visible := false; tagsOf := [txt "t"]; interfaces := [7]; folder := true |}
       [item (txt "c") false []]].

Lemma ex_tidy : tidy ex_tree.
Proof.
  assert (S : forall c, c <> "/"%char -> slashless [c]) by (intros c N [E|[]]; congruence).
  assert (Tc : tidy (item (txt "c") false [])).
  { constructor; [apply S; discriminate|discriminate|constructor|intros c []]. }
  constructor; [apply S; discriminate|discriminate| |].
  - cbn. constructor; [intros [E|[]]; discriminate|]. constructor; [intros []|constructor].
  - intros c [<-|[<-|[]]].
    + constructor; [apply S; discriminate|discriminate|repeat constructor; intros []|].
      intros c [<-|[]]. exact Tc.
    + constructor; [apply S; discriminate|discriminate|repeat constructor; intros []|].
      intros c [<-|[]]. exact Tc.
Qed.

Example ex_search :
  option_map (map fst) (getItems (FRecursive (FAnd FVisible (FNot (FLocalId (txt "a"))))) (txt "/r") ex_tree)
  = Some [txt "/r/a/c"] /\
  option_map (map fst) (getItems (FRecursive (FOr (FRequired [txt "t"]) (FLocalId (txt "c")))) (txt "/r") ex_tree)
  = Some [txt "/r/b"; txt "/r/a/c"; txt "/r/b/c"].
Proof. split; reflexivity. Qed.

Example ex_find :
  findComponent ex_tree (txt "b/c") = Some (item (txt "c") false []) /\
  findComponent ex_tree (txt "/r/a/c") = Some (item (txt "c") false []) /\
  findComponent ex_tree (txt "a//c") = None.
Proof. repeat split. Qed.

Print Assumptions c36_tags.
Print Assumptions c36_changes.
Print Assumptions c36_equals.
Print Assumptions c36_saved.
Print Assumptions c36_query.
Print Assumptions c36_filter.
Print Assumptions c36_visit.
Print Assumptions c36_search_partial.
Print Assumptions c36_items_partial.
Print Assumptions c36_no_filter.
Print Assumptions c36_same_id_refuted.
Print Assumptions c36_inner_recursive_refuted.
Print Assumptions c37_relative_partial.
Print Assumptions c37_only_partial.
Print Assumptions c37_global_partial.
Print Assumptions c37_distinct_partial.
Print Assumptions c37_nested_partial.
Print Assumptions c37_ends_with.
Print Assumptions c37_own_id_refuted.
Print Assumptions c37_foreign_refuted.
Print Assumptions c37_slash_refuted.
