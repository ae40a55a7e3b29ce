From Coq Require Import List Arith Bool Lia.
From Verif Require Import CMir_Model CMir_Spec.
Import ListNotations.

(** ** Paths *)

Lemma below_app p r : below p (p ++ r) = Some r.
Proof.
  induction p as [|i p IH]; [reflexivity|]. cbn [below app].
  rewrite Nat.eqb_refl. exact IH.
Qed.

Lemma below_some p q r : below p q = Some r -> q = p ++ r.
Proof.
  revert q. induction p as [|i p IH]; intros q E; cbn [below] in E.
  - injection E as ->. reflexivity.
  - destruct q as [|j q]; [discriminate|].
    destruct (Nat.eqb i j) eqn:N; [|discriminate].
    apply Nat.eqb_eq in N. subst j. cbn [app]. f_equal. exact (IH q E).
Qed.

Lemma below_none p q : below p q = None -> ~ leads_to p q.
Proof. intros E [r ->]. rewrite below_app in E. discriminate. Qed.

Lemma below_iff p q : leads_to p q <-> exists r, below p q = Some r.
Proof.
  split.
  - intros [r ->]. exists r. apply below_app.
  - intros [r E]. exists r. exact (below_some p q r E).
Qed.

Lemma leads_refl q : leads_to q q.
Proof. exists []. symmetry. apply app_nil_r. Qed.

Lemma leads_trans a b c : leads_to a b -> leads_to b c -> leads_to a c.
Proof. intros [x ->] [y ->]. exists (x ++ y). symmetry. apply app_assoc. Qed.

Lemma leads_nil q : leads_to [] q.
Proof. exists q. reflexivity. Qed.

Lemma leads_to_nil r : leads_to r [] -> r = [].
Proof. intros [s E]. destruct r; [reflexivity|discriminate]. Qed.

(** Two paths leading to the same one are comparable. *)
Lemma leads_cmp a b q : leads_to a q -> leads_to b q -> leads_to a b \/ leads_to b a.
Proof.
  intros [x E] [y F]. rewrite E in F. clear E.
  revert b y x F. induction a as [|i a IH]; intros b y x F.
  - left. exists b. reflexivity.
  - destruct b as [|j b].
    + right. exists (i :: a). reflexivity.
    + cbn [app] in F. injection F as -> F.
      destruct (IH b y x F) as [[s ->]|[s ->]].
      * left. exists s. reflexivity.
      * right. exists s. reflexivity.
Qed.

Lemma leads_antisym a b : leads_to a b -> leads_to b a -> a = b.
Proof.
  intros [x E] [y F]. rewrite E in F. rewrite <- app_assoc in F.
  rewrite <- (app_nil_r a) in F at 1. apply app_inv_head in F.
  symmetry in F. apply app_eq_nil in F. destruct F as [-> _].
  rewrite app_nil_r in E. symmetry. exact E.
Qed.

(** What leads to [p ++ [i]] without passing it leads to [p]. *)
Lemma leads_snoc r p i : leads_to r (p ++ [i]) -> r = p ++ [i] \/ leads_to r p.
Proof.
  intros [s E]. destruct (list_eq_dec Nat.eq_dec s []) as [->|NE].
  - left. rewrite app_nil_r in E. symmetry. exact E.
  - right. destruct (exists_last NE) as (s' & j & ->).
    rewrite app_assoc in E. apply app_inj_tail in E. destruct E as [-> _].
    exists s'. reflexivity.
Qed.

Lemma path_eqb_refl p : path_eqb p p = true.
Proof. unfold path_eqb. destruct (list_eq_dec Nat.eq_dec p p); [reflexivity|contradiction]. Qed.

Lemma path_eqb_neq p q : p <> q -> path_eqb p q = false.
Proof. intro N. unfold path_eqb. destruct (list_eq_dec Nat.eq_dec p q); [contradiction|reflexivity]. Qed.

(** ** Objects *)

Definition oid (t : tree) (q : path) : option nat :=
  match t q with Some (o, _) => Some o | None => None end.

Definition att (t : tree) (q : path) (k : attr) : option nat :=
  match t q with Some (_, n) => n k | None => None end.

Lemma oid_none t q : oid t q = None <-> t q = None.
Proof. unfold oid. destruct (t q) as [[o n]|]; split; congruence. Qed.

(** Every object met on the way to [q] is still there in [f]. *)
Definition calm (t f : tree) (q : path) : Prop :=
  forall r, leads_to r q -> oid t r <> None -> oid t r = oid f r.

Lemma calm_up t f r q : leads_to r q -> calm t f q -> calm t f r.
Proof. intros L K r' L'. apply K. exact (leads_trans _ _ _ L' L). Qed.

Definition closed (c : mirror) : Prop :=
  forall r q, leads_to r q -> c q <> None -> c r <> None.

Definition vnode (f : tree) (q : path) (m : option node) : Prop :=
  (forall n, has f q n -> ~ hidden f q -> exists x, m = Some x /\ forall k, x k = n k) /\
  (f q = None \/ hidden f q -> m = None).

(** The mirror is somewhere between the tree [t] and the final tree [f]. *)
Record between (c : mirror) (t f : tree) : Prop := mkBetween
  { b_closed : closed c;
    b_shown : forall q n, has t q n -> calm t f q -> ~ hidden t q ->
              exists m, c q = Some m /\
                        forall k, m k = n k \/ m k = att f q k;
    b_hidden : forall q, t q <> None -> calm t f q -> hidden t q -> c q = None;
    b_future : forall q, t q = None -> calm t f q -> c q <> None ->
               forall q', leads_to q q' -> vnode f q' (c q') }.

(** ** Visibility *)

Lemma is_private_iff n : is_private n = true <-> private n.
Proof.
  unfold is_private, private. destruct (n APublic) as [[|v]|]; split; congruence.
Qed.

Lemma hidden_dec_below (t : mirror) pre r :
  public_below t pre r = true <->
  forall s, s <> [] -> leads_to s r ->
            exists n, t (pre ++ s) = Some n /\ ~ private n.
Proof.
  revert pre. induction r as [|i r IH]; intro pre; cbn [public_below].
  - split; [|reflexivity]. intros _ s NE L. apply leads_to_nil in L. contradiction.
  - destruct (t (pre ++ [i])) as [n|] eqn:E.
    + rewrite andb_true_iff, negb_true_iff. rewrite IH. split.
      * intros [P H] s NE L. destruct s as [|j s]; [contradiction|].
        destruct L as [x L]. cbn [app] in L. injection L as <- L.
        destruct s as [|k s].
        -- exists n. split; [exact E|]. intro Q. apply is_private_iff in Q. congruence.
        -- destruct (H (k :: s)) as (m & M & NP); [discriminate|exists x; exact L|].
           exists m. split; [|exact NP]. rewrite <- app_assoc in M. exact M.
      * intro H. split.
        -- destruct (H [i]) as (m & M & NP); [discriminate|exists r; reflexivity|].
           rewrite E in M. injection M as <-.
           destruct (is_private n) eqn:Q; [|reflexivity].
           apply is_private_iff in Q. contradiction.
        -- intros s NE [x L]. destruct (H (i :: s)) as (m & M & NP);
             [discriminate|exists x; rewrite L; reflexivity|].
           exists m. split; [|exact NP]. rewrite <- app_assoc. exact M.
    + split; [discriminate|]. intro H.
      destruct (H [i]) as (m & M & _); [discriminate|exists r; reflexivity|].
      congruence.
Qed.

Lemma nodes_has t q n : nodes t q = Some n <-> has t q n.
Proof.
  unfold nodes, has. destruct (t q) as [[o m]|]; split.
  - intro E. injection E as ->. exists o. reflexivity.
  - intros [o' E]. injection E as _ ->. reflexivity.
  - discriminate.
  - intros [o' E]. discriminate.
Qed.

Lemma nodes_none t q : nodes t q = None <-> t q = None.
Proof. unfold nodes. destruct (t q) as [[o m]|]; split; congruence. Qed.

Lemma has_fun t q n n' : has t q n -> has t q n' -> n = n'.
Proof. intros [o E] [o' E']. congruence. Qed.

Lemma has_some t q : t q <> None -> exists n, has t q n.
Proof.
  intro N. destruct (t q) as [[o n]|] eqn:E; [|contradiction].
  exists n, o. exact E.
Qed.

(** Hidden or not is decidable in a tree where the way exists. *)
Lemma hidden_down t r q : leads_to r q -> hidden t r -> hidden t q.
Proof.
  intros L (a & n & NE & La & H & P). exists a, n.
  split; [exact NE|]. split; [exact (leads_trans _ _ _ La L)|]. split; assumption.
Qed.

Lemma hidden_dec t q : hidden t q \/ ~ hidden t q.
Proof.
  induction q as [|i q IH] using rev_ind.
  - right. intros (r & n & NE & L & _). apply leads_to_nil in L. contradiction.
  - destruct IH as [H|H].
    + left. apply (hidden_down t q); [exists [i]; reflexivity|exact H].
    + destruct (t (q ++ [i])) as [[o n]|] eqn:E.
      * destruct (is_private n) eqn:P.
        -- left. exists (q ++ [i]), n. split; [destruct q; discriminate|].
           split; [apply leads_refl|]. split; [exists o; exact E|].
           apply is_private_iff. exact P.
        -- right. intros (r & m & NE & L & HM & PM).
           apply leads_snoc in L. destruct L as [->|L].
           ++ destruct HM as [o' E']. rewrite E in E'. injection E' as _ <-.
              apply is_private_iff in PM. congruence.
           ++ apply H. exists r, m. split; [exact NE|]. split; [exact L|]. split; assumption.
      * right. intros (r & m & NE & L & HM & PM).
        apply leads_snoc in L. destruct L as [->|L].
        -- destruct HM as [o' E']. congruence.
        -- apply H. exists r, m. split; [exact NE|]. split; [exact L|]. split; assumption.
Qed.

Lemma new_node_named q n : n AName <> Some 0 -> forall k, new_node q n k = n k.
Proof.
  intros N k. destruct k; try reflexivity. cbn [new_node].
  destruct (n AName) as [[|v]|]; [contradiction|reflexivity|reflexivity].
Qed.

(** A subtree deserialized from [f] under [a] shows [f] there, when the way
    to [a] is not hidden. *)
Lemma fresh_vnode f a q :
  (forall r x, leads_to r x -> f x <> None -> f r <> None) ->
  (forall x n, has f x n -> n AName <> Some 0) ->
  f a <> None -> ~ hidden f a -> leads_to a q ->
  vnode f q (fresh_at (nodes f) a q).
Proof.
  intros CL NM FA NH L. destruct L as [r ->].
  unfold fresh_at. rewrite below_app.
  destruct (nodes f a) as [na|] eqn:EA.
  2:{ apply nodes_none in EA. contradiction. }
  split.
  - intros n H NHq. apply nodes_has in H. rewrite H. apply nodes_has in H.
    assert (PB : public_below (nodes f) a r = true).
    { apply hidden_dec_below. intros s NE L.
      assert (X : f (a ++ s) <> None).
      { apply (CL (a ++ s) (a ++ r)).
        - destruct L as [y ->]. exists y. apply app_assoc.
        - destruct H as [o E]. congruence. }
      apply has_some in X. destruct X as [m HM].
      exists m. split; [apply nodes_has; exact HM|]. intro P. apply NHq.
      exists (a ++ s), m. split; [destruct a; [exact NE|discriminate]|].
      split; [destruct L as [y ->]; exists y; apply app_assoc|]. split; assumption. }
    rewrite PB. exists (new_node (a ++ r) n). split; [reflexivity|].
    apply new_node_named. exact (NM _ _ H).
  - intros [NO|HI].
    + apply nodes_none in NO. rewrite NO. reflexivity.
    + destruct (nodes f (a ++ r)) as [n|] eqn:EQ; [|reflexivity].
      destruct (public_below (nodes f) a r) eqn:PB; [|reflexivity].
      exfalso. destruct HI as (x & m & NE & L & HM & PM).
      pose proof (proj1 (hidden_dec_below (nodes f) a r) PB) as H. clear PB.
      destruct (leads_cmp x a (a ++ r) L) as [XA|AX]; [exists r; reflexivity| |].
      * apply NH. exists x, m. split; [exact NE|]. split; [exact XA|]. split; assumption.
      * destruct AX as [s ->]. destruct s as [|j s].
        -- rewrite app_nil_r in *. apply NH. exists a, m.
           split; [exact NE|]. split; [apply leads_refl|]. split; assumption.
        -- destruct (H (j :: s)) as (m' & M' & NP).
           ++ discriminate.
           ++ destruct L as [y E]. rewrite <- app_assoc in E.
              apply app_inv_head in E. exists y. exact E.
           ++ apply nodes_has in M'. rewrite (has_fun _ _ _ _ HM M') in PM.
              contradiction.
Qed.

Lemma fresh_closed (t : mirror) a r q :
  leads_to a r -> leads_to r q -> fresh_at t a q <> None -> fresh_at t a r <> None.
Proof.
  intros [x ->] [y ->]. rewrite <- app_assoc. unfold fresh_at. rewrite !below_app.
  destruct (t a) as [na|] eqn:EA; [|intro K; exact K].
  destruct (t (a ++ x ++ y)) as [n|] eqn:E; [|intro K; exfalso; apply K; reflexivity].
  destruct (public_below t a (x ++ y)) eqn:PB; [|intro K; exfalso; apply K; reflexivity].
  intros _.
  pose proof (proj1 (hidden_dec_below t a (x ++ y)) PB) as H. clear PB.
  assert (PX : public_below t a x = true).
  { apply hidden_dec_below. intros s NE L. apply H; [exact NE|].
    apply (leads_trans _ _ _ L). exists y. reflexivity. }
  rewrite PX. destruct x as [|i x].
  - rewrite app_nil_r, EA. discriminate.
  - destruct (H (i :: x)) as (m & M & _); [discriminate|exists y; reflexivity|].
    rewrite M. discriminate.
Qed.

(** ** The device stays a device *)

Lemma put_node_same t p o n : put_node t p o n p = Some (o, n).
Proof. unfold put_node. rewrite path_eqb_refl. reflexivity. Qed.

Lemma put_node_other t p o n q : q <> p -> put_node t p o n q = t q.
Proof. intro N. unfold put_node. rewrite (path_eqb_neq _ _ N). reflexivity. Qed.

Lemma put_oid t p o n m q :
  t p = Some (o, m) -> oid (put_node t p o n) q = oid t q.
Proof.
  intro E. unfold oid. destruct (list_eq_dec Nat.eq_dec q p) as [->|N].
  - rewrite put_node_same, E. reflexivity.
  - rewrite (put_node_other _ _ _ _ _ N). reflexivity.
Qed.

Lemma oid_same_none t u q : oid t q = oid u q -> (t q = None <-> u q = None).
Proof. intro E. rewrite <- !oid_none, E. reflexivity. Qed.

Lemma device_put s p o n m :
  device s -> s_tree s p = Some (o, m) -> n AName <> Some 0 ->
  device (mkSrv (put_node (s_tree s) p o n) (s_next s)).
Proof.
  intros (R & CL & LT & NM) E N. cbn [s_tree s_next].
  assert (O : forall q, put_node (s_tree s) p o n q = None <-> s_tree s q = None).
  { intro q. apply oid_same_none. exact (put_oid _ _ _ _ _ q E). }
  split; [intro X; apply O in X; exact (R X)|]. split; [|split].
  - intros r q L Q X. apply O in X. apply (CL r q L); [|exact X].
    intro Y. apply Q. apply O. exact Y.
  - intros q o' n'. destruct (list_eq_dec Nat.eq_dec q p) as [->|NE].
    + cbn [s_tree]. rewrite put_node_same. intro X. injection X as <- <-.
      exact (LT _ _ _ E).
    + cbn [s_tree]. rewrite (put_node_other _ _ _ _ _ NE). apply LT.
  - intros q n' [o' X]. cbn [s_tree] in X.
    destruct (list_eq_dec Nat.eq_dec q p) as [->|NE].
    + rewrite put_node_same in X. injection X as _ <-. exact N.
    + rewrite (put_node_other _ _ _ _ _ NE) in X. apply (NM q). exists o'. exact X.
Qed.

Lemma set_attr_same n k v : set_attr n k v k = Some v.
Proof. unfold set_attr. destruct (attr_eq_dec k k); [reflexivity|contradiction]. Qed.

Lemma set_attr_other n k v k' : k' <> k -> set_attr n k v k' = n k'.
Proof. intro N. unfold set_attr. destruct (attr_eq_dec k' k); [contradiction|reflexivity]. Qed.

Lemma comp_at_app c x y : comp_at c (x ++ y) <> None -> comp_at c x <> None.
Proof.
  revert c. induction x as [|i x IH]; intro c; cbn [app comp_at]; [discriminate|].
  destruct (kid i (comp_kids c)) as [c'|]; [apply IH|intro K; exact K].
Qed.

Lemma graft_under t a o c r :
  graft t a o c (a ++ r) = match comp_at c r with Some n => Some (o, n) | None => None end.
Proof. unfold graft. rewrite below_app. reflexivity. Qed.

Lemma graft_out t a o c q : ~ leads_to a q -> graft t a o c q = t q.
Proof.
  intro N. unfold graft. destruct (below a q) as [r|] eqn:B; [|reflexivity].
  exfalso. apply N. exists r. exact (below_some _ _ _ B).
Qed.

Lemma leads_dec a q : leads_to a q \/ ~ leads_to a q.
Proof.
  destruct (below a q) as [r|] eqn:B.
  - left. exists r. exact (below_some _ _ _ B).
  - right. exact (below_none _ _ B).
Qed.

Lemma device_graft s p i c :
  device s -> s_tree s p <> None -> s_tree s (p ++ [i]) = None ->
  (forall r n, comp_at c r = Some n -> n AName <> Some 0) ->
  device (mkSrv (graft (s_tree s) (p ++ [i]) (s_next s) c) (S (s_next s))).
Proof.
  intros (R & CL & LT & NM) P A N. cbn [s_tree s_next].
  split; [|split; [|split]].
  - cbn [s_tree]. rewrite graft_out; [exact R|]. intro L. apply leads_to_nil in L.
    destruct p; discriminate.
  - intros r q L. cbn [s_tree].
    destruct (leads_dec (p ++ [i]) q) as [U|U].
    + destruct (leads_dec (p ++ [i]) r) as [V|V].
      * destruct V as [x ->]. destruct L as [y ->]. rewrite <- app_assoc.
        rewrite !graft_under. intro K.
        destruct (comp_at c x) as [nx|] eqn:X; [discriminate|].
        exfalso. assert (Q : comp_at c (x ++ y) <> None).
        { destruct (comp_at c (x ++ y)); [discriminate|exfalso; apply K; reflexivity]. }
        apply comp_at_app in Q. contradiction.
      * intros _. rewrite (graft_out _ _ _ _ _ V).
        destruct (leads_cmp _ _ _ L U) as [W|W]; [|contradiction].
        apply leads_snoc in W. destruct W as [->|W].
        -- exfalso. apply V. apply leads_refl.
        -- exact (CL _ _ W P).
    + assert (V : ~ leads_to (p ++ [i]) r).
      { intro V. apply U. exact (leads_trans _ _ _ V L). }
      rewrite (graft_out _ _ _ _ _ U), (graft_out _ _ _ _ _ V). exact (CL _ _ L).
  - intros q o n. cbn [s_tree]. destruct (leads_dec (p ++ [i]) q) as [U|U].
    + destruct U as [x ->]. rewrite graft_under.
      destruct (comp_at c x); [|discriminate]. intro E. injection E as <- _. cbn [s_next]. lia.
    + rewrite (graft_out _ _ _ _ _ U). intro E. apply LT in E. cbn [s_next]. lia.
  - intros q n [o E]. cbn [s_tree] in E.
    destruct (leads_dec (p ++ [i]) q) as [U|U].
    + destruct U as [x ->]. rewrite graft_under in E.
      destruct (comp_at c x) as [nx|] eqn:X; [|discriminate]. injection E as _ <-.
      exact (N _ _ X).
    + rewrite (graft_out _ _ _ _ _ U) in E. apply (NM q). exists o. exact E.
Qed.

Lemma prune_in t a q : leads_to a q -> prune t a q = None.
Proof. intros [r ->]. unfold prune. rewrite below_app. reflexivity. Qed.

Lemma prune_out t a q : ~ leads_to a q -> prune t a q = t q.
Proof.
  intro N. unfold prune. destruct (below a q) as [r|] eqn:B; [|reflexivity].
  exfalso. apply N. exists r. exact (below_some _ _ _ B).
Qed.

Lemma device_prune s p i :
  device s -> device (mkSrv (prune (s_tree s) (p ++ [i])) (s_next s)).
Proof.
  intros (R & CL & LT & NM). split; [|split; [|split]]; cbn [s_tree s_next].
  - rewrite prune_out; [exact R|]. intro L. apply leads_to_nil in L. destruct p; discriminate.
  - intros r q L. destruct (leads_dec (p ++ [i]) q) as [U|U].
    + rewrite (prune_in _ _ _ U). intro K. exfalso. apply K. reflexivity.
    + assert (V : ~ leads_to (p ++ [i]) r).
      { intro V. apply U. exact (leads_trans _ _ _ V L). }
      rewrite (prune_out _ _ _ U), (prune_out _ _ _ V). exact (CL _ _ L).
  - intros q o n. destruct (leads_dec (p ++ [i]) q) as [U|U].
    + rewrite (prune_in _ _ _ U). discriminate.
    + rewrite (prune_out _ _ _ U). apply LT.
  - intros q n [o E]. cbn [s_tree] in E. destruct (leads_dec (p ++ [i]) q) as [U|U].
    + rewrite (prune_in _ _ _ U) in E. discriminate.
    + rewrite (prune_out _ _ _ U) in E. apply (NM q). exists o. exact E.
Qed.

Definition stays (keep : path -> bool) (r : path) : bool :=
  match r with [] => true | _ => keep r end.

Lemma load_under t p o c keep r :
  load_tree t p o c keep (p ++ r) =
  match comp_at c r with
  | None => None
  | Some n => match t (p ++ r) with
              | Some (o', old) => if stays keep r then Some (o', load_node old n)
                                  else Some (o, n)
              | None => Some (o, n)
              end
  end.
Proof. unfold load_tree. rewrite below_app. reflexivity. Qed.

Lemma load_out t p o c keep q : ~ leads_to p q -> load_tree t p o c keep q = t q.
Proof.
  intro N. unfold load_tree. destruct (below p q) as [r|] eqn:B; [|reflexivity].
  exfalso. apply N. exists r. exact (below_some _ _ _ B).
Qed.

Lemma load_none t p o c keep r :
  load_tree t p o c keep (p ++ r) = None <-> comp_at c r = None.
Proof.
  rewrite load_under. destruct (comp_at c r); [|split; reflexivity].
  destruct (t (p ++ r)) as [[o' old]|]; [destruct (stays keep r)|]; split; discriminate.
Qed.

Lemma device_load s p c keep :
  device s -> s_tree s p <> None ->
  (forall r n, comp_at c r = Some n -> n AName <> Some 0) ->
  device (mkSrv (load_tree (s_tree s) p (s_next s) c keep) (S (s_next s))).
Proof.
  intros (R & CL & LT & NM) P N. split; [|split; [|split]]; cbn [s_tree s_next].
  - destruct p as [|i p].
    + intro E. change (@nil nat) with (@nil nat ++ @nil nat) in E at 2.
      apply load_none in E. discriminate.
    + rewrite load_out; [exact R|]. intro L. apply leads_to_nil in L. discriminate.
  - intros r q L. destruct (leads_dec p q) as [U|U].
    + destruct (leads_dec p r) as [V|V].
      * destruct V as [x ->]. destruct L as [y ->]. rewrite <- app_assoc.
        rewrite !load_none. apply comp_at_app.
      * intros _. rewrite (load_out _ _ _ _ _ _ V).
        destruct (leads_cmp _ _ _ L U) as [W|W]; [|contradiction].
        exact (CL _ _ W P).
    + assert (V : ~ leads_to p r).
      { intro V. apply U. exact (leads_trans _ _ _ V L). }
      rewrite (load_out _ _ _ _ _ _ U), (load_out _ _ _ _ _ _ V). exact (CL _ _ L).
  - intros q o n. destruct (leads_dec p q) as [U|U].
    + destruct U as [x ->]. rewrite load_under.
      destruct (comp_at c x) as [nx|]; [|discriminate].
      destruct (s_tree s (p ++ x)) as [[o' old]|] eqn:E.
      * destruct (stays keep x); intro X; injection X as <- _; [|lia].
        apply LT in E. lia.
      * intro X. injection X as <- _. lia.
    + rewrite (load_out _ _ _ _ _ _ U). intro E. apply LT in E. lia.
  - intros q n [o E]. cbn [s_tree] in E. destruct (leads_dec p q) as [U|U].
    + destruct U as [x ->]. rewrite load_under in E.
      destruct (comp_at c x) as [nx|] eqn:X; [|discriminate].
      pose proof (N _ _ X) as NX.
      destruct (s_tree s (p ++ x)) as [[o' old]|] eqn:E'.
      * destruct (stays keep x); injection E as _ <-; exact NX.
      * injection E as _ <-. exact NX.
    + rewrite (load_out _ _ _ _ _ _ U) in E. apply (NM q). exists o. exact E.
Qed.

Lemma device_step s o : device s -> tame s o -> device (fst (op_step s o)).
Proof.
  intros D T. destruct o as [p a v|p v|p k v|p k v|p i c|p i|p c keep]; cbn [op_step].
  - unfold op_set. destruct (s_tree s p) as [[o n]|] eqn:E; [|exact D].
    destruct T as [TP TN].
    assert (G : a <> SPublic -> device (fst (match n (setter_attr a) with
      | Some w => if Nat.eqb v w then (s, [])
                  else (mkSrv (put_node (s_tree s) p o (set_attr n (setter_attr a) v)) (s_next s),
                        [EAttr p (setter_attr a) v])
      | None => (s, []) end))).
    { intros _. destruct (n (setter_attr a)) as [w|]; [|exact D].
      destruct (Nat.eqb v w); [exact D|]. cbn [fst].
      apply (device_put s p o _ n D E).
      destruct a; cbn [setter_attr]; try (rewrite set_attr_other by discriminate;
        destruct D as (_ & _ & _ & NM); apply (NM p); exists o; exact E).
      rewrite set_attr_same. intro X. injection X as X. exact (TN eq_refl X). }
    destruct a; try (exact (G ltac:(discriminate))). contradiction.
  - unfold op_tags. destruct (s_tree s p) as [[o n]|] eqn:E; [|exact D]. cbn [fst].
    apply (device_put s p o _ n D E). rewrite set_attr_other by discriminate.
    destruct D as (_ & _ & _ & NM). apply (NM p). exists o. exact E.
  - unfold op_status. destruct (s_tree s p) as [[o n]|] eqn:E; [|exact D].
    destruct (n (AStatus k)) as [w|]; [|exact D].
    destruct (Nat.eqb v w); [exact D|]. cbn [fst].
    apply (device_put s p o _ n D E). rewrite set_attr_other by discriminate.
    destruct D as (_ & _ & _ & NM). apply (NM p). exists o. exact E.
  - destruct T.
  - unfold op_add. destruct (s_tree s p) as [x|] eqn:E; [|exact D].
    destruct (s_tree s (p ++ [i])) as [y|] eqn:E'; [exact D|]. cbn [fst].
    destruct T as [TN TP].
    apply device_graft; [exact D|congruence|exact E'|exact TN].
  - unfold op_remove. destruct (s_tree s (p ++ [i])); [|exact D]. cbn [fst].
    apply device_prune. exact D.
  - unfold op_update. destruct (s_tree s p) as [x|] eqn:E; [|exact D]. cbn [fst].
    destruct T as (TN & TP & TK). apply device_load; [exact D|congruence|exact TN].
Qed.
