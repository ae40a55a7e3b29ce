From Coq Require Import List Arith Bool Lia.
From Verif Require Import CMir_Model CMir_Spec CMir_Proofs.
Import ListNotations.

(** ** Objects keep their numbers *)

Lemma step_next s o : s_next s <= s_next (fst (op_step s o)).
Proof.
  destruct o as [p a v|p v|p k v|p k v|p i c|p i|p c keep]; cbn [op_step].
  - unfold op_set. destruct (s_tree s p) as [[o n]|]; [|cbn [fst]; lia].
    destruct a, (n _) as [w|]; try (cbn [fst s_next]; lia);
      destruct (Nat.eqb v w); cbn [fst s_next]; lia.
  - unfold op_tags. destruct (s_tree s p) as [[o n]|]; cbn [fst s_next]; lia.
  - unfold op_status. destruct (s_tree s p) as [[o n]|]; [|cbn [fst]; lia].
    destruct (n (AStatus k)) as [w|]; [|cbn [fst]; lia].
    destruct (Nat.eqb v w); cbn [fst s_next]; lia.
  - unfold op_add_status. destruct (s_tree s p) as [[o n]|]; [|cbn [fst]; lia].
    destruct (n (AStatus k)) as [w|]; cbn [fst s_next]; lia.
  - unfold op_add. destruct (s_tree s p); [|cbn [fst]; lia].
    destruct (s_tree s (p ++ [i])); cbn [fst s_next]; lia.
  - unfold op_remove. destruct (s_tree s (p ++ [i])); cbn [fst s_next]; lia.
  - unfold op_update. destruct (s_tree s p); cbn [fst s_next]; lia.
Qed.

(** What a tame step can do. *)
Inductive change (s : srv) : srv -> Prop :=
| ChNone : change s s
| ChPut p o n n' : s_tree s p = Some (o, n) -> n' APublic = n APublic ->
    change s (mkSrv (put_node (s_tree s) p o n') (s_next s))
| ChAdd p i c : s_tree s p <> None -> s_tree s (p ++ [i]) = None ->
    change s (mkSrv (graft (s_tree s) (p ++ [i]) (s_next s) c) (S (s_next s)))
| ChRemove a : change s (mkSrv (prune (s_tree s) a) (s_next s))
| ChLoad p c keep : s_tree s p <> None ->
    change s (mkSrv (load_tree (s_tree s) p (s_next s) c keep) (S (s_next s))).

Lemma step_change s o : tame s o -> change s (fst (op_step s o)).
Proof.
  intro T. destruct o as [p a v|p v|p k v|p k v|p i c|p i|p c keep]; cbn [op_step].
  - unfold op_set. destruct (s_tree s p) as [[o n]|] eqn:E; [|apply ChNone].
    destruct T as [TP _].
    destruct a; [| | | |contradiction];
      (cbn [setter_attr];
       match goal with |- context [n ?k] => destruct (n k) as [w|]; [|apply ChNone] end;
       destruct (Nat.eqb v w); [apply ChNone|]; cbn [fst];
       apply (ChPut s p o n); [exact E|apply set_attr_other; discriminate]).
  - unfold op_tags. destruct (s_tree s p) as [[o n]|] eqn:E; [|apply ChNone].
    apply (ChPut s p o n); [exact E|apply set_attr_other; discriminate].
  - unfold op_status. destruct (s_tree s p) as [[o n]|] eqn:E; [|apply ChNone].
    destruct (n (AStatus k)) as [w|]; [|apply ChNone].
    destruct (Nat.eqb v w); [apply ChNone|].
    apply (ChPut s p o n); [exact E|apply set_attr_other; discriminate].
  - destruct T.
  - unfold op_add. destruct (s_tree s p) as [x|] eqn:E; [|apply ChNone].
    destruct (s_tree s (p ++ [i])) as [y|] eqn:E'; [apply ChNone|].
    apply ChAdd; [congruence|exact E'].
  - unfold op_remove. destruct (s_tree s (p ++ [i])); [apply ChRemove|apply ChNone].
  - unfold op_update. destruct (s_tree s p) as [x|] eqn:E; [|apply ChNone].
    apply ChLoad. congruence.
Qed.

Lemma change_old s s1 q o :
  change s s1 -> oid (s_tree s1) q = Some o -> o < s_next s ->
  oid (s_tree s) q = Some o.
Proof.
  intros [|p o' n n' E P|p i c E A|a|p c keep E]; cbn [s_tree].
  - intros X _. exact X.
  - rewrite (put_oid _ _ _ _ n q E). intros X _. exact X.
  - destruct (leads_dec (p ++ [i]) q) as [U|U].
    + destruct U as [r ->]. unfold oid. rewrite graft_under.
      destruct (comp_at c r); [|discriminate]. intro X. injection X as <-. lia.
    + unfold oid. rewrite (graft_out _ _ _ _ _ U). intros X _. exact X.
  - destruct (leads_dec a q) as [U|U]; unfold oid.
    + rewrite (prune_in _ _ _ U). discriminate.
    + rewrite (prune_out _ _ _ U). intros X _. exact X.
  - destruct (leads_dec p q) as [U|U]; unfold oid.
    + destruct U as [r ->]. rewrite load_under.
      destruct (comp_at c r); [|discriminate].
      destruct (s_tree s (p ++ r)) as [[o' old]|].
      * destruct (stays keep r); [intros X _; exact X|].
        intro X. injection X as <-. lia.
      * intro X. injection X as <-. lia.
    + rewrite (load_out _ _ _ _ _ _ U). intros X _. exact X.
Qed.

Lemma change_pub s s1 q o :
  device s -> change s s1 -> oid (s_tree s) q = Some o -> oid (s_tree s1) q = Some o ->
  att (s_tree s) q APublic = att (s_tree s1) q APublic.
Proof.
  intros (R & CL & LT & NM).
  assert (LO : forall x, oid (s_tree s) x = Some o -> o < s_next s).
  { intros x X. unfold oid in X. destruct (s_tree s x) as [[o1 n1]|] eqn:E1; [|discriminate].
    injection X as <-. exact (LT _ _ _ E1). }
  intros [|p o' n n' E P|p i c E A|a|p c keep E]; cbn [s_tree]; intros X Y.
  - reflexivity.
  - unfold att. destruct (list_eq_dec Nat.eq_dec q p) as [->|N].
    + rewrite put_node_same, E. symmetry. exact P.
    + rewrite (put_node_other _ _ _ _ _ N). reflexivity.
  - destruct (leads_dec (p ++ [i]) q) as [U|U].
    + exfalso. apply (CL (p ++ [i]) q U); [|exact A].
      intro Z. unfold oid in X. rewrite Z in X. discriminate.
    + unfold att. rewrite (graft_out _ _ _ _ _ U). reflexivity.
  - destruct (leads_dec a q) as [U|U].
    + exfalso. unfold oid in Y. rewrite (prune_in _ _ _ U) in Y. discriminate.
    + unfold att. rewrite (prune_out _ _ _ U). reflexivity.
  - destruct (leads_dec p q) as [U|U].
    + pose proof (LO q X) as LX. destruct U as [r ->]. unfold oid in X, Y. unfold att.
      rewrite load_under in Y |- *.
      destruct (comp_at c r) as [nc|]; [|discriminate].
      destruct (s_tree s (p ++ r)) as [[o' old]|]; [|discriminate].
      destruct (stays keep r); [reflexivity|].
      exfalso. injection Y as Y. lia.
    + unfold att. rewrite (load_out _ _ _ _ _ _ U). reflexivity.
Qed.

Lemma run_cons s o os :
  fst (op_run s (o :: os)) = fst (op_run (fst (op_step s o)) os) /\
  snd (op_run s (o :: os)) = snd (op_step s o) ++ snd (op_run (fst (op_step s o)) os).
Proof.
  cbn [op_run]. destruct (op_step s o) as [s1 e1]. cbn [fst snd].
  destruct (op_run s1 os) as [s2 e2]. split; reflexivity.
Qed.

Lemma run_next s os : s_next s <= s_next (fst (op_run s os)).
Proof.
  revert s. induction os as [|o os IH]; intro s; [cbn [op_run fst]; lia|].
  rewrite (proj1 (run_cons s o os)). pose proof (step_next s o).
  pose proof (IH (fst (op_step s o))). lia.
Qed.

Lemma run_old s os q o :
  tame_all s os -> oid (s_tree (fst (op_run s os))) q = Some o -> o < s_next s ->
  oid (s_tree s) q = Some o.
Proof.
  revert s. induction os as [|x os IH]; intros s T X L; [exact X|].
  rewrite (proj1 (run_cons s x os)) in X. destruct T as [T1 T2].
  apply (change_old s (fst (op_step s x))); [exact (step_change s x T1)| |exact L].
  apply IH; [exact T2|exact X|]. pose proof (step_next s x). lia.
Qed.

Lemma run_pub s os q o :
  device s -> tame_all s os -> oid (s_tree s) q = Some o ->
  oid (s_tree (fst (op_run s os))) q = Some o ->
  att (s_tree s) q APublic = att (s_tree (fst (op_run s os))) q APublic.
Proof.
  revert s. induction os as [|x os IH]; intros s D T X Y; [reflexivity|].
  rewrite (proj1 (run_cons s x os)) in Y |- *. destruct T as [T1 T2].
  assert (LX : o < s_next s).
  { destruct D as (_ & _ & LT & _). unfold oid in X.
    destruct (s_tree s q) as [[o1 n1]|] eqn:E1; [|discriminate].
    injection X as <-. exact (LT _ _ _ E1). }
  assert (M : oid (s_tree (fst (op_step s x))) q = Some o).
  { apply (run_old _ os); [exact T2|exact Y|]. pose proof (step_next s x). lia. }
  transitivity (att (s_tree (fst (op_step s x))) q APublic).
  - apply (change_pub s _ q o); [exact D|exact (step_change s x T1)|exact X|exact M].
  - apply IH; [exact (device_step s x D T1)|exact T2|exact M|exact Y].
Qed.

Lemma device_run s os : device s -> tame_all s os -> device (fst (op_run s os)).
Proof.
  revert s. induction os as [|x os IH]; intros s D T; [exact D|].
  rewrite (proj1 (run_cons s x os)). destruct T as [T1 T2].
  apply IH; [exact (device_step s x D T1)|exact T2].
Qed.

(** ** Hidden now and in the end *)

Definition same_pub (t f : tree) : Prop :=
  forall q o, oid t q = Some o -> oid f q = Some o ->
              att t q APublic = att f q APublic.

Definition rooted (t : tree) : Prop :=
  forall r q, leads_to r q -> t q <> None -> t r <> None.

Lemma att_has t q n k : has t q n -> att t q k = n k.
Proof. intros [o E]. unfold att. rewrite E. reflexivity. Qed.

Lemma calm_oid t f q :
  t q <> None -> calm t f q -> exists o, oid t q = Some o /\ oid f q = Some o.
Proof.
  intros E K. destruct (oid t q) as [o|] eqn:O.
  - exists o. split; [reflexivity|]. rewrite <- (K q (leads_refl q)); [exact O|congruence].
  - apply oid_none in O. contradiction.
Qed.

Lemma hidden_final t f q :
  rooted t -> same_pub t f -> t q <> None -> calm t f q ->
  (hidden t q <-> hidden f q).
Proof.
  intros RT SP E K.
  assert (Z : forall r, leads_to r q -> exists nt nf, has t r nt /\ has f r nf /\ nt APublic = nf APublic).
  { intros r L. pose proof (RT r q L E) as ER.
    destruct (calm_oid t f r ER (calm_up _ _ _ _ L K)) as (o & O1 & O2).
    pose proof (SP r o O1 O2) as P. unfold oid in O1, O2.
    destruct (t r) as [[o1 n1]|] eqn:T1; [|discriminate].
    destruct (f r) as [[o2 n2]|] eqn:F2; [|discriminate].
    exists n1, n2. split; [exists o1; exact T1|]. split; [exists o2; exact F2|].
    unfold att in P. rewrite T1, F2 in P. exact P. }
  split; intros (r & n & NE & L & H & P); destruct (Z r L) as (nt & nf & HT & HF & EQ).
  - exists r, nf. split; [exact NE|]. split; [exact L|]. split; [exact HF|].
    unfold private in *. rewrite <- EQ, (has_fun _ _ _ _ HT H). exact P.
  - exists r, nt. split; [exact NE|]. split; [exact L|]. split; [exact HT|].
    unfold private in *. rewrite EQ, (has_fun _ _ _ _ HF H). exact P.
Qed.

Lemma final_node t f q :
  t q <> None -> calm t f q -> f q <> None.
Proof.
  intros E K. destruct (calm_oid t f q E K) as (o & _ & O).
  intro X. unfold oid in O. rewrite X in O. discriminate.
Qed.

(** ** One component changes *)

Lemma put_has_other t p o n q m : q <> p -> has (put_node t p o n) q m <-> has t q m.
Proof. intro N. unfold has. rewrite (put_node_other _ _ _ _ _ N). reflexivity. Qed.

Lemma put_calm t f p o n m q :
  t p = Some (o, m) -> calm (put_node t p o n) f q <-> calm t f q.
Proof.
  intro E. unfold calm. split; intros K r L; specialize (K r L);
    rewrite (put_oid _ _ _ _ _ r E) in *; exact K.
Qed.

Lemma put_hidden t p o n m q :
  t p = Some (o, m) -> n APublic = m APublic ->
  hidden (put_node t p o n) q <-> hidden t q.
Proof.
  intros E P. split; intros (r & x & NE & L & H & PR).
  - destruct (list_eq_dec Nat.eq_dec r p) as [->|N].
    + destruct H as [o' H]. rewrite put_node_same in H. injection H as _ <-.
      exists p, m. split; [exact NE|]. split; [exact L|]. split; [exists o; exact E|].
      unfold private in *. rewrite <- P. exact PR.
    + exists r, x. split; [exact NE|]. split; [exact L|].
      split; [apply (put_has_other t p o n r x N) in H; exact H|exact PR].
  - destruct (list_eq_dec Nat.eq_dec r p) as [->|N].
    + destruct H as [o' H]. rewrite E in H. injection H as _ <-.
      exists p, n. split; [exact NE|]. split; [exact L|].
      split; [exists o; apply put_node_same|].
      unfold private in *. rewrite P. exact PR.
    + exists r, x. split; [exact NE|]. split; [exact L|].
      split; [apply (put_has_other t p o n r x N); exact H|exact PR].
Qed.

Lemma between_put c c1 t f p o n n' :
  rooted t -> between c t f -> t p = Some (o, n) -> n' APublic = n APublic ->
  (forall q, q <> p -> c1 q = c q) ->
  (c p = None -> c1 p = None) ->
  (forall m, c p = Some m -> exists m', c1 p = Some m' /\
     (calm t f p -> (forall k, m k = n k \/ m k = att f p k) ->
      forall k, m' k = n' k \/ m' k = att f p k)) ->
  between c1 (put_node t p o n') f.
Proof.
  intros RT B E P OTH NONE SOME.
  assert (EX : forall q, c1 q = None <-> c q = None).
  { intro q. destruct (list_eq_dec Nat.eq_dec q p) as [->|N].
    - split; [|exact NONE]. intro X. destruct (c p) as [m|] eqn:C; [|reflexivity].
      destruct (SOME m eq_refl) as (m' & M & _). congruence.
    - rewrite (OTH q N). reflexivity. }
  assert (EX' : forall q, put_node t p o n' q = None <-> t q = None).
  { intro q. apply oid_same_none. exact (put_oid _ _ _ _ _ q E). }
  split.
  - intros r q L X Y. apply EX in Y. apply (b_closed _ _ _ B r q L); [|exact Y].
    intro Z. apply X. apply EX. exact Z.
  - intros q x H K NH. rewrite (put_calm _ _ _ _ _ _ _ E) in K.
    rewrite (put_hidden _ _ _ _ _ _ E P) in NH.
    destruct (list_eq_dec Nat.eq_dec q p) as [->|N].
    + destruct H as [o' H]. rewrite put_node_same in H. injection H as _ <-.
      destruct (b_shown _ _ _ B p n (ex_intro _ o E) K NH) as (m & CM & V).
      destruct (SOME m CM) as (m' & CM' & W). exists m'. split; [exact CM'|].
      exact (W K V).
    + apply (put_has_other t p o n' q x N) in H. rewrite (OTH q N).
      exact (b_shown _ _ _ B q x H K NH).
  - intros q X K H. rewrite (put_calm _ _ _ _ _ _ _ E) in K.
    rewrite (put_hidden _ _ _ _ _ _ E P) in H. apply EX.
    apply (b_hidden _ _ _ B q); [|exact K|exact H]. intro Z. apply X. apply EX'. exact Z.
  - intros q X K C q' L. rewrite (put_calm _ _ _ _ _ _ _ E) in K. apply EX' in X.
    assert (N : q' <> p).
    { intros ->. apply (RT q p L); [congruence|exact X]. }
    rewrite (OTH q' N). apply (b_future _ _ _ B q X K); [|exact L].
    intro Z. apply C. apply EX. exact Z.
Qed.

(** A change of the mirror at one path only. *)
Definition upd1 (c : mirror) (p : path) (m : node) : mirror :=
  fun q => if path_eqb q p then Some m else c q.

Lemma upd1_same c p m : upd1 c p m p = Some m.
Proof. unfold upd1. rewrite path_eqb_refl. reflexivity. Qed.

Lemma upd1_other c p m q : q <> p -> upd1 c p m q = c q.
Proof. intro N. unfold upd1. rewrite (path_eqb_neq _ _ N). reflexivity. Qed.

Lemma between_attr c t f p o n k v :
  rooted t -> between c t f -> t p = Some (o, n) ->
  (k = AName \/ k = ADesc \/ k = AVisible \/ k = AActive) ->
  between (cl_attr c p k v) (put_node t p o (set_attr n k v)) f.
Proof.
  intros RT B E K.
  apply (between_put c _ t f p o n); [exact RT|exact B|exact E| | | |].
  - apply set_attr_other. destruct K as [->|[->|[->| ->]]]; discriminate.
  - intros q N. unfold cl_attr. destruct (c p); [|reflexivity].
    destruct K as [->|[->|[->| ->]]]; exact (upd1_other c p _ q N).
  - intro N. unfold cl_attr. rewrite N. exact N.
  - intros m M. exists (set_attr m k v). split.
    + unfold cl_attr. rewrite M.
      destruct K as [->|[->|[->| ->]]]; exact (upd1_same c p _).
    + intros _ V k'. destruct (attr_eq_dec k' k) as [->|N].
      * left. rewrite !set_attr_same. reflexivity.
      * rewrite !(set_attr_other _ _ _ _ N). exact (V k').
Qed.

Lemma between_tags c t f gone p o n v :
  rooted t -> between c t f -> t p = Some (o, n) ->
  between (cl_event f gone c (ETags p o)) (put_node t p o (set_attr n ATags v)) f.
Proof.
  intros RT B E. cbn [cl_event].
  remember (match content f gone p o p with Some n0 => n0 ATags | None => None end) as w eqn:W.
  assert (F : calm t f p -> w = att f p ATags).
  { intro K. destruct (calm_oid t f p ltac:(congruence) K) as (o' & O1 & O2).
    unfold oid in O1, O2. rewrite E in O1. injection O1 as <-.
    subst w. unfold content, att. destruct (f p) as [[o2 n2]|] eqn:FP; [|discriminate].
    injection O2 as ->. rewrite Nat.eqb_refl. unfold nodes. rewrite FP. reflexivity. }
  apply (between_put c _ t f p o n); [exact RT|exact B|exact E| | | |].
  - apply set_attr_other. discriminate.
  - intros q N. unfold cl_tags. destruct (c p); [|reflexivity].
    exact (upd1_other c p _ q N).
  - intro N. unfold cl_tags. rewrite N. exact N.
  - intros m M. unfold cl_tags. rewrite M.
    exists (fun k => if attr_eq_dec k ATags then w else m k).
    split; [exact (upd1_same c p _)|].
    intros K V k'. destruct (attr_eq_dec k' ATags) as [->|N].
    + right. exact (F K).
    + rewrite (set_attr_other _ _ _ _ N). exact (V k').
Qed.

Lemma between_status c t f p o n k v w :
  rooted t -> between c t f -> t p = Some (o, n) -> n (AStatus k) = Some w ->
  between (cl_status c p k v) (put_node t p o (set_attr n (AStatus k) v)) f.
Proof.
  intros RT B E W.
  apply (between_put c _ t f p o n); [exact RT|exact B|exact E| | | |].
  - apply set_attr_other. discriminate.
  - intros q N. unfold cl_status. destruct (c p) as [m|]; [|reflexivity].
    destruct (m (AStatus k)); [|reflexivity]. exact (upd1_other c p _ q N).
  - intro N. unfold cl_status. rewrite N. exact N.
  - intros m M. unfold cl_status. rewrite M.
    destruct (m (AStatus k)) as [x|] eqn:X.
    + exists (set_attr m (AStatus k) v). split; [exact (upd1_same c p _)|].
      intros _ V k'. destruct (attr_eq_dec k' (AStatus k)) as [->|N].
      * left. rewrite !set_attr_same. reflexivity.
      * rewrite !(set_attr_other _ _ _ _ N). exact (V k').
    + exists m. split; [exact M|]. intros _ V k'.
      destruct (attr_eq_dec k' (AStatus k)) as [->|N].
      * right. destruct (V (AStatus k)) as [Y|Y]; [|exact Y]. congruence.
      * rewrite (set_attr_other _ _ _ _ N). exact (V k').
Qed.

(** ** A component is added *)

Lemma removelast_snoc (p : path) i : removelast (p ++ [i]) = p.
Proof. apply removelast_last. Qed.

Lemma calm_out t t1 f a q :
  (forall x, ~ leads_to a x -> t1 x = t x) -> ~ leads_to a q ->
  calm t1 f q <-> calm t f q.
Proof.
  intros OUT N. unfold calm.
  assert (Z : forall r, leads_to r q -> oid t1 r = oid t r).
  { intros r L. unfold oid. rewrite OUT; [reflexivity|].
    intro U. apply N. exact (leads_trans _ _ _ U L). }
  split; intros K r L; specialize (K r L); rewrite (Z r L) in *; exact K.
Qed.

Lemma hidden_out t t1 a q :
  (forall x, ~ leads_to a x -> t1 x = t x) -> ~ leads_to a q ->
  hidden t1 q <-> hidden t q.
Proof.
  intros OUT N.
  assert (Z : forall r, leads_to r q -> t1 r = t r).
  { intros r L. apply OUT. intro U. apply N. exact (leads_trans _ _ _ U L). }
  split; intros (r & n & NE & L & [o H] & P); exists r, n;
    (split; [exact NE|]); (split; [exact L|]); (split; [|exact P]); exists o;
    rewrite (Z r L) in *; exact H.
Qed.

(** Everything outside [a] is as before: it is enough to look inside. *)
Lemma between_local c c1 t t1 f a :
  rooted t -> between c t f ->
  (forall x, ~ leads_to a x -> t1 x = t x) ->
  (forall x, ~ leads_to a x -> c1 x = c x) ->
  (forall r, leads_to r a -> r <> a -> t r <> None) ->
  closed c1 ->
  (forall q n, leads_to a q -> has t1 q n -> calm t1 f q -> ~ hidden t1 q ->
     exists m, c1 q = Some m /\ forall k, m k = n k \/ m k = att f q k) ->
  (forall q, leads_to a q -> t1 q <> None -> calm t1 f q -> hidden t1 q -> c1 q = None) ->
  (forall q, leads_to a q -> t1 q = None -> calm t1 f q -> c1 q <> None ->
     forall q', leads_to q q' -> vnode f q' (c1 q')) ->
  between c1 t1 f.
Proof.
  intros RT B OT OC UP CL IA IH ID. split.
  - exact CL.
  - intros q n H K NH. destruct (leads_dec a q) as [U|U]; [exact (IA q n U H K NH)|].
    rewrite (calm_out t t1 f a q OT U) in K. rewrite (hidden_out t t1 a q OT U) in NH.
    rewrite (OC q U). apply (b_shown _ _ _ B q n); [|exact K|exact NH].
    destruct H as [o H]. exists o. rewrite <- (OT q U). exact H.
  - intros q X K H. destruct (leads_dec a q) as [U|U]; [exact (IH q U X K H)|].
    rewrite (calm_out t t1 f a q OT U) in K. rewrite (hidden_out t t1 a q OT U) in H.
    rewrite (OC q U). rewrite (OT q U) in X. exact (b_hidden _ _ _ B q X K H).
  - intros q X K C q' L. destruct (leads_dec a q) as [U|U]; [exact (ID q U X K C q' L)|].
    rewrite (calm_out t t1 f a q OT U) in K. rewrite (OT q U) in X. rewrite (OC q U) in C.
    assert (V : ~ leads_to a q').
    { intro V. destruct (leads_cmp _ _ _ L V) as [W|W]; [|contradiction].
      apply (UP q W); [|exact X]. intros ->. apply U. apply leads_refl. }
    rewrite (OC q' V). exact (b_future _ _ _ B q X K C q' L).
Qed.

Lemma between_add c s f gone p i k :
  device s -> rooted f -> (forall q n, has f q n -> n AName <> Some 0) ->
  between c (s_tree s) f ->
  s_tree s p <> None -> s_tree s (p ++ [i]) = None ->
  (forall n, comp_at k [] = Some n -> ~ private n) ->
  same_pub (graft (s_tree s) (p ++ [i]) (s_next s) k) f ->
  between (cl_event f gone c (EAdded (p ++ [i]) (s_next s)))
          (graft (s_tree s) (p ++ [i]) (s_next s) k) f.
Proof.
  intros D RF NF B EP EA NP SP.
  destruct D as (R & RT & LT & NM).
  set (a := p ++ [i]) in *. set (o := s_next s) in *.
  set (t := s_tree s) in *. set (t1 := graft t a o k) in *.
  assert (OT : forall x, ~ leads_to a x -> t1 x = t x) by (intros x N; exact (graft_out t a o k x N)).
  assert (T1A : exists n, t1 a = Some (o, n) /\ ~ private n).
  { exists (comp_node k). split; [|apply NP; reflexivity].
    unfold t1. rewrite <- (app_nil_r a) at 2. rewrite graft_under. reflexivity. }
  destruct T1A as (na & T1A & NPA).
  assert (R1 : rooted t1).
  { intros r q L X. destruct (leads_dec a q) as [U|U].
    - destruct (leads_dec a r) as [V|V].
      + destruct V as [x ->]. destruct L as [y ->]. unfold t1 in *.
        rewrite <- app_assoc in X. rewrite graft_under in *.
        assert (Q : comp_at k (x ++ y) <> None).
        { destruct (comp_at k (x ++ y)); [discriminate|exfalso; apply X; reflexivity]. }
        apply comp_at_app in Q. destruct (comp_at k x); [discriminate|contradiction].
      + rewrite (OT r V). destruct (leads_cmp _ _ _ L U) as [W|W]; [|contradiction].
        apply leads_snoc in W. destruct W as [->|W]; [exfalso; apply V; apply leads_refl|].
        exact (RT r p W EP).
    - assert (V : ~ leads_to a r) by (intro V; apply U; exact (leads_trans _ _ _ V L)).
      rewrite (OT q U) in X. rewrite (OT r V). exact (RT r q L X). }
  cbn [cl_event]. set (c1 := cl_added c a (content f gone a o)).
  assert (OC : forall x, ~ leads_to a x -> c1 x = c x).
  { intros x N. unfold c1, cl_added. destruct (c (removelast a)); [|reflexivity].
    destruct (c a); [reflexivity|].
    destruct (below a x) as [r|] eqn:BX; [|reflexivity].
    exfalso. apply N. exists r. exact (below_some _ _ _ BX). }
  (* calm under a means: the new component stays, and its parent does *)
  assert (KA : forall q, leads_to a q -> calm t1 f q ->
               oid f a = Some o /\ calm t f p /\ calm t f a).
  { intros q U K. split.
    - rewrite <- (K a U); [unfold oid; rewrite T1A; reflexivity|].
      unfold oid. rewrite T1A. discriminate.
    - assert (Z : calm t f p).
      { apply (calm_out t t1 f a p OT).
        - intros [y Y]. unfold a in Y. rewrite <- app_assoc in Y.
          rewrite <- (app_nil_r p) in Y at 1. apply app_inv_head in Y. discriminate.
        - apply (calm_up t1 f p q); [|exact K].
          apply (leads_trans p a q); [exists [i]; reflexivity|exact U]. }
      split; [exact Z|]. intros r L X. apply leads_snoc in L. destruct L as [->|L].
      + exfalso. apply X. apply oid_none. exact EA.
      + exact (Z r L X). }
  (* then the mirror shows the final tree under a, unless it is hidden *)
  assert (MAIN : forall q, leads_to a q -> calm t1 f q ->
             (hidden t p /\ forall q', leads_to a q' -> c1 q' = None) \/
             (~ hidden t p /\ forall q', leads_to a q' -> vnode f q' (c1 q'))).
  { intros q U K. destruct (KA q U K) as (FA & KP & KT).
    destruct (hidden_dec t p) as [HP|HP].
    - left. split; [exact HP|]. intros q' U'.
      pose proof (b_hidden _ _ _ B p EP KP HP) as CP.
      assert (C1 : c1 = c).
      { unfold c1, cl_added, a. rewrite removelast_snoc, CP. reflexivity. }
      rewrite C1. destruct (c q') as [m|] eqn:CQ; [|reflexivity]. exfalso.
      apply (b_closed _ _ _ B p q'); [|congruence|exact CP].
      apply (leads_trans p a q'); [exists [i]; reflexivity|exact U'].
    - right. split; [exact HP|]. intros q' U'.
      destruct (has_some t p EP) as [np HNP].
      destruct (b_shown _ _ _ B p np HNP KP HP) as (m & CP & _).
      destruct (c a) as [ma|] eqn:CA.
      + assert (C1 : c1 = c).
        { unfold c1, cl_added, a. rewrite removelast_snoc, CP.
          fold a. rewrite CA. reflexivity. }
        rewrite C1. apply (b_future _ _ _ B a EA KT); [congruence|exact U'].
      + assert (NHF : ~ hidden f a).
        { intro H. assert (KA1 : calm t1 f a) by exact (calm_up t1 f a q U K).
          apply (proj2 (hidden_final t1 f a R1 SP ltac:(congruence) KA1)) in H.
          destruct H as (r & x & NE & L & HX & PX).
          apply leads_snoc in L. destruct L as [->|L].
          - fold a in HX. destruct HX as [o' HX]. rewrite T1A in HX. injection HX as _ <-.
            contradiction.
          - apply HP. exists r, x. split; [exact NE|]. split; [exact L|]. split; [|exact PX].
            destruct HX as [o' HX]. exists o'. rewrite <- (OT r); [exact HX|].
            intros [y Y]. destruct L as [z Z]. rewrite Y in Z. unfold a in Z.
            rewrite <- !app_assoc in Z. rewrite <- (app_nil_r p) in Z at 1.
            apply app_inv_head in Z. discriminate. }
        assert (CQ : c1 q' = fresh_at (nodes f) a q').
        { unfold c1, cl_added, a. rewrite removelast_snoc, CP. fold a. rewrite CA.
          destruct U' as [y ->]. rewrite below_app.
          unfold content. unfold oid in FA.
          destruct (f a) as [[o2 n2]|]; [|discriminate]. injection FA as ->.
          rewrite Nat.eqb_refl. reflexivity. }
        rewrite CQ. apply fresh_vnode; [exact RF|exact NF| |exact NHF|exact U'].
        intro X. unfold oid in FA. rewrite X in FA. discriminate. }
  apply (between_local c c1 t t1 f a RT B OT OC).
  - intros r L N. apply leads_snoc in L. destruct L as [->|L]; [contradiction|].
    exact (RT r p L EP).
  - (* closed *)
    intros r q L X. unfold c1, cl_added in *.
    destruct (c (removelast a)) as [m|] eqn:CP; [|exact (b_closed _ _ _ B r q L X)].
    destruct (c a) as [ma|] eqn:CA; [exact (b_closed _ _ _ B r q L X)|].
    destruct (below a q) as [y|] eqn:BQ.
    + pose proof (below_some _ _ _ BQ) as YQ.
      assert (U : leads_to a q) by (exists y; exact YQ).
      destruct (below a r) as [z|] eqn:BR.
      * apply (fresh_closed _ a r q); [|exact L|exact X].
        exists z. exact (below_some _ _ _ BR).
      * pose proof (below_none _ _ BR) as V.
        destruct (leads_cmp _ _ _ L U) as [W|W]; [|contradiction].
        apply leads_snoc in W. destruct W as [->|W]; [exfalso; apply V; apply leads_refl|].
        apply (b_closed _ _ _ B r p W). unfold a in CP. rewrite removelast_snoc in CP. congruence.
    + pose proof (below_none _ _ BQ) as U.
      destruct (below a r) as [z|] eqn:BR.
      * exfalso. apply U. apply (leads_trans a r q); [|exact L].
        exists z. exact (below_some _ _ _ BR).
      * exact (b_closed _ _ _ B r q L X).
  - intros q n U H K NH. destruct (MAIN q U K) as [[HP _]|[HP V]].
    + exfalso. apply NH. apply (hidden_down t1 p q).
      * apply (leads_trans p a q); [exists [i]; reflexivity|exact U].
      * apply (hidden_out t t1 a p OT); [|exact HP].
        intros [y Y]. unfold a in Y. rewrite <- app_assoc in Y.
        rewrite <- (app_nil_r p) in Y at 1. apply app_inv_head in Y. discriminate.
    + assert (T1Q : t1 q <> None) by (destruct H as [x H]; congruence).
      pose proof (final_node t1 f q T1Q K) as FQ.
      destruct (has_some f q FQ) as [nf HF].
      assert (NHF : ~ hidden f q).
      { intro X. apply NH. apply (hidden_final t1 f q R1 SP T1Q K). exact X. }
      destruct (proj1 (V q U) nf HF NHF) as (m & CM & MV).
      exists m. split; [exact CM|]. intro k'. right. rewrite (att_has _ _ _ _ HF). exact (MV k').
  - intros q U X K H. destruct (MAIN q U K) as [[_ V]|[HP V]]; [exact (V q U)|].
    apply (proj2 (V q U)). right. apply (hidden_final t1 f q R1 SP X K). exact H.
  - intros q U X K C q' L. destruct (MAIN q U K) as [[_ V]|[HP V]].
    + exfalso. apply C. exact (V q U).
    + apply V. exact (leads_trans _ _ _ U L).
Qed.

(** ** A component is removed *)

Lemma removed_in c a q : leads_to a q -> cl_removed c a q = None.
Proof. intros [r ->]. unfold cl_removed. rewrite below_app. reflexivity. Qed.

Lemma removed_out c a q : ~ leads_to a q -> cl_removed c a q = c q.
Proof.
  intro N. unfold cl_removed. destruct (below a q) as [r|] eqn:B; [|reflexivity].
  exfalso. apply N. exists r. exact (below_some _ _ _ B).
Qed.

Lemma between_remove c t f a :
  rooted t -> between c t f -> t a <> None ->
  between (cl_removed c a) (prune t a) f.
Proof.
  intros RT B E.
  apply (between_local c _ t _ f a RT B).
  - intros x N. apply prune_out. exact N.
  - intros x N. apply removed_out. exact N.
  - intros r L _. exact (RT r a L E).
  - intros r q L X. destruct (leads_dec a q) as [U|U].
    + rewrite (removed_in _ _ _ U) in X. exfalso. apply X. reflexivity.
    + assert (V : ~ leads_to a r) by (intro V; apply U; exact (leads_trans _ _ _ V L)).
      rewrite (removed_out _ _ _ U) in X. rewrite (removed_out _ _ _ V).
      exact (b_closed _ _ _ B r q L X).
  - intros q n U [o H]. rewrite (prune_in _ _ _ U) in H. discriminate.
  - intros q U X. exfalso. apply X. exact (prune_in _ _ _ U).
  - intros q U _ _ C. exfalso. apply C. exact (removed_in _ _ _ U).
Qed.
