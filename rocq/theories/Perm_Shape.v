From Coq Require Import Permutation.
From Verif Require Import Base Perm_Model Perm_Spec Perm_Proofs.

Lemma entries_refresh : forall t p q, entries p (refresh q t) = entries p t.
Proof.
  induction t as [i inh cs e ch IH] using mtree_ind2. intros p q. cbn [refresh entries]. f_equal.
  generalize (effective q inh cs). intros e'. rewrite flat_map_concat_map, map_map, <- flat_map_concat_map.
  induction ch as [|c ch IHc]; [reflexivity|]. inversion IH; subst. cbn [flat_map]. rewrite IHc by assumption. f_equal. destruct (m_inh c); auto.
Qed.

Definition ids (l : list entry) : list nat := map fst l.
Lemma ids_parent : forall t p q, ids (entries p t) = ids (entries q t).
Proof. intros [i inh cs e ch] p q. reflexivity. Qed.

Lemma map_id_on : forall (f : entry -> entry) l, (forall e, In e l -> f e = e) -> map f l = l.
Proof. induction l as [|a l IH]; intros H; [reflexivity|]. cbn. rewrite H by (left; reflexivity). rewrite IH; auto. intros. apply H. right. assumption. Qed.
Lemma with_local_out : forall id inh cs l, ~ In id (ids l) -> map (with_local id inh cs) l = l.
Proof.
  intros. apply map_id_on. intros e He. unfold with_local. destruct (Nat.eqb_spec (fst e) id); [|reflexivity].
  exfalso. apply H. subst. apply in_map. exact He.
Qed.
Lemma with_parent_out : forall id p l, ~ In id (ids l) -> map (with_parent id p) l = l.
Proof.
  intros. apply map_id_on. intros e He. unfold with_parent. destruct (Nat.eqb_spec (fst e) id); [|reflexivity].
  exfalso. apply H. subst. apply in_map. exact He.
Qed.

Lemma NoDup_app_inv : forall {A} (l1 l2 : list A), NoDup (l1 ++ l2) -> NoDup l1 /\ NoDup l2 /\ forall x, In x l1 -> ~ In x l2.
Proof.
  induction l1 as [|a l1 IH]; intros l2 H; [split; [constructor|]; split; [exact H|]; intros x []|].
  inversion H as [|? ? H1 H2]; subst. destruct (IH _ H2) as (A1 & A2 & A3). split; [constructor; [intro; apply H1, in_or_app; auto|assumption]|].
  split; [assumption|]. intros x [->|Hx]; [intro; apply H1, in_or_app; auto|auto].
Qed.
Lemma ids_app : forall a b, ids (a ++ b) = ids a ++ ids b.
Proof. intros. apply map_app. Qed.

Lemma set_local_entries : forall id inh cs t p q, NoDup (ids (entries p t)) ->
  entries p (at_id id (set_local inh cs) q t) = map (with_local id inh cs) (entries p t).
Proof.
  intros id inh cs. induction t as [i inh0 cs0 e ch IH] using mtree_ind2. intros p q HD. cbn [at_id].
  cbn [entries ids map fst] in HD. inversion HD as [|? ? D1 D2]; subst.
  destruct (Nat.eqb_spec i id) as [->|Hi].
  - cbn [set_local]. rewrite entries_refresh. cbn [entries map]. unfold with_local at 1. cbn [fst snd]. rewrite Nat.eqb_refl. f_equal.
    symmetry. apply with_local_out. exact D1.
  - cbn [entries map]. unfold with_local at 1. cbn [fst snd]. destruct (Nat.eqb_spec i id); [contradiction|]. f_equal.
    clear HD D1. rewrite flat_map_concat_map, map_map, <- flat_map_concat_map.
    induction ch as [|c ch IHc]; [reflexivity|]. inversion IH; subst. cbn [flat_map] in *. fold (ids (entries (Some i) c ++ flat_map (entries (Some i)) ch)) in D2.
    rewrite ids_app in D2. apply NoDup_app_inv in D2. destruct D2 as (A1 & A2 & _). rewrite map_app. f_equal; auto.
Qed.

Lemma find_none : forall id t p, find_tree id t = None <-> ~ In id (ids (entries p t)).
Proof.
  intros id. induction t as [i inh cs e ch IH] using mtree_ind2. intros p. cbn [find_tree entries ids map fst In].
  destruct (Nat.eqb_spec i id) as [->|Hi]; [split; [discriminate|intuition]|].
  assert (X : fold_right (fun c r => match find_tree id c with Some x => Some x | None => r end) None ch = None <-> ~ In id (ids (flat_map (entries (Some i)) ch))).
  { induction ch as [|c ch IHc]; [cbn; intuition|]. inversion IH as [|? ? I1 I2]; subst. cbn [fold_right flat_map]. rewrite ids_app, in_app_iff.
    specialize (I1 (Some i)). specialize (IHc I2). destruct (find_tree id c) eqn:E.
    - split; [discriminate|]. intros H. exfalso. destruct I1 as [_ I1]. assert (Some m = None) by (apply I1; tauto). discriminate.
    - rewrite IHc. destruct I1 as [I1 _]. specialize (I1 eq_refl). tauto. }
  unfold ids in X. rewrite X. tauto.
Qed.

(** Adding a child. *)
Lemma add_child_out : forall id c t p q, ~ In id (ids (entries p t)) -> entries p (at_id id (add_child c) q t) = entries p t.
Proof.
  intros id c. induction t as [i inh cs e ch IH] using mtree_ind2. intros p q HN. cbn [entries ids map fst In] in HN. cbn [at_id].
  destruct (Nat.eqb_spec i id) as [->|Hi]; [tauto|]. cbn [entries]. f_equal. assert (HN' : ~ In id (ids (flat_map (entries (Some i)) ch))) by (unfold ids; tauto). clear HN.
  induction ch as [|d ch IHc]; [reflexivity|]. inversion IH; subst. cbn [map flat_map] in *. rewrite ids_app, in_app_iff in HN'. f_equal; [|apply IHc; tauto]. auto.
Qed.
Lemma add_child_in : forall id c t p q, NoDup (ids (entries p t)) -> In id (ids (entries p t)) ->
  Permutation (entries p (at_id id (add_child c) q t)) (entries (Some id) c ++ entries p t).
Proof.
  intros id c. induction t as [i inh cs e ch IH] using mtree_ind2. intros p q HD HI. cbn [entries ids map fst In] in HD, HI. cbn [at_id].
  inversion HD as [|? ? D1 D2]; subst.
  destruct (Nat.eqb_spec i id) as [->|Hi].
  - cbn [add_child entries flat_map]. rewrite entries_refresh. apply Permutation_cons_app. apply Permutation_refl.
  - destruct HI as [HI|HI]; [contradiction|]. cbn [entries]. apply Permutation_cons_app.
    clear HD D1. induction ch as [|d ch IHc]; [contradiction|]. inversion IH as [|? ? I1 I2]; subst. cbn [map flat_map] in *.
    fold (ids (entries (Some i) d ++ flat_map (entries (Some i)) ch)) in D2, HI.
    rewrite ids_app in D2. apply NoDup_app_inv in D2. destruct D2 as (A1 & A2 & A3).
    destruct (in_dec Nat.eq_dec id (ids (entries (Some i) d))) as [E|E].
    + assert (N : ~ In id (ids (flat_map (entries (Some i)) ch))) by (apply A3; exact E).
      rewrite (I1 (Some i) (Some e) A1 E). rewrite <- app_assoc. apply Permutation_app_head. apply Permutation_app_head.
      replace (flat_map (entries (Some i)) (map (at_id id (add_child c) (Some e)) ch)) with (flat_map (entries (Some i)) ch); [reflexivity|].
      clear - N. induction ch as [|d' ch IHc]; [reflexivity|]. cbn [map flat_map] in *. rewrite ids_app, in_app_iff in N.
      rewrite add_child_out by tauto. f_equal. apply IHc. tauto.
    + rewrite ids_app, in_app_iff in HI. destruct HI as [HI|HI]; [contradiction|].
      rewrite add_child_out by exact E. rewrite (IHc I2 HI A2). rewrite !app_assoc. apply Permutation_app_tail. apply Permutation_app_comm.
Qed.

(** Pruning. *)
Lemma find_id : forall id t c, find_tree id t = Some c -> m_id c = id.
Proof.
  intros id. induction t as [i inh cs e ch IH] using mtree_ind2. intros c H. cbn [find_tree] in H.
  destruct (Nat.eqb_spec i id); [injection H as <-; exact e0|].
  induction ch as [|d ch IHc]; [discriminate|]. inversion IH; subst. cbn [fold_right] in H. destruct (find_tree id d) eqn:E; [injection H as <-; auto|auto].
Qed.
Lemma prune_out : forall id t p, ~ In id (ids (entries p t)) -> prune id t = Some t.
Proof.
  intros id. induction t as [i inh cs e ch IH] using mtree_ind2. intros p HN. cbn [entries ids map fst In] in HN. cbn [prune].
  destruct (Nat.eqb_spec i id) as [->|Hi]; [tauto|]. do 2 f_equal. assert (HN' : ~ In id (ids (flat_map (entries (Some i)) ch))) by (unfold ids; tauto). clear HN.
  induction ch as [|d ch IHc]; [reflexivity|]. inversion IH as [|? ? I1 I2]; subst. cbn [fold_right flat_map] in *. rewrite ids_app, in_app_iff in HN'.
  rewrite (I1 (Some i)) by tauto. f_equal. apply IHc; tauto.
Qed.
Definition oentries (p : option nat) (o : option mtree) : list entry := match o with Some t => entries p t | None => [] end.
Lemma prune_in : forall id t p c, NoDup (ids (entries p t)) -> find_tree id t = Some c ->
  exists x, Permutation (entries p t) (entries x c ++ oentries p (prune id t)).
Proof.
  intros id. induction t as [i inh cs e ch IH] using mtree_ind2. intros p c HD HF. cbn [find_tree prune] in *.
  destruct (Nat.eqb_spec i id) as [->|Hi].
  - injection HF as <-. exists p. cbn [oentries]. rewrite app_nil_r. reflexivity.
  - cbn [entries ids map fst] in HD. inversion HD as [|? ? D1 D2]; subst. clear HD D1.
    assert (X : exists x, Permutation (flat_map (entries (Some i)) ch)
       (entries x c ++ flat_map (entries (Some i)) (fold_right (fun c r => match prune id c with Some x => x :: r | None => r end) [] ch))).
    { induction ch as [|d ch IHc]; [discriminate|]. inversion IH as [|? ? I1 I2]; subst. cbn [fold_right flat_map] in *.
      fold (ids (entries (Some i) d ++ flat_map (entries (Some i)) ch)) in D2. rewrite ids_app in D2. apply NoDup_app_inv in D2. destruct D2 as (A1 & A2 & A3).
      destruct (find_tree id d) as [c'|] eqn:E.
      - injection HF as ->. destruct (I1 (Some i) c A1 eq_refl) as (x & HP). exists x.
        assert (Hin : In id (ids (entries (Some i) d))).
        { destruct (in_dec Nat.eq_dec id (ids (entries (Some i) d))) as [Y|N]; [exact Y|]. rewrite <- find_none in N. congruence. }
        assert (K : fold_right (fun c r => match prune id c with Some x => x :: r | None => r end) [] ch = ch).
        { specialize (A3 _ Hin). clear - A3. induction ch as [|d ch IHc]; [reflexivity|]. cbn [fold_right flat_map] in *. rewrite ids_app, in_app_iff in A3.
          rewrite (prune_out id d (Some i)) by tauto. f_equal. apply IHc. tauto. }
        rewrite K, HP. destruct (prune id d); cbn [oentries flat_map]; rewrite <- app_assoc; reflexivity.
      - assert (Hn : ~ In id (ids (entries (Some i) d))) by (rewrite <- find_none; exact E).
        rewrite (prune_out id d (Some i)) by exact Hn. destruct (IHc I2 HF A2) as (x & HP). exists x. cbn [flat_map]. rewrite HP.
        rewrite !app_assoc. apply Permutation_app_tail. apply Permutation_app_comm. }
    destruct X as (x & X). exists x. cbn [oentries entries]. apply Permutation_cons_app. exact X.
Qed.

Lemma ffind_none : forall id f, ffind id f = None <-> ~ In id (ids (managers f)).
Proof.
  intros id. induction f as [|t f IH]; [cbn; intuition|]. cbn [ffind managers fold_right flat_map]. rewrite ids_app, in_app_iff.
  fold (ffind id f). fold (managers f). pose proof (find_none id t None) as X. destruct (find_tree id t).
  - split; [discriminate|]. intros H. exfalso. assert (Some m = None) by (apply X; tauto). discriminate.
  - rewrite IH. destruct X as [X _]. specialize (X eq_refl). tauto.
Qed.
Lemma ffind_id : forall id f c, ffind id f = Some c -> m_id c = id.
Proof.
  intros id. induction f as [|t f IH]; intros c H; [discriminate|]. cbn [ffind fold_right] in H. destruct (find_tree id t) eqn:E.
  - injection H as <-. eapply find_id. exact E.
  - apply IH. exact H.
Qed.
Lemma fprune_out : forall id f, ~ In id (ids (managers f)) -> fprune id f = f.
Proof.
  intros id. induction f as [|t f IH]; intros H; [reflexivity|]. cbn [fprune managers fold_right flat_map] in *. rewrite ids_app, in_app_iff in H.
  rewrite (prune_out id t None) by tauto. f_equal. apply IH. tauto.
Qed.
Lemma fprune_in : forall id f c, NoDup (ids (managers f)) -> ffind id f = Some c ->
  exists x, Permutation (managers f) (entries x c ++ managers (fprune id f)).
Proof.
  intros id. induction f as [|t f IH]; intros c HD HF; [discriminate|]. cbn [ffind fprune managers fold_right flat_map] in *.
  rewrite ids_app in HD. apply NoDup_app_inv in HD. destruct HD as (A1 & A2 & A3).
  destruct (find_tree id t) as [c'|] eqn:E.
  - injection HF as ->. destruct (prune_in id t None c A1 E) as (x & HP). exists x.
    assert (Hin : In id (ids (entries None t))).
    { destruct (in_dec Nat.eq_dec id (ids (entries None t))) as [Y|N]; [exact Y|]. rewrite <- find_none in N. congruence. }
    fold (fprune id f). rewrite (fprune_out id f) by (apply A3; exact Hin). rewrite HP. destruct (prune id t); cbn [oentries flat_map]; rewrite <- app_assoc; reflexivity.
  - assert (Hn : ~ In id (ids (entries None t))) by (rewrite <- find_none; exact E).
    rewrite (prune_out id t None) by exact Hn. destruct (IH c A2 HF) as (x & HP). exists x. cbn [flat_map]. fold (fprune id f). fold (managers f). rewrite HP.
    rewrite !app_assoc. apply Permutation_app_tail. apply Permutation_app_comm.
Qed.

Lemma attach_perm : forall f c p f', NoDup (ids (managers f)) -> attach f c p = Some f' ->
  Permutation (managers f') (entries p c ++ managers f).
Proof.
  intros f c [p|] f' HD HA; cbn [attach] in HA.
  - destruct (ffind p f) eqn:E; [|discriminate]. injection HA as <-.
    assert (Hin : In p (ids (managers f))).
    { destruct (in_dec Nat.eq_dec p (ids (managers f))) as [Y|N]; [exact Y|]. rewrite <- ffind_none in N. congruence. }
    clear E. induction f as [|t f IH]; [contradiction|]. cbn [managers flat_map map] in *. rewrite ids_app in HD. apply NoDup_app_inv in HD. destruct HD as (A1 & A2 & A3).
    destruct (in_dec Nat.eq_dec p (ids (entries None t))) as [Y|N].
    + rewrite (add_child_in p c t None None A1 Y). rewrite <- app_assoc. do 2 apply Permutation_app_head.
      specialize (A3 _ Y). clear - A3. induction f as [|d f IHf]; [reflexivity|]. cbn [map flat_map] in *. rewrite ids_app, in_app_iff in A3.
      rewrite add_child_out by tauto. apply Permutation_app_head. apply IHf. tauto.
    + rewrite add_child_out by exact N. rewrite ids_app, in_app_iff in Hin. destruct Hin as [H|Hin]; [contradiction|].
      unfold managers in IH. rewrite (IH A2 Hin). rewrite !app_assoc. apply Permutation_app_tail. apply Permutation_app_comm.
  - injection HA as <-. cbn [managers flat_map]. rewrite entries_refresh. reflexivity.
Qed.

Lemma perm_ids : forall a b, Permutation a b -> Permutation (ids a) (ids b).
Proof. intros. apply Permutation_map. assumption. Qed.

Lemma reparent_perm : forall id f c parent f', NoDup (ids (managers f)) -> ffind id f = Some c -> attach (fprune id f) c parent = Some f' ->
  Permutation (managers f') (map (with_parent id parent) (managers f)).
Proof.
  intros id f c parent f' HD HF HA. destruct (fprune_in id f c HD HF) as (x & HP).
  assert (HD2 : NoDup (ids (entries x c ++ managers (fprune id f)))) by (eapply Permutation_NoDup; [apply perm_ids; exact HP|exact HD]).
  rewrite ids_app in HD2. destruct (NoDup_app_inv _ _ HD2) as (A1 & A2 & A3).
  rewrite (attach_perm _ _ _ _ A2 HA). rewrite (Permutation_map (with_parent id parent) HP). rewrite map_app.
  pose proof (ffind_id _ _ _ HF) as Hid. destruct c as [i inh cs e ch]. cbn [m_id] in Hid. subst i.
  rewrite (with_parent_out id parent (managers (fprune id f))) by (apply A3; left; reflexivity). apply Permutation_app_tail.
  cbn [entries map]. unfold with_parent at 1. cbn [fst snd]. rewrite Nat.eqb_refl.
  cbn [entries ids map fst] in A1. inversion A1; subst. rewrite with_parent_out by assumption. reflexivity.
Qed.

Lemma with_local_ids : forall id inh cs l, ids (map (with_local id inh cs) l) = ids l.
Proof. intros. unfold ids. rewrite map_map. apply map_ext. intros e. unfold with_local. destruct (_ =? _); reflexivity. Qed.
Lemma with_parent_ids : forall id p l, ids (map (with_parent id p) l) = ids l.
Proof. intros. unfold ids. rewrite map_map. apply map_ext. intros e. unfold with_parent. destruct (_ =? _); reflexivity. Qed.

Lemma set_local_forest : forall id inh cs f, NoDup (ids (managers f)) -> managers (map (at_id id (set_local inh cs) None) f) = map (with_local id inh cs) (managers f).
Proof.
  intros id inh cs. induction f as [|t f IH]; intros HD; [reflexivity|]. cbn [managers map flat_map] in *. rewrite ids_app in HD. apply NoDup_app_inv in HD.
  destruct HD as (A1 & A2 & _). rewrite map_app. f_equal; [apply set_local_entries; exact A1|apply IH; exact A2].
Qed.

Lemma step_nodup : forall f o, NoDup (ids (managers f)) -> NoDup (ids (managers (step f o))).
Proof.
  intros f [id parent|id inh cs|id parent] HD; cbn [step].
  - destruct (ffind id f) eqn:E; [exact HD|]. destruct (attach f _ parent) eqn:EA; [|exact HD].
    eapply Permutation_NoDup; [symmetry; apply perm_ids; eapply attach_perm; [exact HD|exact EA]|].
    cbn. constructor; [|exact HD]. apply ffind_none. exact E.
  - rewrite set_local_forest by exact HD. rewrite with_local_ids. exact HD.
  - destruct (ffind id f) eqn:E; [|exact HD]. destruct (attach (fprune id f) m parent) eqn:EA; [|exact HD].
    eapply Permutation_NoDup; [symmetry; apply perm_ids; eapply reparent_perm; eassumption|]. rewrite with_parent_ids. exact HD.
Qed.
Lemma run_nodup : forall ops, NoDup (ids (managers (run ops))).
Proof.
  intros ops. unfold run. assert (G : forall f, NoDup (ids (managers f)) -> NoDup (ids (managers (fold_left step ops f)))); [|apply G; constructor].
  induction ops as [|o ops IH]; intros f H; [exact H|]. apply IH, step_nodup, H.
Qed.

(** What each call does to the set of managers. *)
Theorem shape_new : forall ops id parent, let f := run ops in
  (~ In id (map fst (managers f)) -> (parent = None \/ exists p, parent = Some p /\ In p (map fst (managers f))) ->
   Permutation (managers (step f (NewManager id parent))) ((id, (parent, true, [])) :: managers f)).
Proof.
  intros ops id parent. cbv zeta. pose proof (run_nodup ops) as HD. revert HD. generalize (run ops). intros f HD HN HP.
  fold (ids (managers f)) in *. cbn [step]. rewrite <- ffind_none in HN. rewrite HN.
  destruct (attach f (Node id true [] (build true []) []) parent) eqn:EA.
  - apply (attach_perm _ _ _ _ HD EA).
  - exfalso. destruct HP as [->|(p & -> & Hp)]; cbn [attach] in EA; [discriminate|].
    destruct (ffind p f) eqn:E; [discriminate|]. apply ffind_none in E. contradiction.
Qed.
Theorem shape_set : forall ops id inh calls, managers (step (run ops) (SetPermissions id inh calls)) = map (with_local id inh calls) (managers (run ops)).
Proof. intros. cbn [step]. apply set_local_forest. apply run_nodup. Qed.
Theorem shape_parent : forall ops id parent c, let f := run ops in
  ffind id f = Some c ->
  (parent = None \/ exists p, parent = Some p /\ In p (map fst (managers f)) /\ ~ In p (subtree_ids c)) ->
  Permutation (managers (step f (SetParent id parent))) (map (with_parent id parent) (managers f)).
Proof.
  intros ops id parent c. cbv zeta. pose proof (run_nodup ops) as HD. revert HD. generalize (run ops). intros f HD HF HP.
  cbn [step]. rewrite HF. destruct (attach (fprune id f) c parent) eqn:EA; [eapply reparent_perm; eassumption|].
  exfalso. destruct HP as [->|(p & -> & Hp & Hs)]; cbn [attach] in EA; [discriminate|].
  destruct (ffind p (fprune id f)) eqn:E; [discriminate|]. apply ffind_none in E. destruct (fprune_in id f c HD HF) as (x & HX).
  apply E. apply (Permutation_in p (perm_ids _ _ HX)) in Hp. rewrite ids_app, in_app_iff in Hp. destruct Hp as [Hp|Hp]; [|exact Hp].
  exfalso. apply Hs. unfold subtree_ids. fold (ids (entries None c)). rewrite (ids_parent c None x). exact Hp.
Qed.
Theorem unique_ids : forall ops, NoDup (map fst (managers (run ops))).
Proof. exact run_nodup. Qed.

(** The chain of a manager is its parent's chain followed by itself. *)
Lemma chain_none : forall id t p, ~ In id (ids (entries p t)) -> chain_in id t = None.
Proof.
  intros id. induction t as [i inh cs e ch IH] using mtree_ind2. intros p HN. cbn [entries ids map fst In] in HN. cbn [chain_in].
  destruct (Nat.eqb_spec i id) as [->|Hi]; [tauto|]. assert (HN' : ~ In id (ids (flat_map (entries (Some i)) ch))) by (unfold ids; tauto). clear HN.
  replace (fold_right (fun c r => match chain_in id c with Some x => Some x | None => r end) None ch) with (@None (list (bool * list bcall))); [reflexivity|].
  induction ch as [|d ch IHc]; [reflexivity|]. inversion IH as [|? ? I1 I2]; subst. cbn [fold_right flat_map] in *. rewrite ids_app, in_app_iff in HN'.
  rewrite (I1 (Some i)) by tauto. apply IHc; tauto.
Qed.
Lemma in_ids : forall i x l, In (i, x) l -> In i (ids l).
Proof. intros. apply (in_map fst) in H. exact H. Qed.

Lemma chain_entry : forall t p0 i p inh cs, NoDup (ids (entries p0 t)) -> In (i, (p, inh, cs)) (entries p0 t) ->
  (p = p0 /\ chain_in i t = Some [(inh, cs)]) \/
  (exists q lq, p = Some q /\ In q (ids (entries p0 t)) /\ chain_in q t = Some lq /\ chain_in i t = Some (lq ++ [(inh, cs)])).
Proof.
  induction t as [j inh0 cs0 e ch IH] using mtree_ind2. intros p0 i p inh cs HD HI.
  cbn [entries ids map fst] in HD. inversion HD as [|? ? D1 D2]; subst. cbn [entries In] in HI. destruct HI as [HI|HI].
  - injection HI as <- <- <- <-. left. cbn [chain_in]. rewrite Nat.eqb_refl. auto.
  - right. assert (Hji : j <> i). { intros ->. apply D1. eapply in_map in HI. exact HI. }
    assert (X : exists c, In c ch /\ In (i, (p, inh, cs)) (entries (Some j) c)) by (apply in_flat_map; exact HI).
    assert (Fold : forall id c lc, In c ch -> In id (ids (entries (Some j) c)) -> chain_in id c = Some lc -> j <> id /\
       fold_right (fun c r => match chain_in id c with Some x => Some x | None => r end) None ch = Some lc).
    { intros id c lc Hc Hid Hch. split.
      { intros ->. apply D1. apply in_map_iff in Hid. destruct Hid as (z & Hz1 & Hz2). apply in_map_iff. exists z. split; [exact Hz1|]. apply in_flat_map. eauto. }
      clear - Hc Hid Hch D2. induction ch as [|d ch IHc]; [contradiction|]. cbn [fold_right flat_map] in *.
      fold (ids (entries (Some j) d ++ flat_map (entries (Some j)) ch)) in D2. rewrite ids_app in D2. apply NoDup_app_inv in D2. destruct D2 as (A1 & A2 & A3).
      destruct Hc as [->|Hc]; [rewrite Hch; reflexivity|]. rewrite (chain_none id d (Some j)); [apply IHc; assumption|].
      intros N. apply (A3 _ N). apply in_map_iff in Hid. destruct Hid as (z & Hz1 & Hz2). apply in_map_iff. exists z. split; [exact Hz1|]. apply in_flat_map. eauto. }
    destruct X as (c & Hc & Hin).
    assert (DC : NoDup (ids (entries (Some j) c))).
    { clear - D2 Hc. induction ch as [|d ch IHc]; [contradiction|]. cbn [flat_map] in *.
      fold (ids (entries (Some j) d ++ flat_map (entries (Some j)) ch)) in D2. rewrite ids_app in D2. apply NoDup_app_inv in D2. destruct D2 as (A1 & A2 & A3).
      destruct Hc as [->|Hc]; [exact A1|]. apply IHc; assumption. }
    rewrite Forall_forall in IH. destruct (IH c Hc (Some j) i p inh cs DC Hin) as [[-> HC]|(q & lq & -> & Hq & HQ & HC)].
    + exists j, [(inh0, cs0)]. split; [reflexivity|]. split; [left; reflexivity|]. cbn [chain_in]. rewrite Nat.eqb_refl. split; [reflexivity|].
      destruct (Nat.eqb_spec j i); [contradiction|]. destruct (Fold i c _ Hc (in_ids _ _ _ Hin) HC) as [_ ->]. reflexivity.
    + exists q, ((inh0, cs0) :: lq). split; [reflexivity|]. destruct (Fold q c _ Hc Hq HQ) as [Nq FQ]. split.
      { right. apply in_map_iff in Hq. destruct Hq as (z & Hz1 & Hz2). apply in_map_iff. exists z. split; [exact Hz1|]. apply in_flat_map. eauto. }
      cbn [chain_in]. destruct (Nat.eqb_spec j q); [contradiction|]. rewrite FQ. split; [reflexivity|].
      destruct (Nat.eqb_spec j i); [contradiction|]. destruct (Fold i c _ Hc (in_ids _ _ _ Hin) HC) as [_ ->]. reflexivity.
Qed.

Theorem chain_follows_parents : forall ops i p inh cs, In (i, (p, inh, cs)) (managers (run ops)) ->
  chain_of i (run ops) = match p with
                         | None => Some [(inh, cs)]
                         | Some q => match chain_of q (run ops) with Some lq => Some (lq ++ [(inh, cs)]) | None => None end
                         end.
Proof.
  intros ops i p inh cs. pose proof (run_nodup ops) as HD. revert HD. generalize (run ops). intros f HD HI.
  unfold managers in HI. apply in_flat_map in HI. destruct HI as (t & Ht & Hin).
  assert (DT : NoDup (ids (entries None t)) /\ forall id lc, In id (ids (entries None t)) -> chain_in id t = Some lc -> chain_of id f = Some lc).
  { clear Hin. induction f as [|d f IHf]; [contradiction|]. cbn [managers flat_map] in HD. rewrite ids_app in HD. apply NoDup_app_inv in HD. destruct HD as (A1 & A2 & A3).
    destruct Ht as [->|Ht].
    - split; [exact A1|]. intros id lc H1 H2. unfold chain_of. cbn [fold_right]. rewrite H2. reflexivity.
    - destruct (IHf A2 Ht) as [B1 B2]. split; [exact B1|]. intros id lc H1 H2. unfold chain_of. cbn [fold_right].
      rewrite (chain_none id d None); [apply B2; assumption|]. intros N. apply (A3 _ N). apply in_map_iff in H1. destruct H1 as (z & Hz1 & Hz2). apply in_map_iff. exists z. split; [exact Hz1|].
      apply in_flat_map. eauto. }
  destruct DT as [D1 D2]. destruct (chain_entry t None i p inh cs D1 Hin) as [[-> HC]|(q & lq & -> & Hq & HQ & HC)].
  - apply D2; [eapply in_ids; exact Hin|exact HC].
  - rewrite (D2 q lq Hq HQ). apply D2; [eapply in_ids; exact Hin|exact HC].
Qed.
