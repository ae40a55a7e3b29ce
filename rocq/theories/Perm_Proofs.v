From Verif Require Import Base Perm_Model Perm_Spec.
Local Open Scope Z_scope.

(** Tables *)
Lemma tget_tset : forall t g v h, tget (tset t g v) h = if (h =? g)%nat then Some v else tget t h.
Proof.
  induction t as [|[a w] t IH]; intros g v h; cbn [tset tget].
  - destruct (Nat.eqb_spec h g); reflexivity.
  - destruct (Nat.eqb_spec g a) as [->|Hga]; cbn [tget].
    + destruct (Nat.eqb_spec h a); reflexivity.
    + rewrite IH. destruct (Nat.eqb_spec h a), (Nat.eqb_spec h g); congruence.
Qed.
Lemma tval_tset : forall t g v h, tval (tset t g v) h = if (h =? g)%nat then v else tval t h.
Proof. intros. unfold tval. rewrite tget_tset. destruct (h =? g)%nat; reflexivity. Qed.

Definition keysT (t : table) : list group := map fst t.
Lemma keys_tset : forall t g v, NoDup (keysT t) -> NoDup (keysT (tset t g v)) /\ forall h, In h (keysT (tset t g v)) <-> h = g \/ In h (keysT t).
Proof.
  induction t as [|[a w] t IH]; intros g v H; cbn [tset keysT map fst].
  - split; [repeat constructor; auto|]. intros h. cbn. intuition.
  - inversion H as [|? ? H1 H2]; subst. cbn [fst] in *.
    destruct (Nat.eqb_spec g a) as [->|Hga]; cbn [map fst].
    + split; [constructor; assumption|]. intros h. cbn. intuition.
    + destruct (IH g v H2) as [A B]. split.
      * constructor; [|exact A]. fold (keysT (tset t g v)). rewrite B. intros [C|C]; [congruence|contradiction].
      * intros h. cbn [In]. fold (keysT (tset t g v)). fold (keysT t). rewrite B. intuition.
Qed.
Lemma tget_in : forall t g, In g (keysT t) <-> tget t g <> None.
Proof.
  induction t as [|[a w] t IH]; intros g; cbn [keysT map fst In tget]; [intuition congruence|].
  destruct (Nat.eqb_spec g a) as [->|H]; [intuition congruence|]. fold (keysT t). rewrite IH. intuition congruence.
Qed.

(** Meaning of permissions as a transformer. *)
Definition has (p : perms) (g : group) : bool := match tget (assigned p) g with Some _ => true | None => false end.
Definition trans (p : perms) (g : group) (k : Z) (x : tri) : tri :=
  match says p g k with Unset => if has p g then Unset else x | s => s end.

Definition wf (p : perms) : Prop :=
  NoDup (keysT (allowed p)) /\ NoDup (keysT (denied p)) /\ NoDup (keysT (assigned p)) /\
  (forall g k, Z.testbit (tval (allowed p) g) k = true -> Z.testbit (tval (denied p) g) k = false) /\
  (forall g k, Z.testbit (tval (assigned p) g) k = true -> says p g k <> Unset).

Lemma testbit_andnot : forall a f k, 0 <= k -> Z.testbit (Z.land a (Z.lnot f)) k = Z.testbit a k && negb (Z.testbit f k).
Proof. intros. rewrite Z.land_spec, Z.lnot_spec by lia. reflexivity. Qed.

Lemma neg_bits : forall z k, k < 0 -> Z.testbit z k = false.
Proof. intros. apply Z.testbit_neg_r. lia. Qed.

Ltac bits k := destruct (Z.le_gt_cases 0 k); [rewrite ?testbit_andnot, ?Z.lor_spec, ?Z.bits_0 by assumption | rewrite ?(neg_bits _ k) by lia].

Lemma assign_says : forall p g f h k, says (assign p g f) h k = if (h =? g)%nat then (if Z.testbit f k then Allowed else Unset) else says p h k.
Proof.
  intros. unfold says, assign. cbn [allowed denied]. rewrite !tval_tset. destruct (h =? g)%nat; [|reflexivity].
  rewrite Z.bits_0. reflexivity.
Qed.
Lemma allow_says : forall p g f h k, says (allow p g f) h k = if (h =? g)%nat && Z.testbit f k then Allowed else says p h k.
Proof.
  intros. unfold says, allow. cbn [allowed denied]. rewrite !tval_tset. destruct (Nat.eqb_spec h g) as [->|]; [|reflexivity].
  bits k; destruct (Z.testbit f k) eqn:E; cbn [andb negb]; rewrite ?andb_false_r, ?andb_true_r, ?orb_true_r, ?orb_false_r; try reflexivity.
Qed.
Lemma deny_says : forall p g f h k, says (deny p g f) h k = if (h =? g)%nat && Z.testbit f k then Denied else says p h k.
Proof.
  intros. unfold says, deny. cbn [allowed denied]. rewrite !tval_tset. destruct (Nat.eqb_spec h g) as [->|]; [|reflexivity].
  bits k; destruct (Z.testbit f k) eqn:E; cbn [andb negb]; rewrite ?andb_false_r, ?andb_true_r, ?orb_true_r, ?orb_false_r; try reflexivity.
Qed.
Lemma assign_has : forall p g f h, has (assign p g f) h = (h =? g)%nat || has p h.
Proof. intros. unfold has, assign. cbn [assigned]. rewrite tget_tset. destruct (h =? g)%nat; reflexivity. Qed.

(** Transformers of the elementary calls. *)
Lemma bstep_trans : forall p c g k x, trans (bstep p c) g k x = call_means g k (trans p g k x) c.
Proof.
  intros p [h f|h f|h f] g k x; unfold trans; cbn [bstep call_means].
  - rewrite assign_says, assign_has. destruct (Nat.eqb_spec g h) as [->|]; cbn [orb]; [|reflexivity].
    destruct (Z.testbit f k); reflexivity.
  - rewrite allow_says. unfold has. cbn [allow assigned]. destruct ((g =? h)%nat && Z.testbit f k); reflexivity.
  - rewrite deny_says. unfold has. cbn [deny assigned]. destruct ((g =? h)%nat && Z.testbit f k); reflexivity.
Qed.

Lemma wf_bstep : forall p c, wf p -> wf (bstep p c).
Proof.
  intros p c (W1 & W2 & W3 & W4 & W5).
  assert (D : forall a d k, (Z.testbit a k = true -> Z.testbit d k = false) -> forall f,
     (Z.testbit (Z.lor a f) k = true -> Z.testbit (Z.land d (Z.lnot f)) k = false) /\
     (Z.testbit (Z.land a (Z.lnot f)) k = true -> Z.testbit (Z.lor d f) k = false)).
  { intros a d k H f. bits k; [|split; congruence].
    destruct (Z.testbit a k), (Z.testbit d k), (Z.testbit f k); cbn in *; intuition congruence. }
  destruct c as [h f|h f|h f]; cbn [bstep]; repeat split; cbn [assign allow deny allowed denied assigned].
  all: try (apply keys_tset; assumption); try assumption.
  - intros g k. rewrite !tval_tset. destruct (g =? h)%nat; [rewrite Z.bits_0; reflexivity|apply W4].
  - intros g k. rewrite tval_tset, assign_says. destruct (g =? h)%nat; [intros ->; discriminate|apply W5].
  - intros g k. rewrite !tval_tset. destruct (Nat.eqb_spec g h) as [->|]; [apply D, W4|apply W4].
  - intros g k Hk. rewrite allow_says. destruct (_ && _); [discriminate|apply W5, Hk].
  - intros g k. rewrite !tval_tset. destruct (Nat.eqb_spec g h) as [->|]; [apply D, W4|apply W4].
  - intros g k Hk. rewrite deny_says. destruct (_ && _); [discriminate|apply W5, Hk].
Qed.

Lemma wf_inherit : forall p b, wf p -> wf (inherit p b).
Proof. intros p b H. exact H. Qed.
Lemma wf_empty : wf pempty.
Proof. repeat split; try constructor; intros g k; cbn; rewrite Z.bits_0; discriminate. Qed.
Lemma wf_fold : forall cs p, wf p -> wf (fold_left bstep cs p).
Proof. induction cs as [|c cs IH]; intros p H; [exact H|]. apply IH. apply wf_bstep. exact H. Qed.
Lemma trans_fold : forall cs p g k x, trans (fold_left bstep cs p) g k x = calls_mean g k cs (trans p g k x).
Proof. induction cs as [|c cs IH]; intros p g k x; [reflexivity|]. cbn [fold_left]. rewrite IH, bstep_trans. reflexivity. Qed.

(** extend = replay the tables as calls *)
Definition table_calls (q : perms) : list bcall :=
  map (fun e => BAssign (fst e) (snd e)) (assigned q) ++ map (fun e => BAllow (fst e) (snd e)) (allowed q) ++
  map (fun e => BDeny (fst e) (snd e)) (denied q).
Lemma fold_map : forall {A B C} (f : A -> B -> A) (g : C -> B) l a, fold_left f (map g l) a = fold_left (fun a c => f a (g c)) l a.
Proof. induction l as [|c l IH]; intros a; [reflexivity|]. apply IH. Qed.
Lemma extend_calls : forall p q, extend p q = fold_left bstep (table_calls q) p.
Proof. intros. unfold extend, table_calls. rewrite !fold_left_app, !fold_map. reflexivity. Qed.

Lemma mean_notin : forall g k (mk : group -> Z -> bcall) l x, (forall h f y, h <> g -> call_means g k y (mk h f) = y) ->
  tget l g = None -> fold_left (call_means g k) (map (fun e => mk (fst e) (snd e)) l) x = x.
Proof.
  intros g k mk. induction l as [|[h f] l IH]; intros x Hmk HN; [reflexivity|]. cbn [map fold_left fst snd]. cbn [tget] in HN.
  destruct (Nat.eqb_spec g h) as [->|Hne]; [discriminate|]. rewrite Hmk by congruence. apply IH; assumption.
Qed.
Lemma mean_in : forall g k (mk : group -> Z -> bcall) l x f, (forall h f y, h <> g -> call_means g k y (mk h f) = y) ->
  NoDup (keysT l) -> tget l g = Some f ->
  fold_left (call_means g k) (map (fun e => mk (fst e) (snd e)) l) x = call_means g k x (mk g f).
Proof.
  intros g k mk. induction l as [|[h v] l IH]; intros x f Hmk HD HG; [discriminate|]. cbn [map fold_left fst snd]. cbn [tget] in HG.
  inversion HD as [|? ? D1 D2]; subst. cbn [fst] in *.
  destruct (Nat.eqb_spec g h) as [->|Hne].
  - injection HG as <-. apply mean_notin; [exact Hmk|]. fold (keysT l) in D1. rewrite tget_in in D1. destruct (tget l h); [exfalso; apply D1; discriminate|reflexivity].
  - rewrite Hmk by congruence. apply IH; assumption.
Qed.

Lemma other_group : forall g k y h f, h <> g ->
  call_means g k y (BAssign h f) = y /\ call_means g k y (BAllow h f) = y /\ call_means g k y (BDeny h f) = y.
Proof. intros. cbn [call_means]. destruct (Nat.eqb_spec g h); [congruence|]. auto. Qed.

Lemma extend_trans : forall p q g k x, wf q -> trans (extend p q) g k x = trans q g k (trans p g k x).
Proof.
  intros p q g k x (W1 & W2 & W3 & W4 & W5). rewrite extend_calls, trans_fold. generalize (trans p g k x). intros y.
  unfold calls_mean, table_calls. rewrite !fold_left_app. unfold trans, has.
  (* assigned *)
  set (y1 := fold_left (call_means g k) (map (fun e => BAssign (fst e) (snd e)) (assigned q)) y).
  assert (E1 : y1 = match tget (assigned q) g with Some f => if Z.testbit f k then Allowed else Unset | None => y end).
  { unfold y1. destruct (tget (assigned q) g) as [f|] eqn:E.
    - rewrite (mean_in g k BAssign _ y f); [cbn [call_means]; rewrite Nat.eqb_refl; reflexivity| |exact W3|exact E].
      intros. apply other_group. assumption.
    - apply (mean_notin g k BAssign); [|exact E]. intros. apply other_group. assumption. }
  set (y2 := fold_left (call_means g k) (map (fun e => BAllow (fst e) (snd e)) (allowed q)) y1).
  assert (E2 : y2 = if Z.testbit (tval (allowed q) g) k then Allowed else y1).
  { unfold y2, tval. destruct (tget (allowed q) g) as [f|] eqn:E.
    - rewrite (mean_in g k BAllow _ y1 f); [cbn [call_means]; rewrite Nat.eqb_refl; reflexivity| |exact W1|exact E].
      intros. apply other_group. assumption.
    - rewrite Z.bits_0. apply (mean_notin g k BAllow); [|exact E]. intros. apply other_group. assumption. }
  assert (E3 : fold_left (call_means g k) (map (fun e => BDeny (fst e) (snd e)) (denied q)) y2 = if Z.testbit (tval (denied q) g) k then Denied else y2).
  { unfold tval. destruct (tget (denied q) g) as [f|] eqn:E.
    - rewrite (mean_in g k BDeny _ y2 f); [cbn [call_means]; rewrite Nat.eqb_refl; reflexivity| |exact W2|exact E].
      intros. apply other_group. assumption.
    - rewrite Z.bits_0. apply (mean_notin g k BDeny); [|exact E]. intros. apply other_group. assumption. }
  rewrite E3, E2, E1. specialize (W5 g k). unfold says in *. unfold tval at 1 in W5.
  destruct (Z.testbit (tval (denied q) g) k); [reflexivity|]. destruct (Z.testbit (tval (allowed q) g) k); [reflexivity|].
  destruct (tget (assigned q) g) as [f|]; [|reflexivity]. destruct (Z.testbit f k); [exfalso; apply W5; reflexivity|reflexivity].
Qed.
Lemma wf_extend : forall p q, wf p -> wf (extend p q).
Proof. intros. rewrite extend_calls. apply wf_fold. assumption. Qed.

Lemma trans_empty : forall b g k x, trans (inherit pempty b) g k x = x.
Proof. intros. unfold trans, says, has. cbn. rewrite Z.bits_0. reflexivity. Qed.
Lemma trans_build : forall inh cs g k x, trans (build inh cs) g k x = calls_mean g k cs x.
Proof. intros. unfold build. rewrite trans_fold, trans_empty. reflexivity. Qed.
Lemma wf_build : forall inh cs, wf (build inh cs).
Proof. intros. apply wf_fold, wf_inherit, wf_empty. Qed.
Lemma says_trans : forall p g k, says p g k = trans p g k Unset.
Proof. intros. unfold trans. destruct (says p g k); try reflexivity. destruct (has p g); reflexivity. Qed.

Definition osays (o : option perms) (g : group) (k : Z) : tri := match o with Some p => says p g k | None => Unset end.
Lemma effective_says : forall parent inh cs g k, (forall p, parent = Some p -> wf p) ->
  says (effective parent inh cs) g k = calls_mean g k cs (if inh then osays parent g k else Unset).
Proof.
  intros parent inh cs g k HW. unfold effective. rewrite says_trans. destruct inh.
  - rewrite extend_trans by apply wf_build. rewrite trans_build. f_equal. destruct parent as [pp|]; cbn [osays].
    + rewrite extend_trans by (apply HW; reflexivity). rewrite trans_empty, says_trans. reflexivity.
    + apply (trans_empty false).
  - apply trans_build.
Qed.
Lemma wf_effective : forall parent inh cs, wf (effective parent inh cs).
Proof.
  intros. unfold effective. destruct inh; [|apply wf_build]. apply wf_extend. destruct parent; [apply wf_extend|]; apply wf_empty.
Qed.

(** Trees *)
Lemma mtree_ind2 : forall (P : mtree -> Prop),
  (forall id inh cs e ch, Forall P ch -> P (Node id inh cs e ch)) -> forall t, P t.
Proof.
  intros P H. fix IH 1. intros [id inh cs e ch]. apply H. induction ch as [|c ch IHc]; constructor; [apply IH|exact IHc].
Qed.

(** Every manager's effective permissions mean what its parent's and its own calls say. *)
Fixpoint good (parent : option perms) (t : mtree) : Prop :=
  match t with
  | Node id inh cs e ch =>
      wf e /\ (forall g k, says e g k = calls_mean g k cs (if inh then osays parent g k else Unset)) /\
      fold_right (fun c r => good (Some e) c /\ r) True ch
  end.
Lemma good_all : forall e ch, fold_right (fun c r => good (Some e) c /\ r) True ch <-> Forall (good (Some e)) ch.
Proof.
  intros e. induction ch as [|c ch IH]; cbn [fold_right]; [split; constructor|]. rewrite IH. split; [intros []; constructor; assumption|].
  intros H; inversion H; auto.
Qed.

(** A tree good for one parent is good for any other if it does not inherit. *)
Lemma good_noinherit : forall p p' t, m_inh t = false -> good p t -> good p' t.
Proof. intros p p' [id inh cs e ch]. cbn [m_inh good]. intros ->. tauto. Qed.

Definition goodish (t : mtree) : Prop := exists p, good p t.

Lemma refresh_good : forall t p, (forall q, p = Some q -> wf q) -> goodish t -> good p (refresh p t).
Proof.
  induction t as [id inh cs e ch IH] using mtree_ind2. intros p HW [q HG]. cbn [refresh good].
  split; [apply wf_effective|]. split; [intros; apply effective_says; exact HW|].
  apply good_all. cbn [good] in HG. destruct HG as (_ & _ & HG). apply good_all in HG.
  rewrite Forall_forall in *. intros c Hc. apply in_map_iff in Hc. destruct Hc as (c0 & <- & Hc).
  destruct (m_inh c0) eqn:Ei.
  - apply IH; [exact Hc| |exists (Some e); apply HG; exact Hc]. intros q' Hq. injection Hq as <-. apply wf_effective.
  - eapply good_noinherit; [exact Ei|apply HG; exact Hc].
Qed.

Lemma good_wf : forall p t, good p t -> match t with Node _ _ _ e _ => wf e end.
Proof. intros p [id inh cs e ch] H. apply H. Qed.

Lemma at_id_good : forall id f, 
  (forall p t, (forall q, p = Some q -> wf q) -> good p t -> good p (f p t)) ->
  forall t p, (forall q, p = Some q -> wf q) -> good p t -> good p (at_id id f p t).
Proof.
  intros id f Hf. induction t as [i inh cs e ch IH] using mtree_ind2. intros p HW HG. cbn [at_id].
  destruct (i =? id)%nat; [apply Hf; assumption|]. cbn [good] in *. destruct HG as (G1 & G2 & G3). split; [exact G1|]. split; [exact G2|].
  apply good_all in G3. apply good_all. rewrite Forall_forall in *. intros c Hc. apply in_map_iff in Hc. destruct Hc as (c0 & <- & Hc).
  apply IH; auto. intros q Hq. injection Hq as <-. exact G1.
Qed.

Lemma set_local_good : forall inh cs p t, (forall q, p = Some q -> wf q) -> good p t -> good p (set_local inh cs p t).
Proof.
  intros inh cs p [i inh0 cs0 e ch] HW HG. unfold set_local. cbn [refresh good].
  split; [apply wf_effective|]. split; [intros; apply effective_says; exact HW|].
  cbn [good] in HG. destruct HG as (_ & _ & G3). apply good_all in G3. apply good_all.
  rewrite Forall_forall in *. intros c Hc. apply in_map_iff in Hc. destruct Hc as (c0 & <- & Hc).
  destruct (m_inh c0) eqn:Ei.
  - apply refresh_good; [intros q Hq; injection Hq as <-; apply wf_effective|]. exists (Some e). apply G3. exact Hc.
  - eapply good_noinherit; [exact Ei|apply G3; exact Hc].
Qed.

Lemma add_child_good : forall c p t, goodish c -> (forall q, p = Some q -> wf q) -> good p t -> good p (add_child c p t).
Proof.
  intros c p [i inh cs e ch] HC HW HG. cbn [add_child good] in *. destruct HG as (G1 & G2 & G3). split; [exact G1|]. split; [exact G2|].
  cbn [fold_right]. split; [|exact G3]. apply refresh_good; [|exact HC]. intros q Hq. injection Hq as <-. exact G1.
Qed.

Lemma find_tree_good : forall id t p c, good p t -> find_tree id t = Some c -> goodish c.
Proof.
  intros id. induction t as [i inh cs e ch IH] using mtree_ind2. intros p c HG HF. cbn [find_tree] in HF.
  destruct (i =? id)%nat; [injection HF as <-; exists p; exact HG|].
  cbn [good] in HG. destruct HG as (_ & _ & G3). apply good_all in G3.
  induction ch as [|d ch IHch]; [discriminate|]. cbn [fold_right] in HF. inversion IH; subst. inversion G3; subst.
  destruct (find_tree id d) eqn:E; [injection HF as <-; eauto|auto].
Qed.
Lemma prune_good : forall id t p c, good p t -> prune id t = Some c -> good p c.
Proof.
  intros id. induction t as [i inh cs e ch IH] using mtree_ind2. intros p c HG HF. cbn [prune] in HF.
  destruct (i =? id)%nat; [discriminate|]. injection HF as <-.
  cbn [good] in *. destruct HG as (G1 & G2 & G3). split; [exact G1|]. split; [exact G2|]. apply good_all in G3. apply good_all.
  clear G1 G2. induction ch as [|d ch IHch]; [constructor|]. cbn [fold_right]. inversion IH; subst. inversion G3; subst.
  destruct (prune id d) eqn:E; [constructor; eauto|auto].
Qed.

Definition fgood (f : forest) : Prop := Forall (good None) f.
Lemma noneW : forall q : perms, None = Some q -> wf q. Proof. discriminate. Qed.

Lemma ffind_good : forall id f c, fgood f -> ffind id f = Some c -> goodish c.
Proof.
  intros id. induction f as [|t f IH]; intros c HG HF; [discriminate|]. cbn [ffind fold_right] in HF. inversion HG; subst.
  destruct (find_tree id t) eqn:E; [injection HF as <-; eapply find_tree_good; eauto|apply IH; assumption].
Qed.
Lemma fprune_good : forall id f, fgood f -> fgood (fprune id f).
Proof.
  intros id. induction f as [|t f IH]; intros HG; [constructor|]. cbn [fprune fold_right]. inversion HG; subst.
  destruct (prune id t) eqn:E; [constructor; [eapply prune_good; eauto|]|]; apply IH; assumption.
Qed.
Lemma map_at_good : forall id f fo, (forall p t, (forall q, p = Some q -> wf q) -> good p t -> good p (f p t)) ->
  fgood fo -> fgood (map (at_id id f None) fo).
Proof.
  intros id f fo Hf HG. unfold fgood in *. rewrite Forall_forall in *. intros t Ht. apply in_map_iff in Ht. destruct Ht as (t0 & <- & Ht).
  apply at_id_good; [exact Hf|exact noneW|apply HG; exact Ht].
Qed.
Lemma attach_good : forall f c p f', fgood f -> goodish c -> attach f c p = Some f' -> fgood f'.
Proof.
  intros f c [p|] f' HG HC HA; cbn [attach] in HA.
  - destruct (ffind p f); [|discriminate]. injection HA as <-. apply map_at_good; [|exact HG]. intros. apply add_child_good; assumption.
  - injection HA as <-. constructor; [|exact HG]. apply refresh_good; [exact noneW|exact HC].
Qed.
Lemma step_good : forall f o, fgood f -> fgood (step f o).
Proof.
  intros f [id parent|id inh cs|id parent] HG; cbn [step].
  - destruct (ffind id f); [exact HG|]. destruct (attach f _ parent) eqn:E; [|exact HG]. eapply attach_good; [exact HG| |exact E].
    exists None. cbn [good]. split; [apply wf_build|]. split; [|exact Logic.I]. intros g k. rewrite says_trans, trans_build. reflexivity.
  - apply map_at_good; [|exact HG]. intros. apply set_local_good; assumption.
  - destruct (ffind id f) as [c|] eqn:Ef; [|exact HG]. destruct (attach (fprune id f) c parent) eqn:E; [|exact HG].
    eapply attach_good; [apply fprune_good; exact HG|eapply ffind_good; eauto|exact E].
Qed.
Lemma run_good : forall ops, fgood (run ops).
Proof.
  intros ops. unfold run. assert (G : forall f, fgood f -> fgood (fold_left step ops f)); [|apply G; constructor].
  induction ops as [|o ops IH]; intros f HG; [exact HG|]. apply IH. apply step_good. exact HG.
Qed.

(** From the invariant to the chain of ancestors. *)
Definition chain_from (g : group) (k : Z) (l : list (bool * list bcall)) (x : tri) : tri :=
  fold_left (fun (x : tri) (m : bool * list bcall) => calls_mean g k (snd m) (if fst m then x else Unset)) l x.

Lemma find_chain : forall id t p, good p t ->
  match find_tree id t, chain_in id t with
  | Some (Node _ _ _ e _), Some l => forall g k, says e g k = chain_from g k l (osays p g k)
  | None, None => True
  | _, _ => False
  end.
Proof.
  intros id. induction t as [i inh cs e ch IH] using mtree_ind2. intros p HG. cbn [find_tree chain_in].
  cbn [good] in HG. destruct HG as (G1 & G2 & G3). apply good_all in G3.
  destruct (i =? id)%nat.
  - intros g k. rewrite G2. reflexivity.
  - assert (X : match fold_right (fun c r => match find_tree id c with Some x => Some x | None => r end) None ch,
                     fold_right (fun c r => match chain_in id c with Some x => Some x | None => r end) None ch with
                | Some (Node _ _ _ e' _), Some l => forall g k, says e' g k = chain_from g k l (says e g k)
                | None, None => True | _, _ => False end).
    { clear G1 G2. induction ch as [|d ch IHch]; [exact Logic.I|]. cbn [fold_right]. inversion IH as [|? ? I1 I2]; subst. inversion G3 as [|? ? J1 J2]; subst.
      specialize (I1 _ J1). destruct (find_tree id d) as [[? ? ? e' ?]|]; destruct (chain_in id d) as [l|]; try contradiction.
      - exact I1.
      - apply IHch; assumption. }
    destruct (fold_right (fun c r => match find_tree id c with Some x => Some x | None => r end) None ch) as [[? ? ? e' ?]|];
      destruct (fold_right (fun c r => match chain_in id c with Some x => Some x | None => r end) None ch) as [l|]; try contradiction; try exact Logic.I.
    intros g k. rewrite X. cbn [chain_from fold_left fst snd]. rewrite G2. reflexivity.
Qed.

Theorem effective_chain : forall ops id,
  match getPermissions (run ops) id, chain_of id (run ops) with
  | Some e, Some l => forall g k, says e g k = chain_means g k l
  | None, None => True
  | _, _ => False
  end.
Proof.
  intros ops id. generalize (run_good ops). generalize (run ops). intros f HG. unfold getPermissions, ffind, chain_of.
  induction f as [|t f IH]; [exact Logic.I|]. cbn [fold_right]. inversion HG as [|? ? H1 H2]; subst.
  pose proof (find_chain id t None H1) as X.
  destruct (find_tree id t) as [[? ? ? e' ?]|]; destruct (chain_in id t) as [l|]; try contradiction.
  - exact X.
  - apply IH. exact H2.
Qed.

(** Authorization *)
Lemma land_bit : forall a k, 0 <= k -> negb (Z.land a (2 ^ k) =? 0) = Z.testbit a k.
Proof.
  intros a k Hk. destruct (Z.testbit a k) eqn:E.
  - apply negb_true_iff. apply Z.eqb_neq. intros H. assert (X : Z.testbit (Z.land a (2 ^ k)) k = true) by (rewrite Z.land_spec, E, Z.pow2_bits_true by lia; reflexivity).
    rewrite H, Z.bits_0 in X. discriminate.
  - apply negb_false_iff. apply Z.eqb_eq. apply Z.bits_inj_0. intros n. rewrite Z.land_spec.
    destruct (Z.eq_dec n k) as [->|Hn]; [rewrite E; reflexivity|]. rewrite Z.pow2_bits_false by lia. apply andb_false_r.
Qed.

Theorem authorized_iff : forall p groups k, 0 <= k ->
  (isAuthorized p groups (2 ^ k) = true <-> access (fun g => says p g k) groups).
Proof.
  intros p groups k Hk. unfold isAuthorized, access, says.
  destruct (existsb (fun g => negb (Z.land (tval (denied p) g) (2 ^ k) =? 0)) groups) eqn:E1.
  - split; [discriminate|]. intros [A _]. exfalso. apply existsb_exists in E1. destruct E1 as (g & Hg & E). rewrite land_bit in E by exact Hk.
    apply (A g Hg). rewrite E. reflexivity.
  - assert (ND : forall g, In g groups -> Z.testbit (tval (denied p) g) k = false).
    { intros g Hg. rewrite <- land_bit by exact Hk. destruct (negb _) eqn:E; [|reflexivity].
      rewrite <- E1. symmetry. apply existsb_exists. eauto. }
    rewrite existsb_exists. split.
    + intros (g & Hg & E). rewrite land_bit in E by exact Hk. split.
      * intros h Hh. rewrite (ND h Hh). destruct (Z.testbit (tval (allowed p) h) k); discriminate.
      * exists g. split; [exact Hg|]. rewrite (ND g Hg), E. reflexivity.
    + intros [_ (g & Hg & E)]. exists g. split; [exact Hg|]. rewrite land_bit by exact Hk. rewrite (ND g Hg) in E.
      destruct (Z.testbit (tval (allowed p) g) k); [reflexivity|discriminate].
Qed.

Theorem extend_replays : forall inh inh' c1 c2 g k,
  says (extend (build inh c1) (build inh' c2)) g k = says (build inh (c1 ++ c2)) g k.
Proof.
  intros. rewrite !says_trans, extend_trans by apply wf_build. rewrite !trans_build. unfold calls_mean. rewrite fold_left_app. reflexivity.
Qed.
