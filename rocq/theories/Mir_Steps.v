(** The calls on sources, and the invariant over all histories. *)
From Coq Require Import List Bool Arith Lia.
Import ListNotations.
From Verif Require Import Mir_Model Mir_Spec Mir_Proofs Mir_Inv.

Definition none : nat -> bool := fun _ => false.

Lemma inv_weaken p q st : (forall s, q s = false -> p s = false) -> Inv p st -> Inv q st.
Proof.
  intros H IV. constructor.
  - apply (i_listen p st IV). - apply (i_removed p st IV). - apply (i_nodup p st IV). - apply (i_src p st IV).
  - intros v s A Q. apply (i_has p st IV); auto.
  - apply (i_act p st IV). - apply (i_bound p st IV). - apply (i_dom p st IV). - apply (i_cnt p st IV).
  - apply (i_wire p st IV).
Qed.

Lemma inv_restore p st : Inv p st ->
  (forall v s, r_alive (st_src st s) = true -> p s = true -> items st s v <> None -> In s (g_sources (st_sig st v))) ->
  Inv none st.
Proof.
  intros IV H. constructor.
  - apply (i_listen p st IV). - apply (i_removed p st IV). - apply (i_nodup p st IV). - apply (i_src p st IV).
  - intros v s A _ I. destruct (p s) eqn:P; [now apply H|now apply (i_has p st IV)].
  - apply (i_act p st IV). - apply (i_bound p st IV). - apply (i_dom p st IV). - apply (i_cnt p st IV).
  - apply (i_wire p st IV).
Qed.

(** Changes of the items only: what depends on the rest stays. *)
Lemma put_item_acts st s g i v x : acts (put_item st s g i) v x = acts st v x.
Proof. apply acts_alive; [|reflexivity]. intros y. apply put_item_fields. Qed.
Lemma put_item_subs st s g i v x : subs (put_item st s g i) v x = subs st v x.
Proof. unfold subs. now rewrite put_item_acts. Qed.
Lemma put_item_hb st s g i x y v : hb (put_item st s g i) x y v = hb st x y v.
Proof.
  unfold hb. rewrite put_item_subs. destruct (put_item_fields st s g i x) as (_&_&Sk&_). now rewrite Sk.
Qed.

(** Nobody needs [g] from [s]. *)
Definition idle (st : state) (s g : nat) : Prop := forall v, v < st_n st -> hb st s g v = false.

Lemma idle_zero p st s g k : Inv p st -> r_alive (st_src st s) = true -> idle st s g -> items st s g = Some k -> k = 0.
Proof.
  intros IV A ID I. rewrite (i_cnt p st IV s g k A I).
  destruct (Nat.eq_dec (cntl (hb st s g) (seq 0 (st_n st))) 0) as [Z|Z]; [exact Z|].
  destruct (cntl_ex (hb st s g) (seq 0 (st_n st))) as [v [Hv E]]; [lia|].
  apply in_seq in Hv. rewrite ID in E by lia. discriminate.
Qed.

Lemma idle_subs p st s g v d : Inv p st -> idle st s g -> subs st v s = true -> domain_of st v = Some d ->
  r_skip (st_src st s) = false -> d <> g.
Proof.
  intros IV ID SB D Sk ->. assert (v < st_n st).
  { unfold subs in SB. apply andb_true_iff in SB. destruct SB as [_ SB]. apply acts_iff in SB.
    now apply (active_item p st v s IV). }
  specialize (ID v H). unfold hb in ID. rewrite SB, D, Sk in ID. cbn [andb] in ID.
  unfold need in ID. rewrite Nat.eqb_refl, orb_true_r in ID. discriminate.
Qed.

Lemma inv_put_item p st s g i :
  Inv p st -> r_alive (st_src st s) = true -> idle st s g ->
  (i = None /\ ~ In s (g_sources (st_sig st g)) \/ i = Some 0 /\ g < st_n st /\ (p s = false -> In s (g_sources (st_sig st g)))) ->
  Inv p (put_item st s g i).
Proof.
  intros IV A ID C.
  assert (FL : forall x, r_alive (st_src (put_item st s g i) x) = r_alive (st_src st x)) by (intros; apply put_item_fields).
  constructor.
  - apply (i_listen p st IV).
  - apply (i_removed p st IV).
  - apply (i_nodup p st IV).
  - intros v s' A' HI. rewrite FL in A'. rewrite items_put.
    destruct (Nat.eqb_spec s' s) as [ ->|]; cbn [andb]; [|now apply (i_src p st IV)].
    destruct (Nat.eqb_spec v g) as [ ->|]; [|now apply (i_src p st IV)].
    destruct C as [[_ C]|[ -> _]]; [now apply C in HI|discriminate].
  - intros v s' A' P. rewrite FL in A'. rewrite items_put.
    destruct (Nat.eqb_spec s' s) as [ ->|]; cbn [andb]; [|now apply (i_has p st IV)].
    destruct (Nat.eqb_spec v g) as [ ->|]; [|now apply (i_has p st IV)].
    destruct C as [[ -> C]|[ -> [_ C]]]; [intros Z; now destruct Z|intros _; now apply C].
  - intros v s' H A'. rewrite FL in A'. now apply (i_act p st IV).
  - intros v s'. rewrite items_put. destruct (Nat.eqb_spec s' s) as [ ->|]; cbn [andb]; [|apply (i_bound p st IV)].
    destruct (Nat.eqb_spec v g) as [ ->|]; [|apply (i_bound p st IV)].
    destruct C as [[ -> _]|[ -> [B _]]]; [easy|intros _; exact B].
  - intros v s' d SB D. rewrite put_item_subs in SB. change (domain_of (put_item st s g i) v) with (domain_of st v) in D.
    destruct (i_dom p st IV v s' d SB D) as [D1 D2]. split; [exact D1|].
    destruct (put_item_fields st s g i s') as (_&_&Sk&_). rewrite Sk. intros SkF. rewrite items_put.
    destruct (Nat.eqb_spec s' s) as [ ->|]; cbn [andb]; [|now apply D2].
    destruct (Nat.eqb_spec d g) as [ ->|]; [|now apply D2].
    now destruct (idle_subs p st s g v g IV ID SB D SkF).
  - intros s' x k A' I. rewrite FL in A'. rewrite items_put in I. change (st_n (put_item st s g i)) with (st_n st).
    transitivity (cntl (hb st s' x) (seq 0 (st_n st))).
    2:{ apply cntl_ext. intros w _. symmetry. apply put_item_hb. }
    destruct (Nat.eqb_spec s' s) as [ ->|]; cbn [andb] in I; [|now apply (i_cnt p st IV)].
    destruct (Nat.eqb_spec x g) as [ ->|]; [|now apply (i_cnt p st IV)].
    destruct C as [[ -> _]|[ -> _]]; inversion I; subst.
    destruct (Nat.eq_dec (cntl (hb st s g) (seq 0 (st_n st))) 0) as [Z|Z]; [now rewrite Z|].
    destruct (cntl_ex (hb st s g) (seq 0 (st_n st))) as [v [Hv E]]; [lia|].
    apply in_seq in Hv. rewrite ID in E by lia. discriminate.
  - intros s' x A' R. rewrite FL in A'. unfold wok. rewrite items_put.
    destruct (put_item_fields st s g i s') as (_&_&_&Av). rewrite Av.
    change (st_wire (put_item st s g i)) with (st_wire st).
    pose proof (i_wire p st IV s' x A' R) as W. unfold wok in W.
    destruct (Nat.eqb_spec s' s) as [ ->|]; cbn [andb]; [|exact W].
    destruct (Nat.eqb_spec x g) as [ ->|]; [|exact W].
    rewrite W. destruct (items st s g) as [k|] eqn:I.
    + rewrite (idle_zero p st s g k IV A ID I). destruct C as [[ -> _]|[ -> _]]; reflexivity.
    + destruct C as [[ -> _]|[ -> _]]; reflexivity.
Qed.

(** *** A source takes a signal *)
Lemma idle_new st s g : Inv none st -> r_alive (st_src st s) = true -> items st s g = None -> idle st s g.
Proof.
  intros IV A I v _. unfold hb. destruct (subs st v s) eqn:SB; [|reflexivity]. cbn [andb].
  unfold need. destruct (Nat.eqb_spec g v) as [ ->|N]; cbn [orb].
  - unfold subs in SB. apply andb_true_iff in SB. destruct SB as [_ SB]. apply acts_iff in SB.
    now destruct (active_item none st v s IV SB).
  - destruct (domain_of st v) as [d|] eqn:D; [|now rewrite andb_false_r].
    destruct (i_dom none st IV v s d SB D) as [_ D2].
    destruct (r_skip (st_src st s)); [reflexivity|]. cbn [negb andb].
    destruct (Nat.eqb_spec g d) as [ ->|]; [|reflexivity]. now destruct (D2 eq_refl).
Qed.

Lemma inv_add_signal st s g st' o : Inv none st -> g < st_n st -> r_alive (st_src st s) = true ->
  g_removed (st_sig st g) = false -> add_signal st s g = (st', o) -> failed o = false -> Inv none st'.
Proof.
  intros IV B A R E F. unfold add_signal in E.
  destruct (items st s g) as [k|] eqn:I; [inversion E; subst; discriminate|].
  unfold add_source in E. change (st_sig (put_item st s g (Some 0))) with (st_sig st) in E.
  destruct (memb s (g_sources (st_sig st g))) eqn:M; [inversion E; subst; discriminate|].
  inversion E; subst st' o. clear E.
  assert (NI : ~ In s (g_sources (st_sig st g))) by (rewrite <- memb_In; congruence).
  assert (IV0 : Inv (Nat.eqb s) st) by (apply (inv_weaken none); [reflexivity|exact IV]).
  assert (IV1 : Inv (Nat.eqb s) (put_item st s g (Some 0))).
  { apply inv_put_item; [exact IV0|exact A|now apply idle_new|]. right.
    split; [reflexivity|]. split; [exact B|]. rewrite Nat.eqb_refl. discriminate. }
  set (st1 := put_item st s g (Some 0)) in *.
  assert (A1 : r_alive (st_src st1 s) = true) by (unfold st1, put_item, put_src; cbn [st_src]; rewrite upd_same; exact A).
  assert (I1 : items st1 s g = Some 0) by (unfold st1; rewrite items_put; now rewrite !Nat.eqb_refl).
  set (st' := put_sig st1 g _).
  assert (V' : st_sig st' g = set_sources (st_sig st g) (g_sources (st_sig st g) ++ [s])) by apply sig_put_same.
  assert (F' : effs st1 st') by apply effs_put.
  assert (O' : only st1 st' g) by now apply only_put.
  assert (SB : forall x, subs st' g x = subs st1 g x).
  { intros x. unfold subs. rewrite V'. cbn [g_listened g_streamed set_sources].
    now rewrite (acts_alive st1 st' g x (f_alive _ _ F')) by now rewrite V'. }
  assert (SRC : forall x, In x (g_sources (st_sig st' g)) <-> In x (g_sources (st_sig st g)) \/ x = s).
  { intros x. rewrite V'. cbn [g_sources set_sources]. rewrite in_app_iff. cbn [In].
    split; [intros [H|[H|[]]]; [now left|now right]|intros [H|H]; [now left|right; left; congruence]]. }
  assert (IV2 : Inv (Nat.eqb s) st').
  { apply (keep0 _ st1 st' g (hb st1) IV1 F' O').
    - rewrite V'. cbn [g_sources set_sources].
      rewrite <- (rev_involutive (g_sources (st_sig st g) ++ [s])). apply NoDup_rev.
      rewrite rev_app_distr. cbn [rev app]. constructor.
      + rewrite <- in_rev. exact NI.
      + apply NoDup_rev. apply (i_nodup none st IV).
    - intros x Hx. apply SRC in Hx. destruct Hx as [Hx| ->]; [now left|]. right. split; [exact R|congruence].
    - intros x _ _ Hx. apply SRC. now left.
    - intros _. rewrite V'. cbn [g_listened g_conns set_sources]. now apply (i_listen none st IV).
    - change (st_sig st1 g) with (st_sig st g). congruence.
    - intros x Hx Ax. apply SRC. left. rewrite V' in Hx. cbn [g_active set_sources] in Hx.
      now apply (i_act _ st1 IV1).
    - intros x d. rewrite SB. apply (i_dom _ st1 IV1).
    - exact (i_cnt _ st1 IV1).
    - reflexivity.
    - intros x y _. now rewrite SB. }
  apply (inv_restore (Nat.eqb s)); [exact IV2|].
  intros v x Ax Px Ix. apply Nat.eqb_eq in Px. subst x.
  destruct (Nat.eq_dec v g) as [ ->|N]; [apply SRC; now right|].
  unfold st'. rewrite sig_put_other by exact N. change (st_sig st1 v) with (st_sig st v).
  apply (i_has none st IV); [exact A|reflexivity|].
  change (items st' s v) with (items st1 s v) in Ix. unfold st1 in Ix. rewrite items_put in Ix.
  rewrite (proj2 (Nat.eqb_neq v g) N), andb_false_r in Ix. exact Ix.
Qed.

(** *** A source gives a signal back *)
Lemma hb_only st st' v s x w : effs st st' -> only st st' v -> w <> v -> hb st' s x w = hb st s x w.
Proof.
  intros F O N. unfold hb. now rewrite (only_subs st st' v w s F O N), (only_domain st st' v w O), (f_skip _ _ F).
Qed.

Lemma inv_remove_signal st s g st' o : Inv none st -> r_alive (st_src st s) = true ->
  (forall v, v <> g -> hb st s g v = false) ->
  remove_signal st s g = (st', o) -> failed o = false -> Inv none st'.
Proof.
  intros IV A CM E F. unfold remove_signal in E.
  destruct (remove_source st g s) as [st1 o1] eqn:E1.
  assert (IV0 : Inv (Nat.eqb s) st) by (apply (inv_weaken none); [reflexivity|exact IV]).
  destruct (remove_source_ok (Nat.eqb s) st g s st1 o1 IV0) as (IV1&F1&O1&_&N1&S1); [intros _; apply Nat.eqb_refl|exact E1|].
  destruct (failed o1) eqn:FL; [inversion E; subst; congruence|].
  specialize (N1 eq_refl).
  destruct (items st1 s g) as [k|] eqn:I; [|inversion E; subst; discriminate].
  inversion E; subst st' o. clear E.
  assert (A1 : r_alive (st_src st1 s) = true) by now rewrite (f_alive _ _ F1).
  assert (ID : idle st1 s g).
  { intros v _. destruct (Nat.eq_dec v g) as [ ->|N].
    - apply hb_off. destruct (subs st1 g s) eqn:SB; [|reflexivity].
      unfold subs in SB. apply andb_true_iff in SB. destruct SB as [_ SB]. apply acts_iff in SB.
      apply active_alive in SB. destruct SB as [SB _]. now apply (i_act _ st1 IV1) in SB.
    - rewrite (hb_only st st1 g) by assumption. now apply CM. }
  assert (IV2 : Inv (Nat.eqb s) (put_item st1 s g None)).
  { apply inv_put_item; [exact IV1|exact A1|exact ID|left; now split]. }
  apply (inv_restore (Nat.eqb s)); [exact IV2|].
  intros v x Ax Px Ix. apply Nat.eqb_eq in Px. subst x. rewrite items_put, Nat.eqb_refl in Ix. cbn [andb] in Ix.
  destruct (Nat.eqb_spec v g) as [ ->|N]; [easy|].
  change (st_sig (put_item st1 s g None) v) with (st_sig st1 v).
  destruct O1 as (O1&_). rewrite (O1 v N). apply (i_has none st IV); [exact A|reflexivity|].
  now rewrite <- (f_items _ _ F1).
Qed.

(** Clearing the items of a source that no signal lists. *)
Lemma clear_items_fields st s x :
  r_alive (st_src (clear_items st s) x) = r_alive (st_src st x) /\
  r_skip (st_src (clear_items st s) x) = r_skip (st_src st x) /\
  r_avail (st_src (clear_items st s) x) = r_avail (st_src st x).
Proof.
  unfold clear_items, put_src; cbn [st_src]. unfold upd. destruct (Nat.eqb_spec x s) as [ ->|]; auto.
Qed.
Lemma clear_items_items st s x g : items (clear_items st s) x g = if Nat.eqb x s then None else items st x g.
Proof. unfold items, clear_items, put_src; cbn [st_src]. unfold upd. now destruct (Nat.eqb x s). Qed.

Lemma inv_clear p st s : Inv p st -> (forall s', p s' = true -> s' = s) ->
  (r_alive (st_src st s) = true -> forall v, ~ In s (g_sources (st_sig st v))) ->
  Inv none (clear_items st s).
Proof.
  intros IV P N.
  assert (FL : forall x, r_alive (st_src (clear_items st s) x) = r_alive (st_src st x)) by (intros; apply clear_items_fields).
  assert (SK : forall x, r_skip (st_src (clear_items st s) x) = r_skip (st_src st x)) by (intros; apply clear_items_fields).
  assert (SB : forall v x, subs (clear_items st s) v x = subs st v x).
  { intros v x. unfold subs. now rewrite (acts_alive st (clear_items st s) v x FL eq_refl). }
  assert (OFF : forall v, subs st v s = false).
  { intros v. destruct (subs st v s) eqn:E; [|reflexivity]. unfold subs in E. apply andb_true_iff in E.
    destruct E as [_ E]. apply acts_iff in E. apply active_alive in E. destruct E as [E1 E2].
    destruct (N E2 v). now apply (i_act p st IV). }
  constructor.
  - apply (i_listen p st IV).
  - apply (i_removed p st IV).
  - apply (i_nodup p st IV).
  - intros v x A HI. rewrite FL in A. rewrite clear_items_items.
    destruct (Nat.eqb_spec x s) as [ ->|]; [now destruct (N A v)|now apply (i_src p st IV)].
  - intros v x A _. rewrite FL in A. rewrite clear_items_items.
    destruct (Nat.eqb_spec x s) as [ ->|NE]; [intros Z; now destruct Z|]. intros I.
    apply (i_has p st IV); [exact A| |exact I]. destruct (p x) eqn:Q; [|reflexivity]. now apply P in Q.
  - intros v x H A. rewrite FL in A. now apply (i_act p st IV).
  - intros v x. rewrite clear_items_items. destruct (Nat.eqb x s); [easy|apply (i_bound p st IV)].
  - intros v x d S1 D. rewrite SB in S1. change (domain_of (clear_items st s) v) with (domain_of st v) in D.
    rewrite SK, clear_items_items. destruct (Nat.eqb_spec x s) as [ ->|]; [rewrite OFF in S1; discriminate|].
    now apply (i_dom p st IV v x d).
  - intros x g k A I. rewrite FL in A. rewrite clear_items_items in I.
    destruct (Nat.eqb x s); [discriminate|]. change (st_n (clear_items st s)) with (st_n st).
    rewrite (i_cnt p st IV x g k A I). apply cntl_ext. intros w _. unfold hb. now rewrite SB, SK.
  - intros x g A R. rewrite FL in A. unfold wok. rewrite clear_items_items.
    destruct (clear_items_fields st s x) as (_&_&AV). rewrite AV.
    pose proof (i_wire p st IV x g A R) as W. unfold wok in W.
    change (st_wire (clear_items st s)) with (st_wire st). rewrite W.
    destruct (Nat.eqb_spec x s) as [ ->|]; [|reflexivity].
    destruct (items st s g) as [k|] eqn:I; [|reflexivity].
    rewrite (idle_zero p st s g k IV A); [reflexivity| |exact I].
    intros v _. apply hb_off. apply OFF.
Qed.

Lemma inv_remove_all st s st' o : Inv none st -> r_alive (st_src st s) = true ->
  remove_all st s = (st', o) -> failed o = false -> Inv none st'.
Proof.
  intros IV A E F. unfold remove_all in E.
  destruct (remove_sources st s (added st s)) as [st1 o1] eqn:E1.
  assert (IV0 : Inv (Nat.eqb s) st) by (apply (inv_weaken none); [reflexivity|exact IV]).
  destruct (remove_sources_ok (Nat.eqb s) s (added st s) st st1 o1 IV0) as (IV1&F1&_&N1&S1);
    [intros _; apply Nat.eqb_refl|exact E1|].
  destruct (failed o1) eqn:FL; [inversion E; subst; congruence|].
  inversion E; subst st' o.
  apply (inv_clear (Nat.eqb s)); [exact IV1|intros x Hx; apply Nat.eqb_eq in Hx; congruence|].
  intros A1 v HI. assert (I : items st s v <> None).
  { apply (i_src none st IV); [exact A|now apply S1]. }
  apply (N1 eq_refl v); [|exact HI]. unfold added. apply filter_In. split.
  - apply in_seq. pose proof (i_bound none st IV v s I). lia.
  - now destruct (items st s v).
Qed.

Lemma inv_destroy st s : Inv none st -> Inv none (fst (destroy st s)).
Proof.
  intros IV. unfold destroy. cbn [fst].
  set (st1 := put_src st s (set_alive (st_src st s) false)).
  assert (AL : forall x, r_alive (st_src st1 x) = if Nat.eqb x s then false else r_alive (st_src st x)).
  { intros x. unfold st1, put_src; cbn [st_src]. unfold upd. now destruct (Nat.eqb x s). }
  assert (SK : forall x, r_skip (st_src st1 x) = r_skip (st_src st x) /\ r_avail (st_src st1 x) = r_avail (st_src st x)).
  { intros x. unfold st1, put_src; cbn [st_src]. unfold upd. destruct (Nat.eqb_spec x s) as [ ->|]; auto. }
  assert (IT : forall x g, items st1 x g = items st x g).
  { intros x g. unfold items, st1, put_src; cbn [st_src]. unfold upd. destruct (Nat.eqb_spec x s) as [ ->|]; auto. }
  assert (AA : forall x, r_alive (st_src st1 x) = true -> x <> s /\ r_alive (st_src st x) = true).
  { intros x. rewrite AL. destruct (Nat.eqb_spec x s) as [ ->|]; [discriminate|auto]. }
  assert (SB : forall v x, x <> s -> subs st1 v x = subs st v x).
  { intros v x N. unfold subs, acts, active_source. change (st_sig st1 v) with (st_sig st v).
    destruct (g_active (st_sig st v)) as [a|]; [|reflexivity]. rewrite AL.
    destruct (Nat.eqb_spec a s) as [ ->|]; [|reflexivity].
    destruct (r_alive (st_src st s)); [|reflexivity]. now rewrite (proj2 (Nat.eqb_neq s x)) by congruence. }
  assert (IV1 : Inv none st1).
  { constructor.
    - apply (i_listen none st IV).
    - apply (i_removed none st IV).
    - apply (i_nodup none st IV).
    - intros v x A. apply AA in A. rewrite IT. now apply (i_src none st IV).
    - intros v x A P. apply AA in A. rewrite IT. now apply (i_has none st IV).
    - intros v x H A. apply AA in A. now apply (i_act none st IV).
    - intros v x. rewrite IT. apply (i_bound none st IV).
    - intros v x d S1 D. destruct (SK x) as [SK1 _]. rewrite SK1, IT.
      assert (x <> s).
      { unfold subs in S1. apply andb_true_iff in S1. destruct S1 as [_ S1]. apply acts_iff in S1.
        apply active_alive in S1. now apply AA. }
      rewrite SB in S1 by assumption. now apply (i_dom none st IV v x d).
    - intros x g k A I. apply AA in A. rewrite IT in I. change (st_n st1) with (st_n st).
      rewrite (i_cnt none st IV x g k (proj2 A) I). apply cntl_ext. intros w _.
      unfold hb. destruct (SK x) as [SK1 _]. now rewrite SB, SK1.
    - intros x g A R. apply AA in A. unfold wok. rewrite IT. destruct (SK x) as [_ SK2]. rewrite SK2.
      now apply (i_wire none st IV). }
  destruct (remove_sources st1 s (added st1 s)) as [st2 o2] eqn:E2. cbn [fst].
  assert (D : r_alive (st_src st1 s) = false) by (rewrite AL, Nat.eqb_refl; reflexivity).
  destruct (remove_sources_ok none s (added st1 s) st1 st2 o2 IV1) as (IV2&F2&_&_&_);
    [rewrite D; discriminate|exact E2|].
  apply (inv_clear none); [exact IV2|discriminate|].
  rewrite (f_alive _ _ F2), D. discriminate.
Qed.

(** *** The device gives a signal another domain signal *)
Lemma inv_set_domain st v d : Inv none st -> (forall s, subs st v s = false) -> Inv none (fst (set_domain st v d)).
Proof.
  intros IV OFF. unfold set_domain. cbn [fst]. set (st' := put_sig st v _).
  assert (V' : st_sig st' v = set_dom (st_sig st v) d) by apply sig_put_same.
  assert (O' : forall w, w <> v -> st_sig st' w = st_sig st w) by (intros; now apply sig_put_other).
  assert (SM : forall w, g_conns (st_sig st' w) = g_conns (st_sig st w) /\ g_listened (st_sig st' w) = g_listened (st_sig st w) /\
    g_streamed (st_sig st' w) = g_streamed (st_sig st w) /\ g_active (st_sig st' w) = g_active (st_sig st w) /\
    g_sources (st_sig st' w) = g_sources (st_sig st w) /\ g_removed (st_sig st' w) = g_removed (st_sig st w)).
  { intros w. destruct (Nat.eq_dec w v) as [ ->|N]; [rewrite V'|rewrite O' by exact N]; auto 10. }
  assert (SB : forall w s, subs st' w s = subs st w s).
  { intros w s. destruct (SM w) as (_&M2&M3&M4&_). unfold subs. rewrite M2, M3.
    now rewrite (acts_alive st st' w s (fun _ => eq_refl) M4). }
  assert (DM : forall w, w <> v -> domain_of st' w = domain_of st w).
  { intros w N. unfold domain_of. rewrite O' by exact N. destruct (g_domain (st_sig st w)) as [x|]; [|reflexivity].
    destruct (SM x) as (_&_&_&_&_&M6). now rewrite M6. }
  assert (HB : forall s x w, hb st' s x w = hb st s x w).
  { intros s x w. destruct (Nat.eq_dec w v) as [ ->|N].
    - rewrite !hb_off; [reflexivity|apply OFF|rewrite SB; apply OFF].
    - unfold hb. now rewrite SB, DM. }
  constructor.
  - intros w. destruct (SM w) as (M1&M2&_&_&_&M6). rewrite M1, M2, M6. apply (i_listen none st IV).
  - intros w. destruct (SM w) as (M1&_&_&M4&M5&M6). rewrite M1, M4, M5, M6. apply (i_removed none st IV).
  - intros w. destruct (SM w) as (_&_&_&_&M5&_). rewrite M5. apply (i_nodup none st IV).
  - intros w s. destruct (SM w) as (_&_&_&_&M5&_). rewrite M5. apply (i_src none st IV).
  - intros w s. destruct (SM w) as (_&_&_&_&M5&_). rewrite M5. apply (i_has none st IV).
  - intros w s. destruct (SM w) as (_&_&_&M4&M5&_). rewrite M4, M5. apply (i_act none st IV).
  - apply (i_bound none st IV).
  - intros w s x S1 D. rewrite SB in S1. destruct (Nat.eq_dec w v) as [ ->|N]; [rewrite OFF in S1; discriminate|].
    rewrite DM in D by exact N. now apply (i_dom none st IV w s x).
  - intros s x k A I. rewrite (i_cnt none st IV s x k A I). apply cntl_ext. intros w _. now rewrite HB.
  - intros s g A R. destruct (SM g) as (_&_&_&_&_&M6). rewrite M6 in R. apply (i_wire none st IV s g A R).
Qed.

(** *** A signal becomes available or ceases to be *)
Lemma inv_avail_any st st' s0 g0 :
  Inv none st -> st_n st' = st_n st -> st_sig st' = st_sig st ->
  (forall s, r_alive (st_src st' s) = r_alive (st_src st s) /\ r_skip (st_src st' s) = r_skip (st_src st s) /\
     r_items (st_src st' s) = r_items (st_src st s)) ->
  (forall s g, s <> s0 \/ g <> g0 -> r_avail (st_src st' s) g = r_avail (st_src st s) g /\
     asked_rev s g (rev (st_wire st')) = asked_rev s g (rev (st_wire st))) ->
  (wok st s0 g0 -> wok st' s0 g0) -> Inv none st'.
Proof.
  intros IV EN ES EF EO EW.
  assert (IT : forall s g, items st' s g = items st s g) by (intros s g; unfold items; now rewrite (proj2 (proj2 (EF s)))).
  assert (AL : forall s, r_alive (st_src st' s) = r_alive (st_src st s)) by (intros s; apply EF).
  assert (SB : forall w s, subs st' w s = subs st w s).
  { intros w s. unfold subs. rewrite ES. now rewrite (acts_alive st st' w s AL) by now rewrite ES. }
  assert (DM : forall w, domain_of st' w = domain_of st w) by (intros w; unfold domain_of; now rewrite ES).
  constructor; rewrite ?ES, ?EN.
  - apply (i_listen none st IV).
  - apply (i_removed none st IV).
  - apply (i_nodup none st IV).
  - intros v s. rewrite AL, IT. apply (i_src none st IV).
  - intros v s. rewrite AL, IT. apply (i_has none st IV).
  - intros v s. rewrite AL. apply (i_act none st IV).
  - intros v s. rewrite IT. apply (i_bound none st IV).
  - intros v s d. rewrite SB, DM, IT, (proj1 (proj2 (EF s))). apply (i_dom none st IV).
  - intros s g k. rewrite AL, IT, EN. intros A I. rewrite (i_cnt none st IV s g k A I). apply cntl_ext.
    intros w _. unfold hb. now rewrite SB, DM, (proj1 (proj2 (EF s))).
  - intros s g. rewrite AL. intros A R. pose proof (i_wire none st IV s g A R) as W.
    destruct (Nat.eq_dec s s0) as [ ->|N]; [destruct (Nat.eq_dec g g0) as [ ->|N]; [now apply EW|]|];
      unfold wok in *; rewrite IT; [destruct (EO s0 g) as [Q1 Q2]|destruct (EO s g) as [Q1 Q2]]; auto; now rewrite Q1, Q2.
Qed.

Lemma asked_say s g w x :
  asked_rev s g (rev (w ++ [x])) =
  match x with
  | Ask s' g' => if Nat.eqb s s' && Nat.eqb g g' then true else asked_rev s g (rev w)
  | Cancel s' g' | Gone s' g' => if Nat.eqb s s' && Nat.eqb g g' then false else asked_rev s g (rev w)
  end.
Proof. rewrite rev_app_distr. now destruct x. Qed.

Lemma away (s s0 g g0 : nat) : s <> s0 \/ g <> g0 -> Nat.eqb s s0 && Nat.eqb g g0 = false.
Proof.
  intros [H|H]; [now rewrite (proj2 (Nat.eqb_neq s s0) H)|].
  rewrite (proj2 (Nat.eqb_neq g g0) H). apply andb_false_r.
Qed.

Lemma avail_put st s0 g0 b s g : s <> s0 \/ g <> g0 ->
  r_avail (st_src (put_src st s0 (set_avail (st_src st s0) (upd (r_avail (st_src st s0)) g0 b))) s) g = r_avail (st_src st s) g.
Proof.
  intros N. unfold put_src; cbn [st_src]. unfold upd.
  destruct (Nat.eqb_spec s s0) as [ ->|]; [|reflexivity]. cbn [r_avail set_avail].
  destruct (Nat.eqb_spec g g0) as [ ->|]; [|reflexivity]. destruct N; congruence.
Qed.
Lemma avail_put_same st s0 g0 b :
  r_avail (st_src (put_src st s0 (set_avail (st_src st s0) (upd (r_avail (st_src st s0)) g0 b))) s0) g0 = b.
Proof. unfold put_src; cbn [st_src]. rewrite upd_same. cbn [r_avail set_avail]. apply upd_same. Qed.
Lemma avail_put_rest st s0 f s :
  r_alive (st_src (put_src st s0 (set_avail (st_src st s0) f)) s) = r_alive (st_src st s) /\
  r_skip (st_src (put_src st s0 (set_avail (st_src st s0) f)) s) = r_skip (st_src st s) /\
  r_items (st_src (put_src st s0 (set_avail (st_src st s0) f)) s) = r_items (st_src st s).
Proof. unfold put_src; cbn [st_src]. unfold upd. destruct (Nat.eqb_spec s s0) as [ ->|]; auto. Qed.

Lemma inv_become_available st s g : Inv none st -> Inv none (fst (become_available st s g)).
Proof.
  intros IV. unfold become_available. destruct (r_avail (st_src st s) g) eqn:AV; [exact IV|].
  set (st1 := put_src st s _).
  assert (R1 : forall x, r_alive (st_src st1 x) = r_alive (st_src st x) /\ r_skip (st_src st1 x) = r_skip (st_src st x) /\
    r_items (st_src st1 x) = r_items (st_src st x)) by (intros; apply avail_put_rest).
  assert (I1 : items st1 s g = items st s g) by (unfold items; now rewrite (proj2 (proj2 (R1 s)))).
  assert (G1 : r_avail (st_src st1 s) g = true) by apply avail_put_same.
  assert (O1 : forall x y, x <> s \/ y <> g -> r_avail (st_src st1 x) y = r_avail (st_src st x) y) by (intros; now apply avail_put).
  destruct (items st s g) as [[|k]|] eqn:I; cbn [fst].
  - apply (inv_avail_any st st1 s g IV); auto. unfold wok. rewrite I1, I, AV, G1. auto.
  - apply (inv_avail_any st (say st1 (Ask s g)) s g IV); auto.
    + intros x y N. split; [now apply O1|]. cbn [st_wire say]. rewrite asked_say. now rewrite (away x s y g N).
    + intros _. unfold wok. rewrite items_say, I1. cbn [st_wire st_src say]. rewrite asked_say, !Nat.eqb_refl, G1. reflexivity.
  - apply (inv_avail_any st st1 s g IV); auto. unfold wok. rewrite I1, I, AV, G1. auto.
Qed.

Lemma inv_become_unavailable st s g : Inv none st -> Inv none (fst (become_unavailable st s g)).
Proof.
  intros IV. unfold become_unavailable. destruct (r_avail (st_src st s) g) eqn:AV; [|exact IV].
  cbn [fst]. set (st1 := put_src st s _).
  assert (G1 : r_avail (st_src st1 s) g = false) by apply avail_put_same.
  apply (inv_avail_any st (say st1 (Gone s g)) s g IV); auto.
  - intros x. apply avail_put_rest.
  - intros x y N. split; [now apply avail_put|]. cbn [st_wire say]. rewrite asked_say. now rewrite (away x s y g N).
  - intros _. unfold wok. cbn [st_wire st_src say]. rewrite asked_say, !Nat.eqb_refl, G1. reflexivity.
Qed.

Lemma inv_on st s b : Inv none st -> Inv none (put_src st s (set_on (st_src st s) b)).
Proof.
  intros IV. apply (inv_avail_any st _ s 0 IV); auto.
  - intros x. unfold put_src; cbn [st_src]. unfold upd. destruct (Nat.eqb_spec x s) as [ ->|]; auto.
  - intros x y _. unfold put_src; cbn [st_src st_wire]. unfold upd. destruct (Nat.eqb_spec x s) as [ ->|]; auto.
  - unfold wok, items, put_src; cbn [st_src st_wire]. rewrite upd_same. auto.
Qed.

Lemma inv_packet st s g k : Inv none st -> Inv none (fst (packet st s g k)).
Proof.
  intros IV. unfold packet.
  destruct (r_on (st_src st s) && _ && _ && _); [|exact IV]. cbn [fst].
  apply (inv_avail_any st _ s g IV); auto.
Qed.

(** *** A signal is removed *)
Lemma detach_all_spec l : forall st g,
  st_n (detach_all st g l) = st_n st /\ st_sig (detach_all st g l) = st_sig st /\ st_wire (detach_all st g l) = st_wire st /\
  (forall s, r_alive (st_src (detach_all st g l) s) = r_alive (st_src st s) /\
     r_skip (st_src (detach_all st g l) s) = r_skip (st_src st s) /\
     r_avail (st_src (detach_all st g l) s) = r_avail (st_src st s)) /\
  (forall s x, x <> g -> items (detach_all st g l) s x = items st s x) /\
  (forall s, r_alive (st_src st s) = true -> In s l -> items (detach_all st g l) s g = None) /\
  (forall s, items (detach_all st g l) s g = items st s g \/ items (detach_all st g l) s g = None).
Proof.
  induction l as [|a l IH]; intros st g; cbn [detach_all].
  { repeat (split; [reflexivity|]). split; [auto|]. split; [auto|]. split; [intros s _ []|auto]. }
  set (st1 := if r_alive (st_src st a) then put_item st a g None else st).
  destruct (IH st1 g) as (A1&A2&A3&A4&A5&A6&A7).
  assert (B1 : st_n st1 = st_n st /\ st_sig st1 = st_sig st /\ st_wire st1 = st_wire st)
    by (unfold st1; destruct (r_alive (st_src st a)); auto).
  assert (B2 : forall s, r_alive (st_src st1 s) = r_alive (st_src st s) /\ r_skip (st_src st1 s) = r_skip (st_src st s) /\
     r_avail (st_src st1 s) = r_avail (st_src st s)).
  { intros s. unfold st1. destruct (r_alive (st_src st a)); [|auto].
    destruct (put_item_fields st a g None s) as (P1&_&P3&P4). auto. }
  assert (B3 : forall s x, items st1 s x = if r_alive (st_src st a) && Nat.eqb s a && Nat.eqb x g then None else items st s x).
  { intros s x. unfold st1. destruct (r_alive (st_src st a)); [|reflexivity]. cbn [andb]. apply items_put. }
  destruct B1 as (B0&B1&B4). rewrite A1, A2, A3. split; [exact B0|]. split; [exact B1|]. split; [exact B4|].
  split; [|split; [|split]].
  - intros s. destruct (A4 s) as (C1&C2&C3), (B2 s) as (D1&D2&D3). rewrite C1, C2, C3. auto.
  - intros s x N. rewrite A5, B3 by exact N. now rewrite (proj2 (Nat.eqb_neq x g) N), andb_false_r.
  - intros s A [ ->|HI].
    + destruct (A7 s) as [E|E]; [|exact E]. rewrite E, B3, A, !Nat.eqb_refl. reflexivity.
    + apply A6; [now rewrite (proj1 (B2 s))|exact HI].
  - intros s. destruct (A7 s) as [E|E]; [|now right]. rewrite E, B3.
    destruct (r_alive (st_src st a) && Nat.eqb s a && Nat.eqb g g); auto.
Qed.

Lemma forget_domain_spec g l : forall st, NoDup l ->
  st_n (forget_domain st g l) = st_n st /\ st_src (forget_domain st g l) = st_src st /\ st_wire (forget_domain st g l) = st_wire st /\
  (forall v, g_conns (st_sig (forget_domain st g l) v) = g_conns (st_sig st v) /\
     g_listened (st_sig (forget_domain st g l) v) = g_listened (st_sig st v) /\
     g_streamed (st_sig (forget_domain st g l) v) = g_streamed (st_sig st v) /\
     g_active (st_sig (forget_domain st g l) v) = g_active (st_sig st v) /\
     g_sources (st_sig (forget_domain st g l) v) = g_sources (st_sig st v) /\
     g_removed (st_sig (forget_domain st g l) v) = g_removed (st_sig st v)) /\
  (forall v, g_domain (st_sig (forget_domain st g l) v) = g_domain (st_sig st v) \/
     g_domain (st_sig st v) = Some g /\ g_domain (st_sig (forget_domain st g l) v) = None).
Proof.
  induction l as [|a l IH]; intros st ND; cbn [forget_domain].
  { repeat (split; [reflexivity|]). split; [auto 10|auto]. }
  set (st1 := match g_domain (st_sig st a) with Some d => _ | None => _ end).
  inversion ND as [|? ? N1 N2]; subst. destruct (IH st1 N2) as (A1&A2&A3&A4&A5).
  assert (B1 : st_n st1 = st_n st /\ st_src st1 = st_src st /\ st_wire st1 = st_wire st).
  { unfold st1. destruct (g_domain (st_sig st a)) as [d|]; [|auto]. destruct (Nat.eqb d g); auto. }
  assert (B2 : forall v, st_sig st1 v = st_sig st v \/
    g_domain (st_sig st v) = Some g /\ st_sig st1 v = set_dom (st_sig st v) None).
  { intros v. unfold st1. destruct (g_domain (st_sig st a)) as [d|] eqn:D; [|now left].
    destruct (Nat.eqb_spec d g) as [ ->|]; [|now left].
    destruct (Nat.eq_dec v a) as [ ->|N]; [right; split; [exact D|apply sig_put_same]|left; now apply sig_put_other]. }
  destruct B1 as (B0&B1&B4). rewrite A1, A2, A3. split; [exact B0|]. split; [exact B1|]. split; [exact B4|].
  split; intros v.
  - destruct (A4 v) as (C1&C2&C3&C4&C5&C6). rewrite C1, C2, C3, C4, C5, C6.
    destruct (B2 v) as [ ->|[_ ->]]; auto 10.
  - destruct (B2 v) as [E|[E1 E2]].
    + destruct (A5 v) as [F|[F1 F2]]; [left; congruence|right; split; congruence].
    + right. split; [exact E1|]. destruct (A5 v) as [F|[F1 F2]]; [|exact F2]. rewrite F, E2. reflexivity.
Qed.

Lemma inv_remove st g : Inv none st -> Inv none (fst (remove st g)).
Proof.
  intros IV. unfold remove. destruct (g_removed (st_sig st g)) eqn:R; [exact IV|]. cbn [fst].
  set (st0 := put_sig st g (set_rem (st_sig st g) true)).
  assert (V0 : st_sig st0 g = set_rem (st_sig st g) true) by apply sig_put_same.
  assert (A0 : active_source st0 g = active_source st g) by (unfold active_source; now rewrite V0).
  assert (LG : exists st1 o, let_go st0 g = (st1, o) /\ eff st0 st1 /\ Cnt st1 (Hclr (hb st) g)).
  { unfold let_go. rewrite V0. cbn [g_listened g_streamed set_rem].
    destruct (g_listened (st_sig st g) && g_streamed (st_sig st g)) eqn:LT.
    - apply andb_true_iff in LT. destruct LT as [L T].
      destruct (unsub_int st0 g (hb st)) as (st1&o&E1&_&E2&E3).
      + exact (i_cnt none st IV).
      + intros s Hs. rewrite A0 in Hs. destruct (held none st g IV L T s Hs) as (D1&D2&D3&D4&D5).
        assert (DE : domain_of st0 g = domain_of st g).
        { unfold domain_of in *. rewrite V0. cbn [g_domain set_rem].
          destruct (g_domain (st_sig st g)) as [d|] eqn:DD; [|reflexivity].
          destruct (Nat.eq_dec d g) as [ ->|N]; [|unfold st0; now rewrite sig_put_other by exact N].
          rewrite R in D3. now destruct D3. }
        rewrite DE. auto.
      + intros s x Hs. rewrite A0 in Hs. apply hb_off. now apply subs_nact.
      + exists st1, o. auto.
    - exists st0, OK. split; [reflexivity|]. split; [apply eff_refl|].
      refine (Cnt_ext _ _ _ _ (i_cnt none st IV)). intros s x w _ _ _. unfold Hclr.
      destruct (Nat.eqb_spec w g) as [ ->|]; [|reflexivity]. apply hb_off. unfold subs. now rewrite LT. }
  destruct LG as (st1&o&E1&EF&C1). rewrite E1. cbn [fst].
  set (st2 := put_sig st1 g (set_act (st_sig st1 g) None)).
  assert (V2 : st_sig st2 g = set_act (set_rem (st_sig st g) true) None).
  { unfold st2. now rewrite sig_put_same, (e_sig _ _ EF), V0. }
  set (st3 := detach_all st2 g (g_sources (st_sig st2 g))).
  destruct (detach_all_spec (g_sources (st_sig st2 g)) st2 g) as (T1&T2&T3&T4&T5&T6&T7). fold st3 in T1, T2, T3, T4, T5, T6, T7.
  set (st4 := put_sig st3 g (set_conns (set_sources (st_sig st3 g) []) [])).
  assert (V4 : st_sig st4 g = set_conns (set_sources (set_act (set_rem (st_sig st g) true) None) []) []).
  { unfold st4. rewrite sig_put_same, T2. now rewrite V2. }
  assert (O4 : forall w, w <> g -> st_sig st4 w = st_sig st w).
  { intros w N. unfold st4. rewrite sig_put_other, T2 by exact N. unfold st2. rewrite sig_put_other by exact N.
    rewrite (e_sig _ _ EF). now apply sig_put_other. }
  set (st5 := forget_domain st4 g (seq 0 (st_n st4))).
  destruct (forget_domain_spec g (seq 0 (st_n st4)) st4 (seq_NoDup _ _)) as (U1&U2&U3&U4&U5). fold st5 in U1, U2, U3, U4, U5.
  assert (N5 : st_n st5 = st_n st).
  { rewrite U1. change (st_n st4) with (st_n st3). rewrite T1. change (st_n st2) with (st_n st1). exact (e_n _ _ EF). }
  assert (R5 : forall s, r_alive (st_src st5 s) = r_alive (st_src st s) /\ r_skip (st_src st5 s) = r_skip (st_src st s) /\
    r_avail (st_src st5 s) = r_avail (st_src st s)).
  { intros s. rewrite U2. change (st_src st4) with (st_src st3). destruct (T4 s) as (Q1&Q2&Q3). rewrite Q1, Q2, Q3.
    change (st_src st2) with (st_src st1). rewrite (e_alive _ _ EF), (e_skip _ _ EF), (e_avail _ _ EF). auto. }
  assert (I5 : forall s x, x <> g -> items st5 s x = items st1 s x).
  { intros s x N. unfold items. rewrite U2. change (items st3 s x = items st1 s x). rewrite T5 by exact N. reflexivity. }
  assert (IG : forall s, r_alive (st_src st s) = true -> items st5 s g = None).
  { intros s A. unfold items. rewrite U2. change (items st3 s g = None).
    destruct (items st s g) as [k|] eqn:I.
    - apply T6; [change (st_src st2) with (st_src st1); now rewrite (e_alive _ _ EF)|].
      rewrite V2. cbn [g_sources set_act set_rem]. apply (i_has none st IV); [exact A|reflexivity|congruence].
    - destruct (T7 s) as [E|E]; [|exact E]. rewrite E. change (items st1 s g = None). now apply (e_items _ _ EF). }
  assert (SB : forall w s, w <> g -> subs st5 w s = subs st w s).
  { intros w s N. destruct (U4 w) as (_&M2&M3&M4&_). unfold subs. rewrite M2, M3, O4 by exact N.
    rewrite (acts_alive st st5 w s); [reflexivity|intros x; apply R5|]. now rewrite M4, O4. }
  assert (SG : forall s, subs st5 g s = false).
  { intros s. unfold subs. rewrite acts_off; [apply andb_false_r|]. destruct (U4 g) as (_&_&_&M4&_). now rewrite M4, V4. }
  assert (DM : forall w, w <> g -> domain_of st5 w = match domain_of st w with Some d => if Nat.eqb d g then None else Some d | None => None end).
  { intros w N. unfold domain_of. destruct (U5 w) as [E|[E1' E2']].
    - rewrite E, O4 by exact N. destruct (g_domain (st_sig st w)) as [d|]; [|reflexivity].
      destruct (U4 d) as (_&_&_&_&_&M6). rewrite M6.
      destruct (Nat.eqb_spec d g) as [ ->|Nd].
      + rewrite V4, R. cbn [g_removed set_conns set_sources set_act set_rem]. now rewrite Nat.eqb_refl.
      + rewrite O4 by exact Nd. destruct (g_removed (st_sig st d)); [reflexivity|].
        now rewrite (proj2 (Nat.eqb_neq d g) Nd).
    - rewrite O4 in E1' by exact N. rewrite E1', E2'. rewrite R. now rewrite Nat.eqb_refl. }
  constructor.
  - intros w. destruct (U4 w) as (M1&M2&_&_&_&M6). rewrite M1, M2, M6.
    destruct (Nat.eq_dec w g) as [ ->|N]; [rewrite V4; discriminate|]. rewrite O4 by exact N. apply (i_listen none st IV).
  - intros w. destruct (U4 w) as (M1&_&_&M4&M5&M6). rewrite M1, M4, M5, M6.
    destruct (Nat.eq_dec w g) as [ ->|N]; [rewrite V4; auto|]. rewrite O4 by exact N. apply (i_removed none st IV).
  - intros w. destruct (U4 w) as (_&_&_&_&M5&_). rewrite M5.
    destruct (Nat.eq_dec w g) as [ ->|N]; [rewrite V4; constructor|]. rewrite O4 by exact N. apply (i_nodup none st IV).
  - intros w s A HI. rewrite (proj1 (R5 s)) in A. destruct (U4 w) as (_&_&_&_&M5&_). rewrite M5 in HI.
    destruct (Nat.eq_dec w g) as [ ->|N]; [rewrite V4 in HI; destruct HI|]. rewrite O4 in HI by exact N.
    rewrite I5 by exact N. rewrite (e_items _ _ EF). now apply (i_src none st IV).
  - intros w s A _ HI. rewrite (proj1 (R5 s)) in A. destruct (U4 w) as (_&_&_&_&M5&_). rewrite M5.
    destruct (Nat.eq_dec w g) as [ ->|N]; [now rewrite IG in HI|]. rewrite O4 by exact N.
    rewrite I5 in HI by exact N. rewrite (e_items _ _ EF) in HI. now apply (i_has none st IV).
  - intros w s H A. rewrite (proj1 (R5 s)) in A. destruct (U4 w) as (_&_&_&M4&M5&_). rewrite M4 in H. rewrite M5.
    destruct (Nat.eq_dec w g) as [ ->|N]; [rewrite V4 in H; discriminate|]. rewrite O4 in * by exact N. now apply (i_act none st IV).
  - intros w s HI. rewrite N5. apply (i_bound none st IV w s).
    destruct (Nat.eq_dec w g) as [ ->|N].
    + unfold items in HI. rewrite U2 in HI. change (items st3 s g <> None) in HI.
      destruct (T7 s) as [E|E]; [|now rewrite E in HI]. rewrite E in HI. change (items st1 s g <> None) in HI.
      now rewrite (e_items _ _ EF) in HI.
    + rewrite I5, (e_items _ _ EF) in HI by exact N. exact HI.
  - intros w s d S1 D. destruct (Nat.eq_dec w g) as [ ->|N]; [rewrite SG in S1; discriminate|].
    rewrite SB in S1 by exact N. rewrite DM in D by exact N.
    destruct (domain_of st w) as [d'|] eqn:DD; [|discriminate].
    destruct (Nat.eqb_spec d' g) as [|Nd]; [discriminate|]. inversion D; subst d'.
    destruct (i_dom none st IV w s d S1 DD) as [Q1 Q2]. split; [exact Q1|].
    rewrite (proj1 (proj2 (R5 s))). intros Sk. rewrite I5, (e_items _ _ EF) by exact Nd. now apply Q2.
  - intros s x k A I. rewrite (proj1 (R5 s)) in A. rewrite N5.
    destruct (Nat.eq_dec x g) as [ ->|Nx]; [rewrite IG in I by exact A; discriminate|].
    rewrite I5 in I by exact Nx.
    assert (A1 : r_alive (st_src st1 s) = true) by now rewrite (e_alive _ _ EF).
    rewrite (C1 s x k A1 I). rewrite (e_n _ _ EF). apply cntl_ext. intros w _. unfold Hclr.
    destruct (Nat.eqb_spec w g) as [ ->|N]; [now rewrite (hb_off st5)|].
    unfold hb. rewrite SB, DM, (proj1 (proj2 (R5 s))) by exact N.
    destruct (subs st w s); [|reflexivity]. cbn [andb]. unfold need.
    destruct (domain_of st w) as [d|]; [|reflexivity].
    destruct (Nat.eqb_spec d g) as [ ->|]; [|reflexivity]. now rewrite (proj2 (Nat.eqb_neq x g) Nx).
  - intros s x A RX. rewrite (proj1 (R5 s)) in A.
    assert (Nx : x <> g).
    { intros ->. destruct (U4 g) as (_&_&_&_&_&M6). rewrite M6, V4 in RX. discriminate. }
    destruct (U4 x) as (_&_&_&_&_&M6). rewrite M6, O4 in RX by exact Nx.
    assert (W : wok st1 s x) by (apply (e_wok _ _ EF); exact (i_wire none st IV s x A RX)).
    unfold wok in *. rewrite I5 by exact Nx. rewrite U3. change (st_wire st4) with (st_wire st3). rewrite T3.
    change (st_wire st2) with (st_wire st1). rewrite W. rewrite (proj2 (proj2 (R5 s))). now rewrite (e_avail _ _ EF).
Qed.

(** *** All histories *)
Lemma subs_receives p st v s : Inv p st -> subs st v s = true <-> receives st v s.
Proof.
  intros IV. unfold subs, receives, listening. rewrite !andb_true_iff, acts_iff.
  assert (L : active_source st v = Some s -> (g_listened (st_sig st v) = true <-> g_conns (st_sig st v) <> [])).
  { intros A. apply active_alive in A. destruct A as [A _].
    destruct (g_removed (st_sig st v)) eqn:R; [destruct (i_removed p st IV v R); congruence|].
    rewrite (i_listen p st IV v R). unfold ne. destruct (g_conns (st_sig st v)); split; easy. }
  split.
  - intros [[H1 H2] H3]. split; [now apply L|auto].
  - intros [H1 [H2 H3]]. split; [split; [now apply L|exact H2]|exact H3].
Qed.

Lemma hb_needs p st v s g : Inv p st -> hb st s g v = true <-> needs st v s g.
Proof.
  intros IV. unfold hb, needs. rewrite andb_true_iff, (subs_receives p st v s IV).
  enough (Q : need (r_skip (st_src st s)) v (domain_of st v) g = true <->
    (v = g \/ g_domain (st_sig st v) = Some g /\ g_removed (st_sig st g) = false /\ r_skip (st_src st s) = false)) by tauto.
  unfold need, domain_of. rewrite orb_true_iff, Nat.eqb_eq, andb_true_iff, negb_true_iff.
  destruct (g_domain (st_sig st v)) as [d|].
  - destruct (g_removed (st_sig st d)) eqn:R.
    + split; [intros [H|[_ H]]; [now left|discriminate]|intros [H|(H&H2&_)]; [now left|]]. inversion H; subst. congruence.
    + rewrite Nat.eqb_eq. split.
      * intros [H|[H1 H2]]; [now left|right; subst; auto].
      * intros [H|(H&H2&H3)]; [now left|right; inversion H; auto].
  - split; [intros [H|[_ H]]; [now left|discriminate]|intros [H|(H&_)]; [now left|discriminate]].
Qed.

Lemma inv_start n skip : Inv none (start n skip).
Proof.
  constructor; try (unfold start, items; cbn [st_sig st_src g_sources g_active g_removed g_listened g_conns r_items]; easy).
  - intros v. constructor.
Qed.

Lemma inv_step st o : Inv none st -> calm st o -> failed (snd (step st o)) = false -> Inv none (fst (step st o)).
Proof.
  intros IV CM F. unfold step in *. destruct (possible st o) eqn:P; [|exact IV].
  unfold possible in P. rewrite !andb_true_iff in P. destruct P as [[P1 P2] _].
  destruct o as [g c|g c|g s|g|g b|s g|s g|s|s|g d|g|s g|s g|s b|s g k]; cbn [act op_sig op_src calm] in *;
    try apply Nat.ltb_lt in P1.
  - destruct (connect st g c) as [st' o'] eqn:E. now apply (inv_connect none st g c st' o').
  - destruct (disconnect st g c) as [st' o'] eqn:E. now apply (inv_disconnect none st g c st' o').
  - destruct (set_active st g s) as [st' o'] eqn:E. now apply (inv_set_active none st g s st' o').
  - now apply inv_deactivate.
  - destruct (set_streamed st g b) as [st' o'] eqn:E. now apply (inv_set_streamed none st g b st' o').
  - destruct (add_signal st s g) as [st' o'] eqn:E. now apply (inv_add_signal st s g st' o').
  - destruct (remove_signal st s g) as [st' o'] eqn:E. apply (inv_remove_signal st s g st' o'); try assumption.
    intros v N. destruct (hb st s g v) eqn:H; [|reflexivity].
    destruct (CM v N). now apply (hb_needs none st v s g IV).
  - destruct (remove_all st s) as [st' o'] eqn:E. now apply (inv_remove_all st s st' o').
  - now apply inv_destroy.
  - apply inv_set_domain; [exact IV|]. intros s. destruct (subs st g s) eqn:H; [|reflexivity].
    destruct (CM s). now apply (subs_receives none st g s IV).
  - now apply inv_remove.
  - now apply inv_become_available.
  - now apply inv_become_unavailable.
  - now apply inv_on.
  - now apply inv_packet.
Qed.

Lemma inv_reached n skip st : reached n skip st -> Inv none st.
Proof. induction 1 as [|st o _ IH CM F]; [apply inv_start|now apply inv_step]. Qed.

Lemma has_item st s g : Inv none st -> has st s g -> exists k, items st s g = Some k.
Proof.
  intros IV [H A]. pose proof (i_src none st IV g s A H) as N. destruct (items st s g) as [k|]; [now exists k|easy].
Qed.

Lemma has_kept st s g : Inv none st -> has st s g -> g_removed (st_sig st g) = false.
Proof.
  intros IV [H A]. destruct (g_removed (st_sig st g)) eqn:R; [|reflexivity].
  destruct (i_removed none st IV g R) as (_&Z&_). now rewrite Z in H.
Qed.

Lemma in_accord st s g : Inv none st -> has st s g ->
  asked (st_wire st) s g <-> r_avail (st_src st s) g = true /\ exists v, needs st v s g.
Proof.
  intros IV HS. destruct (has_item st s g IV HS) as [k I].
  pose proof (i_wire none st IV s g (proj2 HS) (has_kept st s g IV HS)) as W.
  unfold asked. rewrite W, I, andb_true_iff.
  assert (K : k = cntl (hb st s g) (seq 0 (st_n st))) by (apply (i_cnt none st IV); [apply HS|exact I]).
  assert (Q : match k with S _ => true | 0 => false end = true <-> exists v, needs st v s g).
  { split.
    - intros Z. destruct (cntl_ex (hb st s g) (seq 0 (st_n st))) as [v [_ Hv]]; [destruct k; [discriminate|lia]|].
      exists v. now apply (hb_needs none st v s g IV).
    - intros [v Hv]. apply (hb_needs none st v s g IV) in Hv.
      assert (B : v < st_n st).
      { unfold hb in Hv. apply andb_true_iff in Hv. destruct Hv as [Hv _]. unfold subs in Hv. apply andb_true_iff in Hv.
        destruct Hv as [_ Hv]. apply acts_iff in Hv. now apply (active_item none st v s IV). }
      assert (0 < k) by (rewrite K; apply (cntl_pos _ _ v); [apply in_seq; lia|exact Hv]).
      destruct k; [lia|reflexivity]. }
  now rewrite Q.
Qed.

(** *** Calls that succeed *)
Lemma do_subscribe_some st s g : items st s g <> None -> snd (do_subscribe st s g) = OK.
Proof.
  intros N. unfold do_subscribe. destruct (items st s g) as [k|]; [|easy].
  destruct (r_avail (st_src st s) g && Nat.eqb k 0); reflexivity.
Qed.
Lemma do_subscribe_items st s g s' g' : items st s' g' <> None -> items (fst (do_subscribe st s g)) s' g' <> None.
Proof.
  intros N. unfold do_subscribe. destruct (items st s g) as [k|]; [|easy].
  assert (Q : items (put_item st s g (Some (S k))) s' g' <> None).
  { rewrite items_put. now destruct (Nat.eqb s' s && Nat.eqb g' g). }
  destruct (r_avail (st_src st s) g && Nat.eqb k 0); cbn [fst]; [now rewrite items_say|exact Q].
Qed.

Lemma subscribe_some st s g d : items st s g <> None -> d <> Some g ->
  (r_skip (st_src st s) = false -> forall x, d = Some x -> items st s x <> None) ->
  snd (subscribe st s g d) = OK.
Proof.
  intros N D I. unfold subscribe. destruct d as [d|]; [|now apply do_subscribe_some].
  destruct (Nat.eqb_spec g d) as [ ->|]; [easy|].
  destruct (r_skip (st_src st s)) eqn:Sk; [now apply do_subscribe_some|].
  pose proof (do_subscribe_some st s d (I eq_refl d eq_refl)) as Q.
  pose proof (do_subscribe_items st s d s g N) as Q2.
  destruct (do_subscribe st s d) as [st1 o]. cbn [fst snd] in *. subst o. now apply do_subscribe_some.
Qed.

(** The subscription of [v], in a state that differs from [st] in [v] only. *)
Lemma subscribe_internal_some st st1 v :
  Inv none st -> complete st -> effs st st1 -> only st st1 v ->
  (forall s, active_source st1 v = Some s -> has st s v) ->
  failed (snd (subscribe_internal st1 v)) = false.
Proof.
  intros IV CP F O A. unfold subscribe_internal. destruct (active_source st1 v) as [s|] eqn:E; [|reflexivity].
  specialize (A s eq_refl). destruct (has_item st s v IV A) as [k I].
  assert (Q : forall d, domain_of st v = Some d -> d <> v /\ (r_skip (st_src st s) = false -> items st s d <> None)).
  { intros d D. unfold domain_of in D. destruct (g_domain (st_sig st v)) as [d'|] eqn:GD; [|discriminate].
    destruct (g_removed (st_sig st d')) eqn:R; [discriminate|]. inversion D; subst d'.
    destruct (CP v s d A GD R) as [Q1 Q2]. split; [exact Q1|]. intros Sk.
    destruct (has_item st s d IV (Q2 Sk)) as [x X]. congruence. }
  rewrite subscribe_some; [reflexivity| | |]; rewrite ?(only_domain st st1 v v O), ?(f_skip _ _ F).
  - rewrite (f_items _ _ F). congruence.
  - intros D. now destruct (Q v D).
  - intros Sk x D. rewrite (f_items _ _ F). now apply Q.
Qed.

Lemma active_has st v s : Inv none st -> active_source st v = Some s -> has st s v.
Proof.
  intros IV A. apply active_alive in A. destruct A as [A1 A2]. split; [now apply (i_act none st IV)|exact A2].
Qed.

Lemma connect_succeeds st g c : Inv none st -> complete st -> g_removed (st_sig st g) = false ->
  ~ In c (g_conns (st_sig st g)) -> failed (snd (connect st g c)) = false.
Proof.
  intros IV CP R NI. unfold connect. rewrite R.
  assert (M : memb c (g_conns (st_sig st g)) = false).
  { destruct (memb c (g_conns (st_sig st g))) eqn:M; [|reflexivity]. now apply memb_In in M. }
  rewrite M. destruct (g_conns (st_sig st g)) as [|c0 cs] eqn:CN; [|reflexivity].
  unfold on_listened. rewrite (i_listen none st IV g R), CN. cbn [ne Bool.eqb].
  set (st1 := put_sig st g (set_listened (st_sig st g) true)).
  destruct (g_streamed (st_sig st g)); [|reflexivity].
  pose proof (subscribe_internal_some st st1 g IV CP (effs_put _ _ _) (only_put st g (set_listened (st_sig st g) true) eq_refl eq_refl)) as Q.
  destruct (subscribe_internal st1 g) as [st2 o] eqn:E. cbn [snd] in Q. rewrite Q; [reflexivity|].
  intros s A. apply (active_has st g s IV). unfold active_source in *. unfold st1 in A.
  rewrite sig_put_same in A. exact A.
Qed.

Lemma set_active_succeeds st g s : Inv none st -> complete st -> has st s g -> failed (snd (set_active st g s)) = false.
Proof.
  intros IV CP [H A]. unfold set_active.
  destruct (match active_source st g with Some s1 => Nat.eqb s1 s | None => false end); [reflexivity|].
  rewrite (proj2 (memb_In s (g_sources (st_sig st g))) H), A. cbn [negb].
  destruct (let_go_ok none st g IV) as (st1&o1&E1&FL&EF&_). rewrite E1, FL.
  set (st2 := put_sig st1 g _).
  assert (F2 : effs st st2) by (apply (effs_trans _ st1 _ (eff_effs _ _ EF)); apply effs_put).
  assert (O2 : only st st2 g) by (apply (only_trans _ st1 _ _ (only_eff _ _ _ EF)); now apply only_put).
  destruct (g_listened (st_sig st g) && g_streamed (st_sig st g)); [|reflexivity].
  pose proof (subscribe_internal_some st st2 g IV CP F2 O2) as Q.
  destruct (subscribe_internal st2 g) as [st3 o3]. cbn [snd] in Q. rewrite Q; [reflexivity|].
  intros x AX. unfold active_source, st2 in AX. rewrite sig_put_same in AX. cbn [g_active set_act] in AX.
  destruct (r_alive (st_src (put_sig st1 g (set_act (st_sig st1 g) (Some s))) s)); [|discriminate].
  inversion AX; subst. now split.
Qed.

Lemma set_streamed_succeeds st g b : Inv none st -> complete st -> failed (snd (set_streamed st g b)) = false.
Proof.
  intros IV CP. unfold set_streamed. destruct (Bool.eqb b (g_streamed (st_sig st g))) eqn:B; [reflexivity|].
  set (st1 := put_sig st g (set_str (st_sig st g) b)).
  assert (V1 : st_sig st1 g = set_str (st_sig st g) b) by apply sig_put_same.
  assert (F1 : effs st st1) by apply effs_put.
  assert (O1 : only st st1 g) by now apply only_put.
  destruct (g_listened (st_sig st g)) eqn:L; [|reflexivity]. destruct b.
  - pose proof (subscribe_internal_some st st1 g IV CP F1 O1) as Q.
    destruct (subscribe_internal st1 g) as [st2 o]. cbn [snd] in Q. rewrite Q; [reflexivity|].
    intros s A. apply (active_has st g s IV). unfold active_source in *. rewrite V1 in A. exact A.
  - destruct (g_streamed (st_sig st g)) eqn:T; [|discriminate].
    destruct (turn_off none st st1 g IV F1 O1 (i_cnt none st IV)) as (st2&o2&E2&FL&_); [now rewrite V1|exact L|exact T|].
    now rewrite E2, FL.
Qed.

Lemma remove_signal_succeeds st s g : Inv none st -> has st s g -> failed (snd (remove_signal st s g)) = false.
Proof.
  intros IV HS. unfold remove_signal. destruct (remove_source st g s) as [st1 o1] eqn:E1.
  assert (IV0 : Inv (Nat.eqb s) st) by (apply (inv_weaken none); [reflexivity|exact IV]).
  destruct (remove_source_ok (Nat.eqb s) st g s st1 o1 IV0) as (_&F1&_&Q&_); [intros _; apply Nat.eqb_refl|exact E1|].
  rewrite (Q (proj1 HS)). destruct (has_item st s g IV HS) as [k I].
  destruct (items st1 s g) eqn:I1; [reflexivity|]. apply (f_items _ _ F1) in I1. congruence.
Qed.

Lemma remove_sources_succeed p s l : forall st, Inv p st -> (r_alive (st_src st s) = true -> p s = true) -> NoDup l ->
  (forall g, In g l -> In s (g_sources (st_sig st g))) -> failed (snd (remove_sources st s l)) = false.
Proof.
  induction l as [|g l IH]; intros st IV P ND H; cbn [remove_sources]; [reflexivity|].
  destruct (remove_source st g s) as [st1 o1] eqn:E1. inversion ND as [|? ? N1 N2]; subst.
  destruct (remove_source_ok p st g s st1 o1 IV P E1) as (IV1&F1&O1&Q&_).
  rewrite (Q (H g (or_introl eq_refl))). apply IH; [exact IV1|now rewrite (f_alive _ _ F1)|exact N2|].
  intros x Hx. destruct O1 as (O1&_). rewrite O1; [apply H; now right|]. intros ->. easy.
Qed.

Lemma remove_all_succeeds st s : Inv none st -> r_alive (st_src st s) = true -> failed (snd (remove_all st s)) = false.
Proof.
  intros IV A. unfold remove_all.
  assert (IV0 : Inv (Nat.eqb s) st) by (apply (inv_weaken none); [reflexivity|exact IV]).
  pose proof (remove_sources_succeed (Nat.eqb s) s (added st s) st IV0 (fun _ => Nat.eqb_refl s)) as Q.
  destruct (remove_sources st s (added st s)) as [st1 o1]. cbn [snd] in Q. rewrite Q; [reflexivity| |].
  - apply NoDup_filter, seq_NoDup.
  - intros g Hg. apply filter_In in Hg. destruct Hg as [_ Hg]. apply (i_has none st IV); [exact A|reflexivity|].
    now destruct (items st s g).
Qed.

(** Subscribing changes items and the wire only. *)
Lemma do_subscribe_frame st s g : st_sig (fst (do_subscribe st s g)) = st_sig st /\ st_out (fst (do_subscribe st s g)) = st_out st /\
  (forall x, r_alive (st_src (fst (do_subscribe st s g)) x) = r_alive (st_src st x)).
Proof.
  unfold do_subscribe. destruct (items st s g) as [k|]; [|auto].
  assert (Q : forall x, r_alive (st_src (put_item st s g (Some (S k))) x) = r_alive (st_src st x)) by (intros; apply put_item_fields).
  destruct (r_avail (st_src st s) g && Nat.eqb k 0); auto.
Qed.
Lemma do_unsubscribe_frame st s g : st_sig (fst (do_unsubscribe st s g)) = st_sig st /\ st_out (fst (do_unsubscribe st s g)) = st_out st.
Proof.
  unfold do_unsubscribe. destruct (items st s g) as [[|k]|]; auto.
  destruct (r_avail (st_src st s) g && Nat.eqb k 0); auto.
Qed.
Lemma subscribe_frame st s g d st' o : subscribe st s g d = (st', o) ->
  (st_sig st' = st_sig st /\ forall x, r_alive (st_src st' x) = r_alive (st_src st x)).
Proof.
  intros E. assert (Q : forall st0 s0 g0, st_sig (fst (do_subscribe st0 s0 g0)) = st_sig st0 /\
    forall x, r_alive (st_src (fst (do_subscribe st0 s0 g0)) x) = r_alive (st_src st0 x)).
  { intros st0 s0 g0. destruct (do_subscribe_frame st0 s0 g0) as (Q1&_&Q3). auto. }
  assert (Z : st' = fst (subscribe st s g d)) by now rewrite E. subst st'. clear E. unfold subscribe.
  destruct d as [d|]; [|apply Q]. destruct (Nat.eqb g d); [auto|].
  destruct (r_skip (st_src st s)); [apply Q|].
  pose proof (Q st s d) as [Q1 Q2]. destruct (do_subscribe st s d) as [st1 o1]. cbn [fst] in *.
  destruct o1; cbn [fst]; auto. destruct (Q st1 s g) as [Q3 Q4]. split; [congruence|]. intros x. now rewrite Q4.
Qed.

Lemma set_active_active st g s : Inv none st -> failed (snd (set_active st g s)) = false ->
  active_source (fst (set_active st g s)) g = Some s.
Proof.
  intros IV F. unfold set_active in *.
  destruct (active_source st g) as [a|] eqn:A0; cbn [negb] in *.
  1: destruct (Nat.eqb_spec a s) as [ ->|NE]; [exact A0|].
  all: destruct (memb s (g_sources (st_sig st g))); cbn [negb] in *; [|discriminate].
  all: destruct (r_alive (st_src st s)) eqn:Al; cbn [negb] in *; [|discriminate].
  all: destruct (let_go_ok none st g IV) as (st1&o1&E1&FL&EF&_); rewrite E1, FL in *.
  all: assert (A2 : active_source (put_sig st1 g (set_act (st_sig st1 g) (Some s))) g = Some s)
    by (unfold active_source; rewrite sig_put_same; cbn [g_active set_act];
        change (st_src (put_sig st1 g (set_act (st_sig st1 g) (Some s)))) with (st_src st1);
        now rewrite (e_alive _ _ EF), Al).
  all: destruct (g_listened (st_sig st g) && g_streamed (st_sig st g)); [|exact A2].
  all: unfold subscribe_internal in *; rewrite A2 in *.
  all: match goal with |- context [subscribe ?a ?b ?c ?d] => destruct (subscribe a b c d) as [st3 o3] eqn:E3 end; cbn [fst snd] in *.
  all: pose proof (subscribe_frame _ _ _ _ _ _ E3) as [Q1 Q2]; unfold active_source in *; rewrite Q1; rewrite sig_put_same in *; cbn [g_active set_act] in *; now rewrite Q2.
Qed.

(** *** What is delivered *)
Lemma subscribe_out st s g d : st_out (fst (subscribe st s g d)) = st_out st.
Proof.
  unfold subscribe. assert (Q := fun a b c => proj1 (proj2 (do_subscribe_frame a b c))).
  destruct d as [d|]; [|apply Q]. destruct (Nat.eqb g d); [reflexivity|]. destruct (r_skip (st_src st s)); [apply Q|].
  pose proof (Q st s d) as Q1. destruct (do_subscribe st s d) as [st1 o1]. cbn [fst] in *. destruct o1; cbn [fst]; auto.
  now rewrite Q.
Qed.
Lemma unsubscribe_out st s g d : st_out (fst (unsubscribe st s g d)) = st_out st.
Proof.
  unfold unsubscribe. assert (Q := fun a b c => proj2 (do_unsubscribe_frame a b c)).
  destruct d as [d|]; [|apply Q]. destruct (Nat.eqb g d); [reflexivity|]. destruct (r_skip (st_src st s)); [apply Q|].
  pose proof (Q st s d) as Q1. destruct (do_unsubscribe st s d) as [st1 o1]. cbn [fst] in *. destruct o1; cbn [fst]; auto.
  now rewrite Q.
Qed.
Lemma sub_int_out st g : st_out (fst (subscribe_internal st g)) = st_out st.
Proof. unfold subscribe_internal. destruct (active_source st g); [apply subscribe_out|reflexivity]. Qed.
Lemma unsub_int_out st g : st_out (fst (unsubscribe_internal st g)) = st_out st.
Proof. unfold unsubscribe_internal. destruct (active_source st g); [apply unsubscribe_out|reflexivity]. Qed.
Lemma let_go_out st g : st_out (fst (let_go st g)) = st_out st.
Proof. unfold let_go. destruct (_ && _); [apply unsub_int_out|reflexivity]. Qed.
Lemma on_listened_out st g b : st_out (fst (on_listened st g b)) = st_out st.
Proof.
  unfold on_listened. destruct (Bool.eqb _ b); [reflexivity|]. destruct (g_streamed (st_sig st g)); [|reflexivity].
  destruct b; [now rewrite sub_int_out|now rewrite unsub_int_out].
Qed.
Lemma connect_out st g c : st_out (fst (connect st g c)) = st_out st.
Proof.
  unfold connect. destruct (g_removed (st_sig st g)); [reflexivity|]. destruct (memb c (g_conns (st_sig st g))); [reflexivity|].
  pose proof (on_listened_out st g true) as Q.
  destruct (g_conns (st_sig st g)); [|reflexivity].
  destruct (on_listened st g true) as [st1 o]. cbn [fst] in Q. destruct (failed o); exact Q.
Qed.
Lemma disconnect_out st g c : st_out (fst (disconnect st g c)) = st_out st.
Proof.
  unfold disconnect. destruct (memb c (g_conns (st_sig st g))); [|reflexivity].
  set (st1 := put_sig st g _). destruct (g_conns (st_sig st1 g)); [|reflexivity].
  pose proof (on_listened_out st1 g false) as Q. destruct (on_listened st1 g false) as [st2 o]. exact Q.
Qed.
Lemma set_active_out st g s : st_out (fst (set_active st g s)) = st_out st.
Proof.
  unfold set_active. destruct (match active_source st g with Some s0 => Nat.eqb s0 s | None => false end); [reflexivity|].
  destruct (negb _); [reflexivity|]. destruct (negb _); [reflexivity|].
  pose proof (let_go_out st g) as Q. destruct (let_go st g) as [st1 o1]. cbn [fst] in Q.
  destruct (failed o1); [exact Q|]. destruct (_ && _); [|exact Q].
  pose proof (sub_int_out (put_sig st1 g (set_act (st_sig st1 g) (Some s))) g) as Q2.
  destruct (subscribe_internal _ g) as [st3 o3]. cbn [fst] in *. rewrite Q2. exact Q.
Qed.
Lemma deactivate_out st g : st_out (fst (deactivate st g)) = st_out st.
Proof.
  unfold deactivate. pose proof (let_go_out st g) as Q. destruct (let_go st g) as [st1 o1]. exact Q.
Qed.
Lemma set_streamed_out st g b : st_out (fst (set_streamed st g b)) = st_out st.
Proof.
  unfold set_streamed. destruct (Bool.eqb b _); [reflexivity|]. destruct (g_listened (st_sig st g)); [|reflexivity].
  set (st1 := put_sig st g _). pose proof (sub_int_out st1 g) as Q1. pose proof (unsub_int_out st1 g) as Q2.
  destruct b; [destruct (subscribe_internal st1 g)|destruct (unsubscribe_internal st1 g)]; assumption.
Qed.
Lemma remove_source_out st g s : st_out (fst (remove_source st g s)) = st_out st.
Proof.
  unfold remove_source. destruct (memb s (g_sources (st_sig st g))); [|reflexivity].
  set (st1 := put_sig st g _). unfold drop_active. destruct (g_active (st_sig st1 g)) as [a|]; [|reflexivity].
  destruct (negb _); [reflexivity|]. destruct (Nat.eqb a s); [|reflexivity].
  pose proof (let_go_out st1 g) as Q. destruct (let_go st1 g) as [st2 o2]. cbn [fst] in Q. destruct (failed o2); exact Q.
Qed.
Lemma remove_sources_out s l : forall st, st_out (fst (remove_sources st s l)) = st_out st.
Proof.
  induction l as [|g l IH]; intros st; cbn [remove_sources]; [reflexivity|].
  pose proof (remove_source_out st g s) as Q. destruct (remove_source st g s) as [st1 o1]. cbn [fst] in Q.
  destruct (failed o1); [exact Q|]. now rewrite IH.
Qed.
Lemma detach_all_out g l : forall st, st_out (detach_all st g l) = st_out st.
Proof.
  induction l as [|s l IH]; intros st; cbn [detach_all]; [reflexivity|]. rewrite IH. now destruct (r_alive (st_src st s)).
Qed.
Lemma forget_domain_out g l : forall st, st_out (forget_domain st g l) = st_out st.
Proof.
  induction l as [|v l IH]; intros st; cbn [forget_domain]; [reflexivity|]. rewrite IH.
  destruct (g_domain (st_sig st v)) as [d|]; [|reflexivity]. now destruct (Nat.eqb d g).
Qed.

Lemma act_out st o : (forall s g k, o <> Packet s g k) -> st_out (fst (act st o)) = st_out st.
Proof.
  intros N. destruct o as [g c|g c|g s|g|g b|s g|s g|s|s|g d|g|s g|s g|s b|s g k]; cbn [act].
  - apply connect_out.
  - apply disconnect_out.
  - apply set_active_out.
  - apply deactivate_out.
  - apply set_streamed_out.
  - unfold add_signal, add_source. destruct (items st s g); [reflexivity|].
    now destruct (memb s (g_sources (st_sig (put_item st s g (Some 0)) g))).
  - unfold remove_signal. pose proof (remove_source_out st g s) as Q. destruct (remove_source st g s) as [st1 o1].
    cbn [fst] in Q. destruct (failed o1); [exact Q|]. destruct (items st1 s g); exact Q.
  - unfold remove_all. pose proof (remove_sources_out s (added st s) st) as Q.
    destruct (remove_sources st s (added st s)) as [st1 o1]. cbn [fst] in Q. destruct (failed o1); exact Q.
  - unfold destroy. cbn [fst]. unfold clear_items. cbn [put_src st_out]. now rewrite remove_sources_out.
  - reflexivity.
  - unfold remove. destruct (g_removed (st_sig st g)); [reflexivity|]. cbn [fst].
    rewrite forget_domain_out. cbn [put_sig st_out]. rewrite detach_all_out. cbn [put_sig st_out]. now rewrite let_go_out.
  - unfold become_available. destruct (r_avail (st_src st s) g); [reflexivity|]. now destruct (items st s g) as [[|k]|].
  - unfold become_unavailable. now destruct (r_avail (st_src st s) g).
  - reflexivity.
  - now destruct (N s g k).
Qed.

Lemma out_step st o g c s k : In (g, c, s, k) (st_out (fst (step st o))) ->
  In (g, c, s, k) (st_out st) \/
  o = Packet s g k /\ In c (g_conns (st_sig st g)) /\ g_streamed (st_sig st g) = true /\ active_source st g = Some s.
Proof.
  unfold step. destruct (possible st o); [|now left].
  destruct o as [g0 c0|g0 c0|g0 s0|g0|g0 b|s0 g0|s0 g0|s0|s0|g0 d|g0|s0 g0|s0 g0|s0 b|s0 g0 k0];
    try (rewrite act_out by discriminate; now left).
  cbn [act]. unfold packet. destruct (r_on (st_src st s0) && _ && _ && _) eqn:B; [|now left].
  rewrite !andb_true_iff in B. destruct B as [[_ T] A]. cbn [fst hand st_out]. rewrite in_app_iff.
  intros [H|H]; [now left|]. right. apply in_map_iff in H. destruct H as (c'&E&H). inversion E; subst.
  split; [reflexivity|]. split; [exact H|]. split; [exact T|].
  destruct (active_source st g) as [a|]; [|discriminate]. apply Nat.eqb_eq in A. now subst.
Qed.

Lemma run_app st l o : run st (l ++ [o]) = fst (step (run st l) o).
Proof. unfold run. now rewrite fold_left_app. Qed.
