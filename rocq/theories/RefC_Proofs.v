(** Proofs about reference counting. *)
From Coq Require Import List Bool ZArith Lia Arith.
From Verif Require Import RefC_Model RefC_Spec.
Import ListNotations.
Open Scope Z_scope.

Fixpoint cnt (p : agent -> bool) (l : list agent) : Z :=
  match l with [] => 0 | a :: l => (if p a then 1 else 0) + cnt p l end.
Lemma cnt_app p l1 l2 : cnt p (l1 ++ l2) = cnt p l1 + cnt p l2.
Proof. induction l1 as [|a l1 IH]; cbn [app cnt]; [reflexivity|]. rewrite IH. lia. Qed.
Lemma cnt_pos p l : 0 <= cnt p l.
Proof. induction l as [|a l IH]; cbn [cnt]; [lia|]. destruct (p a); lia. Qed.
Lemma cnt_in p l a : In a l -> p a = true -> 1 <= cnt p l.
Proof.
  induction l as [|b l IH]; intros H E; [destruct H|]. destruct H as [->|H]; cbn [cnt].
  - rewrite E. pose proof (cnt_pos p l). lia.
  - specialize (IH H E). destruct (p b); lia.
Qed.
Lemma cnt_zero p l : (forall a, In a l -> p a = false) -> cnt p l = 0.
Proof.
  induction l as [|a l IH]; intro H; cbn [cnt]; [reflexivity|]. rewrite (H a (or_introl eq_refl)), IH; [reflexivity|]. intros b Hb. apply H. right. exact Hb.
Qed.
Lemma cnt_none p l : cnt p l = 0 -> forall a, In a l -> p a = false.
Proof. intros H a Ha. destruct (p a) eqn:E; [|reflexivity]. pose proof (cnt_in p l a Ha E). lia. Qed.

Definition is_ref a := match a with Ref | Undo _ | Building true => true | _ => false end.
Definition is_bf a := match a with Building false => true | _ => false end.
Definition is_b a := match a with Building _ => true | _ => false end.
Definition is_dec a := match a with Dec => true | _ => false end.
Definition is_del a := match a with Del _ => true | _ => false end.
Definition is_delo a := match a with Del true => true | _ => false end.
Definition is_wdec a := match a with WDec _ => true | _ => false end.
Definition is_wdel a := match a with WDel => true | _ => false end.
Definition is_cas a := match a with Cas _ _ c => negb (1 <=? c) | _ => false end.
Definition uses_w k a := match a with Weak j | Load j _ | Cas j _ _ | Undo j => Nat.eqb j k | _ => false end.

Fixpoint live (l : list Z) : Z := match l with [] => 0 | c :: l => (if 0 <? c then 1 else 0) + live l end.
Lemma live_pos l : 0 <= live l.
Proof. induction l as [|c l IH]; cbn [live]; [lia|]. destruct (0 <? c); lia. Qed.
Lemma live_app a b : live (a ++ b) = live a + live b.
Proof. induction a as [|c a IH]; cbn [app live]; [reflexivity|]. rewrite IH. lia. Qed.
Lemma add_at_len k d : forall l, length (add_at k d l) = length l.
Proof. induction k as [|k IH]; intros [|c l]; cbn [add_at length]; [reflexivity|reflexivity|reflexivity|]. rewrite IH. reflexivity. Qed.
Lemma add_at_nth d : forall l k j, nth j (add_at k d l) 0 = if (Nat.eqb j k && (k <? length l)%nat)%bool then nth j l 0 + d else nth j l 0.
Proof.
  induction l as [|c l IH]; intros k j.
  - change (k <? length (@nil Z))%nat with false. rewrite andb_false_r. destruct k; reflexivity.
  - destruct k as [|k], j as [|j]; [reflexivity|reflexivity|reflexivity|].
    change (nth (S j) (add_at (S k) d (c :: l)) 0) with (nth j (add_at k d l) 0). rewrite IH. reflexivity.
Qed.
Lemma live_add_at d : forall l k, (k < length l)%nat -> live (add_at k d l) =
  live l - (if 0 <? nth k l 0 then 1 else 0) + (if 0 <? nth k l 0 + d then 1 else 0).
Proof.
  induction l as [|c l IH]; intros k H; cbn [length] in H; [lia|]. destruct k as [|k]; cbn [add_at live nth]; [lia|].
  rewrite IH by lia. lia.
Qed.
Lemma live_nth : forall l k, (k < length l)%nat -> 0 < nth k l 0 -> 1 <= live l.
Proof.
  induction l as [|c l IH]; intros k H P; cbn [length] in H; [lia|]. cbn [live]. pose proof (live_pos l). destruct k as [|k]; cbn [nth] in P.
  - destruct (0 <? c) eqn:E; [lia|apply Z.ltb_ge in E; lia].
  - assert (1 <= live l) by (apply (IH k); [lia|exact P]). destruct (0 <? c); lia.
Qed.

(** The object still counts itself among the weak references. *)
Definition self (st : state) : Z := cnt is_bf (s_agents st) + (if 0 <? s_strong st then 1 else 0) + cnt is_dec (s_agents st).
Record inv (st : state) : Prop := {
  v_ub : s_ub st = false;
  v_strong : s_strong st = cnt is_ref (s_agents st);
  v_life : self st + cnt is_del (s_agents st) + Z.of_nat (s_destroyed st) = 1;
  v_weak : s_weak st = self st + live (s_wcnt st) + cnt is_wdec (s_agents st);
  v_block : Z.of_nat (s_freed st) + cnt is_delo (s_agents st) + cnt is_wdel (s_agents st) + (if 0 <? s_weak st then 1 else 0) = 1;
  v_wcnt : forall k, nth k (s_wcnt st) 0 = cnt (uses_w k) (s_agents st);
  v_cas : cnt is_cas (s_agents st) = 0;
  v_build : cnt is_b (s_agents st) <= 1
}.
(** a constructor that handed out nothing has thrown *)
Definition thrown (st : state) : Prop :=
  s_ub st = false /\
  ((s_agents st = [Del true] /\ s_destroyed st = 0%nat /\ s_freed st = 0%nat) \/ (s_agents st = [] /\ s_destroyed st = 1%nat /\ s_freed st = 1%nat)).

Lemma inv_init : inv init.
Proof. constructor; try reflexivity; cbn; try lia. intros [|[|k]]; reflexivity. Qed.

Lemma uses_len st k a : inv st -> In a (s_agents st) -> uses_w k a = true -> (k < length (s_wcnt st))%nat /\ 0 < nth k (s_wcnt st) 0.
Proof.
  intros V H E. assert (P : 0 < nth k (s_wcnt st) 0) by (rewrite (v_wcnt st V); pose proof (cnt_in _ _ _ H E); lia).
  split; [|exact P]. destruct (Nat.lt_ge_cases k (length (s_wcnt st))) as [L|L]; [exact L|]. rewrite nth_overflow in P by lia. lia.
Qed.
Lemma ref_alive st a : inv st -> In a (s_agents st) -> is_ref a = true -> s_destroyed st = 0%nat /\ s_freed st = 0%nat /\ 0 < s_strong st.
Proof.
  intros V H E. pose proof (cnt_in _ _ _ H E) as P. rewrite <- (v_strong st V) in P.
  pose proof (v_life st V) as L. pose proof (v_weak st V) as W. pose proof (v_block st V) as B.
  unfold self in L, W. pose proof (cnt_pos is_bf (s_agents st)). pose proof (cnt_pos is_dec (s_agents st)). pose proof (cnt_pos is_del (s_agents st)).
  pose proof (live_pos (s_wcnt st)). pose proof (cnt_pos is_wdec (s_agents st)). pose proof (cnt_pos is_delo (s_agents st)). pose proof (cnt_pos is_wdel (s_agents st)).
  destruct (0 <? s_strong st) eqn:Z1; [|apply Z.ltb_ge in Z1; lia]. assert (Z2 : 0 <? s_weak st = true) by (apply Z.ltb_lt; lia). rewrite Z2 in B. lia.
Qed.
Lemma self_alive st : inv st -> 0 < self st -> s_destroyed st = 0%nat /\ s_freed st = 0%nat.
Proof.
  intros V P. pose proof (v_life st V) as L. pose proof (v_weak st V) as W. pose proof (v_block st V) as B.
  pose proof (cnt_pos is_del (s_agents st)).
  pose proof (live_pos (s_wcnt st)). pose proof (cnt_pos is_wdec (s_agents st)). pose proof (cnt_pos is_delo (s_agents st)). pose proof (cnt_pos is_wdel (s_agents st)).
  assert (Z2 : 0 <? s_weak st = true) by (apply Z.ltb_lt; lia). rewrite Z2 in B. lia.
Qed.
Lemma weak_block st k a : inv st -> In a (s_agents st) -> uses_w k a = true -> s_freed st = 0%nat.
Proof.
  intros V H E. destruct (uses_len st k a V H E) as [L P]. pose proof (live_nth _ _ L P) as Lv.
  pose proof (v_life st V) as Lf. pose proof (v_weak st V) as W. pose proof (v_block st V) as B.
  assert (0 <= self st) by (unfold self; pose proof (cnt_pos is_bf (s_agents st)); pose proof (cnt_pos is_dec (s_agents st)); destruct (0 <? s_strong st); lia).
  pose proof (cnt_pos is_wdec (s_agents st)). pose proof (cnt_pos is_delo (s_agents st)). pose proof (cnt_pos is_wdel (s_agents st)).
  assert (Z2 : 0 <? s_weak st = true) by (apply Z.ltb_lt; lia). rewrite Z2 in B. lia.
Qed.

Lemma split_at {A} (l : list A) i a : nth_error l i = Some a -> l = firstn i l ++ a :: skipn (S i) l.
Proof.
  revert i. induction l as [|b l IH]; intros [|i] H; cbn [nth_error] in H; try discriminate.
  - inversion H. reflexivity.
  - cbn [firstn skipn app]. f_equal. apply IH. exact H.
Qed.

(** everything in terms of what surrounds the agent *)
Lemma cnt_mid p l1 w l2 : cnt p (l1 ++ w ++ l2) = cnt p l1 + cnt p w + cnt p l2.
Proof. rewrite !cnt_app. lia. Qed.
Lemma cnt_one p l1 a l2 : cnt p (l1 ++ a :: l2) = cnt p l1 + (if p a then 1 else 0) + cnt p l2.
Proof. rewrite cnt_app. cbn [cnt]. lia. Qed.

Ltac zb := repeat match goal with
  | |- context [?a =? ?b] => destruct (Z.eqb_spec a b)
  | |- context [?a <? ?b] => destruct (Z.ltb_spec a b)
  | H : context [?a =? ?b] |- _ => destruct (Z.eqb_spec a b)
  | H : context [?a <? ?b] |- _ => destruct (Z.ltb_spec a b)
  end.
Ltac unf := unfold do_add, do_release, do_get_weak, use_obj, use_blk, use_weak, bad, add_strong, add_weak, add_wcnt, new_weak, destroy, free, with_agents in *.
Ltac flds := cbn [s_strong s_weak s_wcnt s_destroyed s_freed s_ub s_agents] in *.
Ltac prd := cbn [is_ref is_bf is_b is_dec is_del is_delo is_wdec is_wdel is_cas uses_w cnt app] in *.

Ltac alive de fr := assert (de = 0%nat) by (zb; lia); assert (fr = 0%nat) by (zb; lia); subst de fr.
Ltac fields := constructor; unf; flds; unfold self; flds; repeat rewrite cnt_app; prd.
Ltac fin V6 := fields; [reflexivity|zb; lia|zb; lia|zb; lia|zb; lia|let j := fresh "j" in intro j; rewrite cnt_app; pose proof (V6 j); prd; repeat match goal with |- context [Nat.eqb ?a ?b] => destruct (Nat.eqb a b) end; lia|zb; lia|zb; lia].
Lemma quiet_refs l : Forall quiet l -> cnt is_b l = 0 -> cnt is_ref l = 0.
Proof.
  induction l as [|a l IH]; intros Q B; [reflexivity|]. inversion Q as [|? ? Q1 Q2]; subst. cbn [cnt] in *. pose proof (cnt_pos is_b l).
  destruct a as [[]| | | | | | | | |]; cbn [is_b is_ref quiet] in *; try contradiction; try lia; rewrite IH; trivial; lia.
Qed.
Definition gave (l : list event) : nat := times is_destroyed l.

Lemma act_inv st l1 a l2 x st' w ev :
  inv st -> s_agents st = l1 ++ a :: l2 -> act a x st = Some (st', w, ev) ->
  (x = CSelf \/ x = CWeak -> a = Building true) ->
  (x = CThrow -> forall b, a = Building b -> l1 = [] /\ l2 = []) ->
  (x = CThrowGuard -> a = Building true /\ Forall quiet (l1 ++ l2)) ->
  inv (with_agents st' (l1 ++ w ++ l2)) \/ thrown (with_agents st' (l1 ++ w ++ l2)).
Proof.
  intros V EA EC D1 D2 D3. destruct st as [s wk wc de fr ub ag]. cbn [s_agents] in EA. subst ag.
  assert (U0 : forall k, uses_w k a = true -> (k < length wc)%nat /\ 0 < nth k wc 0 /\ 1 <= live wc).
  { intros k E. destruct (uses_len _ k a V) as [L P]; [apply in_app_iff; right; left; reflexivity|exact E|]. cbn [s_wcnt] in *. split; [exact L|]. split; [exact P|].
    exact (live_nth _ _ L P). }
  destruct V as [V1 V2 V3 V4 V5 V6 V7 V8]. unfold self in *. flds. subst ub.
  rewrite (cnt_one is_ref) in V2. rewrite (cnt_one is_cas) in V7. rewrite (cnt_one is_b) in V8.
  rewrite (cnt_one is_bf), (cnt_one is_dec), (cnt_one is_del) in V3. rewrite (cnt_one is_bf), (cnt_one is_dec), (cnt_one is_wdec) in V4. rewrite (cnt_one is_delo), (cnt_one is_wdel) in V5.
  assert (V6' : forall k, nth k wc 0 = cnt (uses_w k) l1 + (if uses_w k a then 1 else 0) + cnt (uses_w k) l2) by (intro k; rewrite V6, cnt_one; reflexivity). clear V6.
  pose proof (cnt_pos is_ref l1). pose proof (cnt_pos is_ref l2). pose proof (cnt_pos is_bf l1). pose proof (cnt_pos is_bf l2).
  pose proof (cnt_pos is_b l1). pose proof (cnt_pos is_b l2). pose proof (cnt_pos is_dec l1). pose proof (cnt_pos is_dec l2).
  pose proof (cnt_pos is_del l1). pose proof (cnt_pos is_del l2). pose proof (cnt_pos is_delo l1). pose proof (cnt_pos is_delo l2).
  pose proof (cnt_pos is_wdec l1). pose proof (cnt_pos is_wdec l2). pose proof (cnt_pos is_wdel l1). pose proof (cnt_pos is_wdel l2).
  pose proof (cnt_pos is_cas l1). pose proof (cnt_pos is_cas l2). pose proof (live_pos wc).

  assert (New : forall j, nth j (wc ++ [1]) 0 = nth j wc 0 + (if Nat.eqb (length wc) j then 1 else 0)).
  { intro j. destruct (Nat.lt_trichotomy j (length wc)) as [L|[L|L]].
    - rewrite app_nth1 by exact L. replace (Nat.eqb (length wc) j) with false by (symmetry; apply Nat.eqb_neq; lia). lia.
    - subst j. rewrite app_nth2 by lia. rewrite Nat.sub_diag, Nat.eqb_refl. rewrite (nth_overflow wc) by lia. reflexivity.
    - rewrite app_nth2 by lia. replace (Nat.eqb (length wc) j) with false by (symmetry; apply Nat.eqb_neq; lia). rewrite (nth_overflow wc) by lia.
      destruct (j - length wc)%nat as [|[|d]] eqn:Q; [lia|reflexivity|reflexivity]. }
  destruct a as [added| | |own|k|k| |k sup|k sup c|k], x as [| | | | | | | | | | |sp| |]; cbn [act] in EC; try discriminate EC; try (destruct added; discriminate EC).
  - specialize (D1 (or_introl eq_refl)); inversion D1; subst added. left. injection EC as <- <- <-. prd. alive de fr. fin V6'.
  - left. destruct added; injection EC as <- <- <-; prd; alive de fr; fin V6'.
  - specialize (D1 (or_intror eq_refl)); inversion D1; subst added. left. unf. flds. injection EC as <- <- <-. prd. alive de fr.
    fields; [reflexivity|zb; lia|zb; lia| | | |zb; lia|zb; lia].
    + rewrite live_app. cbn [live]. zb; lia.
    + zb; lia.
    + intro j. rewrite New, cnt_app. pose proof (V6' j). prd. lia.
  - left. destruct added; injection EC as <- <- <-; prd; alive de fr; fin V6'.
  - right. destruct (D2 eq_refl added eq_refl) as [-> ->]. destruct added; injection EC as <- <- <-; (split; [reflexivity|]); left; cbn [with_agents s_agents s_destroyed s_freed app]; prd; (split; [reflexivity|]); split; zb; lia.
  - destruct (D3 eq_refl) as [E Q]. inversion E; subst added. left. unf. flds. injection EC as <- <- <-. prd. alive de fr.
    assert (R1 : cnt is_ref (l1 ++ l2) = 0) by (apply quiet_refs; [exact Q|rewrite cnt_app; lia]). rewrite cnt_app in R1.
    replace (s + -1 =? 0) with true by (symmetry; apply Z.eqb_eq; lia). fin V6'.
  - left. injection EC as <- <- <-. prd. alive de fr. fin V6'.
  - left. unf. flds. injection EC as <- <- <-. prd. alive de fr. destruct (Z.eqb_spec (s + -1) 0); fin V6'.
  - left. unf. flds. injection EC as <- <- <-. prd. alive de fr.
    fields; [reflexivity|zb; lia|zb; lia| | | |zb; lia|zb; lia].
    + rewrite live_app. cbn [live]. zb; lia.
    + zb; lia.
    + intro j. rewrite New, cnt_app. pose proof (V6' j). prd. lia.
  - left. unf. flds. injection EC as <- <- <-. prd. alive de fr. destruct (Z.eqb_spec (wk + -1) 0); fin V6'.
  - left. unf. flds. destruct own; injection EC as <- <- <-; prd.
    + alive de fr. fin V6'.
    + assert (de = 0%nat) by (zb; lia). subst de. fin V6'.
  - left. destruct (U0 k (Nat.eqb_refl k)) as (L & P & Lv). unf. flds. rewrite (proj2 (Z.leb_gt _ _) P) in EC. injection EC as <- <- <-. prd.
    fields; [reflexivity|zb; lia|zb; lia| |zb; lia| |zb; lia|zb; lia].
    + rewrite live_add_at by exact L. zb; lia.
    + intro j. rewrite add_at_nth, cnt_app. pose proof (V6' j) as Q. prd. rewrite (proj2 (Nat.ltb_lt _ _) L), andb_true_r. rewrite (Nat.eqb_sym j k). destruct (Nat.eqb k j); lia.
  - left. destruct (U0 k (Nat.eqb_refl k)) as (L & P & Lv). unf. flds. rewrite (proj2 (Z.leb_gt _ _) P) in EC. injection EC as <- <- <-. prd.
    assert (N : nth k (add_at k (-1) wc) 0 = nth k wc 0 - 1) by (rewrite add_at_nth, Nat.eqb_refl, (proj2 (Nat.ltb_lt _ _) L); reflexivity).
    rewrite N.
    assert (Lw : live (add_at k (-1) wc) = live wc - 1 + (if 0 <? nth k wc 0 - 1 then 1 else 0)).
    { rewrite live_add_at by exact L. rewrite (proj2 (Z.ltb_lt _ _) P). reflexivity. }
    assert (Nj : forall j, nth j (add_at k (-1) wc) 0 = cnt (uses_w j) l1 + cnt (uses_w j) l2).
    { intro j. rewrite add_at_nth, (V6' j), (proj2 (Nat.ltb_lt _ _) L), andb_true_r, (Nat.eqb_sym j k). destruct (Nat.eqb k j); lia. }
    destruct (Z.eqb_spec (nth k wc 0 - 1) 0) as [Z0|Z0].
    + rewrite (proj2 (Z.ltb_ge 0 (nth k wc 0 - 1))) in Lw by lia. fields; [reflexivity|zb; lia|zb; lia|zb; lia|zb; lia| |zb; lia|zb; lia].
      intro j. rewrite Nj, cnt_app. prd. lia.
    + rewrite (proj2 (Z.ltb_lt 0 (nth k wc 0 - 1))) in Lw by lia. fields; [reflexivity|zb; lia|zb; lia|zb; lia|zb; lia| |zb; lia|zb; lia].
      intro j. rewrite Nj, cnt_app. prd. lia.
  - left. destruct (U0 k (Nat.eqb_refl k)) as (L & P & Lv). unf. flds. rewrite (proj2 (Z.leb_gt _ _) P) in EC. injection EC as <- <- <-. prd. fin V6'.
  - left. unf. flds. injection EC as <- <- <-. prd. assert (fr = 0%nat) by (zb; lia). subst fr. destruct (Z.eqb_spec (wk + -1) 0); fin V6'.
  - left. unf. flds. injection EC as <- <- <-. prd. assert (fr = 0%nat) by (zb; lia). subst fr. fin V6'.
  - left. destruct (U0 k (Nat.eqb_refl k)) as (L & P & Lv). unf. flds. rewrite (proj2 (Z.leb_gt _ _) P) in EC. prd. assert (fr = 0%nat) by (zb; lia). subst fr.
    destruct (Z.eqb_spec s 0); injection EC as <- <- <-; [fin V6'|]. 
    fields; [reflexivity|zb; lia|zb; lia|zb; lia|zb; lia| |destruct (Z.leb_spec 1 s); cbn [negb]; lia|zb; lia].
    intro j. rewrite cnt_app. pose proof (V6' j). prd. lia.
  - left. destruct (U0 k (Nat.eqb_refl k)) as (L & P & Lv). unf. flds. rewrite (proj2 (Z.leb_gt _ _) P) in EC. prd. assert (fr = 0%nat) by (zb; lia). subst fr.
    assert (C1 : 1 <= c) by (destruct (Z.leb_spec 1 c); cbn [negb] in V7; lia). rewrite (proj2 (Z.leb_le _ _) C1) in V7. cbn [negb] in V7.
    destruct (Z.eqb_spec s c).
    + assert (de = 0%nat) by (zb; lia). subst de. destruct sup; injection EC as <- <- <-; fin V6'.
    + injection EC as <- <- <-. fin V6'.
  - left. destruct (U0 k (Nat.eqb_refl k)) as (L & P & Lv). unf. flds. rewrite (proj2 (Z.leb_gt _ _) P) in EC. prd. assert (fr = 0%nat) by (zb; lia). subst fr.
    assert (C1 : 1 <= c) by (destruct (Z.leb_spec 1 c); cbn [negb] in V7; lia). rewrite (proj2 (Z.leb_le _ _) C1) in V7. cbn [negb] in V7.
    injection EC as <- <- <-. fin V6'.
  - left. unf. flds. injection EC as <- <- <-. prd. alive de fr. destruct (Z.eqb_spec (s + -1) 0); fin V6'.
Qed.

(* ---------- histories ---------- *)
Definition good (st : state) : Prop := inv st \/ thrown st.

Lemma step_shape st i x : (step st (i, x) = (st, [])) \/
  exists l1 a l2 st' w ev, s_agents st = l1 ++ a :: l2 /\ nth_error (s_agents st) i = Some a /\ length l1 = i /\
    act a x st = Some (st', w, ev) /\ step st (i, x) = (with_agents st' (l1 ++ w ++ l2), ev).
Proof.
  unfold step. destruct (nth_error (s_agents st) i) as [a|] eqn:E; [|left; reflexivity].
  destruct (act a x st) as [[[st' w] ev]|] eqn:A; [|left; reflexivity]. right.
  exists (firstn i (s_agents st)), a, (skipn (S i) (s_agents st)), st', w, ev.
  split; [exact (split_at _ _ _ E)|]. split; [reflexivity|].
  split; [apply firstn_length_le; assert (i < length (s_agents st))%nat by (apply nth_error_Some; congruence); lia|].
  split; [exact A|reflexivity].
Qed.

Lemma step_good st ix : good st -> behaves st ix -> good (fst (step st ix)).
Proof.
  destruct ix as [i x]. intros G B. destruct (step_shape st i x) as [->|(l1 & a & l2 & st' & w & ev & EA & EN & EL & EC & ->)]; [exact G|]. cbn [fst].
  destruct G as [V|T].
  - apply (act_inv st l1 a l2 x st' w ev V EA EC); unfold behaves in B; cbn [fst snd] in B.
    + intros [->| ->]; congruence.
    + intros -> b ->. specialize (B b EN). rewrite B in EA. destruct l1 as [|c l1]; [inversion EA; auto|]. destruct l1; discriminate EA.
    + intros ->. destruct B as [B Q]. split; [congruence|]. rewrite EA in Q. apply Forall_app in Q. destruct Q as [Q1 Q2]. inversion Q2; subst. apply Forall_app. auto.
  - right. destruct T as [U [(A & D & F)|(A & D & F)]]; rewrite A in EA.
    + destruct l1 as [|c l1]; [|destruct l1; discriminate EA]. inversion EA; subst a l2. destruct x; cbn [act] in EC; try discriminate EC.
      injection EC as <- <- <-. unfold thrown. unf. flds. rewrite U, D, F. split; [reflexivity|]. right. auto.
    + destruct l1; discriminate EA.
Qed.

Lemma run_cons st ix h : run st (ix :: h) = (fst (run (fst (step st ix)) h), snd (step st ix) ++ snd (run (fst (step st ix)) h)).
Proof. cbn [run]. destruct (step st ix) as [s1 e1]. cbn [fst snd]. destruct (run s1 h) as [s2 e2]. reflexivity. Qed.
Lemma run_app st h1 h2 : run st (h1 ++ h2) = (fst (run (fst (run st h1)) h2), snd (run st h1) ++ snd (run (fst (run st h1)) h2)).
Proof.
  revert st. induction h1 as [|ix h1 IH]; intro st; cbn [app].
  - cbn [run fst snd app]. destruct (run st h2); reflexivity.
  - rewrite !run_cons. rewrite IH. cbn [fst snd]. rewrite app_assoc. reflexivity.
Qed.
Lemma behaved_app st h1 h2 : Behaved st (h1 ++ h2) -> Behaved st h1 /\ Behaved (fst (run st h1)) h2.
Proof.
  revert st. induction h1 as [|ix h1 IH]; intros st B; cbn [app] in *; [split; [constructor|exact B]|].
  inversion B; subst. rewrite run_cons. cbn [fst]. destruct (IH _ H3) as [B1 B2]. split; [constructor; assumption|exact B2].
Qed.
Lemma run_good h : forall st, good st -> Behaved st h -> good (fst (run st h)).
Proof.
  induction h as [|ix h IH]; intros st G B; [exact G|]. inversion B; subst. rewrite run_cons. cbn [fst]. apply IH; [|assumption]. apply step_good; assumption.
Qed.
Lemma reach_good h : Behaved init h -> good (fst (run init h)).
Proof. apply run_good. left. exact inv_init. Qed.

Lemma good_safe st : good st -> s_ub st = false.
Proof. intros [V|[U _]]; [exact (v_ub _ V)|exact U]. Qed.
Lemma inv_self st : inv st -> 0 <= self st.
Proof. intro V. unfold self. pose proof (cnt_pos is_bf (s_agents st)). pose proof (cnt_pos is_dec (s_agents st)). destruct (0 <? s_strong st); lia. Qed.
Lemma good_once st : good st -> (s_destroyed st <= 1 /\ s_freed st <= 1)%nat.
Proof.
  intros [V|[_ [(_ & -> & ->)|(_ & -> & ->)]]]; [|lia|lia].
  pose proof (v_life _ V). pose proof (v_block _ V). pose proof (inv_self _ V).
  pose proof (cnt_pos is_del (s_agents st)). pose proof (cnt_pos is_delo (s_agents st)). pose proof (cnt_pos is_wdel (s_agents st)).
  destruct (0 <? s_weak st); lia.
Qed.
Lemma good_alive st : good st -> Held st -> s_destroyed st = 0%nat /\ s_freed st = 0%nat.
Proof.
  intros [V|[_ [(A & _)|(A & _)]]] H.
  - destruct (ref_alive st Ref V H eq_refl) as (? & ? & _). auto.
  - unfold Held in H. rewrite A in H. destruct H as [H|[]]. discriminate.
  - unfold Held in H. rewrite A in H. destruct H.
Qed.
Lemma good_not_kept st : good st -> (forall a, In a (s_agents st) -> ~ keeps a) -> s_destroyed st = 1%nat.
Proof.
  intros [V|[_ [(A & _)|(A & D & _)]]] N; [| |exact D].
  - pose proof (v_life _ V) as L. pose proof (v_strong _ V) as R. unfold self in L.
    rewrite (cnt_zero is_ref) in R by (intros a Ha; specialize (N a Ha); destruct a as [[]| | | | | | | | |]; cbn in *; tauto).
    rewrite (cnt_zero is_bf), (cnt_zero is_dec), (cnt_zero is_del) in L by (intros a Ha; specialize (N a Ha); destruct a as [[]| | | | | | | | |]; cbn in *; tauto).
    rewrite R in L. cbn in L. lia.
  - exfalso. apply (N (Del true)); [rewrite A; left; reflexivity|exact Logic.I].
Qed.
Lemma live_zero l : (forall k, nth k l 0 = 0) -> live l = 0.
Proof.
  induction l as [|c l IH]; intro H; [reflexivity|]. cbn [live]. pose proof (H 0%nat) as H0. cbn [nth] in H0. subst c. rewrite IH; [reflexivity|]. intro k. exact (H (S k)).
Qed.
Lemma good_collected st : good st -> s_agents st = [] -> s_destroyed st = 1%nat /\ s_freed st = 1%nat.
Proof.
  intros [V|[_ [(A & _)|(A & D & F)]]] E; [| |auto].
  - pose proof (v_life _ V) as L. pose proof (v_strong _ V) as R. pose proof (v_weak _ V) as W. pose proof (v_block _ V) as B. pose proof (v_wcnt _ V) as C. unfold self in *. rewrite E in *. cbn [cnt] in *.
    rewrite (live_zero _ C) in W. rewrite R in *. cbn in L, W. rewrite W in B. cbn in B. lia.
  - rewrite A in E. discriminate.
Qed.

Lemma times_app p a b : times p (a ++ b) = (times p a + times p b)%nat.
Proof. induction a as [|x a IH]; cbn [app times]; [reflexivity|]. rewrite IH. lia. Qed.
Lemma act_events a x st st' w ev : act a x st = Some (st', w, ev) ->
  s_destroyed st' = (s_destroyed st + times is_destroyed ev)%nat /\ s_freed st' = (s_freed st + times is_freed ev)%nat.
Proof.
  intro E. destruct st as [s wk wc de fr ub ag].
  destruct a as [[]| | |[]| | | |k sup|k sup c|k], x; cbn [act] in E; try discriminate E; unf; flds;
    try match type of E with context [if ?b then Some _ else Some _] => destruct b end;
    try match type of E with context [if ?b then Some _ else Some _] => destruct b end;
    injection E as <- <- <-; flds; cbn [times is_destroyed is_freed]; lia.
Qed.
Lemma step_events st ix : s_destroyed (fst (step st ix)) = (s_destroyed st + times is_destroyed (snd (step st ix)))%nat /\
  s_freed (fst (step st ix)) = (s_freed st + times is_freed (snd (step st ix)))%nat.
Proof.
  destruct ix as [i x]. destruct (step_shape st i x) as [->|(l1 & a & l2 & st' & w & ev & _ & _ & _ & EC & ->)].
  - cbn [fst snd times]. lia.
  - exact (act_events _ _ _ _ _ _ EC).
Qed.
Lemma run_events h : forall st, s_destroyed (fst (run st h)) = (s_destroyed st + times is_destroyed (snd (run st h)))%nat /\
  s_freed (fst (run st h)) = (s_freed st + times is_freed (snd (run st h)))%nat.
Proof.
  induction h as [|ix h IH]; intro st; [cbn; lia|]. rewrite run_cons. cbn [fst snd]. rewrite !times_app. destruct (IH (fst (step st ix))) as [-> ->].
  destruct (step_events st ix) as [-> ->]. lia.
Qed.

(* ---------- weak references ---------- *)
(** A constructor without its own reference has handed out no weak one. *)
Definition fresh (st : state) : Prop := 0 < cnt is_bf (s_agents st) -> forall k a, In a (s_agents st) -> uses_w k a = false.
Definition asked (sup : bool) (a : agent) : Prop := match a with Load _ s | Cas _ s _ => s = sup | Undo _ => sup = false | _ => True end.

Lemma step_fresh st ix : good st -> behaves st ix -> fresh st -> fresh (fst (step st ix)).
Proof.
  destruct ix as [i x]. intros G B F. destruct (step_shape st i x) as [->|(l1 & a & l2 & st' & w & ev & EA & EN & EL & EC & ->)]; [exact F|]. cbn [fst].
  destruct G as [V|[_ [(A & _)|(A & _)]]].
  - pose proof (v_build _ V) as VB. intros P k b Hb. unfold with_agents in *. flds. rewrite EA in VB. rewrite cnt_one in VB. rewrite !cnt_app in P.
    pose proof (cnt_pos is_b l1). pose proof (cnt_pos is_b l2).
    assert (LE : forall l, cnt is_bf l <= cnt is_b l) by (induction l as [|[[]| | | | | | | | |] l IH]; cbn [cnt is_bf is_b]; lia).
    unfold fresh in F. rewrite EA in F. rewrite cnt_one in F.
    assert (W : 0 < cnt is_bf w -> a = Building false).
    { intro Q. destruct st as [s wk wc de fr ub ag]. destruct a as [[]| | |[]| | | |k0 sup|k0 sup c|k0], x; cbn [act] in EC; try discriminate EC; unf; flds;
      try match type of EC with context [if ?b then Some _ else Some _] => destruct b end;
      try match type of EC with context [if ?b then Some _ else Some _] => destruct b end;
      injection EC as <- <- <-; try reflexivity; exfalso; cbn [cnt is_bf] in Q;
      repeat match type of Q with context [if ?b then _ else _] => destruct b end; cbn in Q; lia. }
    assert (F' : forall k a0, In a0 (l1 ++ a :: l2) -> uses_w k a0 = false).
    { apply F. pose proof (cnt_pos is_bf l1). pose proof (cnt_pos is_bf l2). destruct (Z.ltb_spec 0 (cnt is_bf w)) as [Q|Q]; [rewrite (W Q); cbn [is_bf]; lia|destruct (is_bf a); lia]. }
    apply in_app_iff in Hb. destruct Hb as [Hb|Hb]; [apply F'; apply in_app_iff; left; exact Hb|]. apply in_app_iff in Hb.
    destruct Hb as [Hb|Hb]; [|apply F'; apply in_app_iff; right; right; exact Hb].
    destruct (uses_w k b) eqn:UB; [|reflexivity]. exfalso.
    assert (FA : forall k, uses_w k a = false) by (intro k0; apply F'; apply in_app_iff; right; left; reflexivity).
    destruct st as [s wk wc de fr ub ag]. destruct a as [[]| | |[]|k0|k0| |k0 sup|k0 sup c|k0], x; cbn [act] in EC; try discriminate EC; unf; flds;
      try (specialize (FA k0); cbn [uses_w] in FA; rewrite Nat.eqb_refl in FA; discriminate FA);
      try match type of EC with context [if ?b then Some _ else Some _] => destruct b end;
      injection EC as <- <- <-;
      repeat match type of Hb with context [if ?b then _ else _] => destruct b end;
      cbn [In app] in Hb;
      repeat match type of Hb with _ \/ _ => destruct Hb as [Hb|Hb] | False => destruct Hb end; subst b; cbn [uses_w] in UB; try discriminate UB.
    + (* CWeak by Building true *) cbn [is_bf is_b] in *. pose proof (LE l1). pose proof (LE l2). cbn [cnt is_bf] in P. lia.
    + (* CWeak by Building false *) unfold behaves in B. cbn [fst snd s_agents] in *. rewrite EN in B. discriminate B.
    + (* AWeak by Ref *) assert (PP : 0 < cnt is_bf (l1 ++ Ref :: l2)) by (rewrite cnt_one; cbn [is_bf cnt] in *; lia).
      pose proof (v_life _ V) as L. pose proof (v_strong _ V) as R. unfold self in L. flds. rewrite EA in *. rewrite cnt_one in R. cbn [is_ref] in R.
      pose proof (cnt_pos is_ref l1). pose proof (cnt_pos is_ref l2). pose proof (cnt_pos is_dec (l1 ++ Ref :: l2)). pose proof (cnt_pos is_del (l1 ++ Ref :: l2)).
      rewrite (proj2 (Z.ltb_lt 0 s)) in L by lia. lia.
  - rewrite A in EA. destruct l1 as [|c l1]; [|destruct l1; discriminate EA]. inversion EA; subst a l2. destruct x; cbn [act] in EC; try discriminate EC.
    injection EC as <- <- <-. intro P. cbn in P. lia.
  - rewrite A in EA. destruct l1; discriminate EA.
Qed.

Lemma run_fresh h : forall st, good st -> fresh st -> Behaved st h -> fresh (fst (run st h)).
Proof.
  induction h as [|ix h IH]; intros st G F B; [exact F|]. inversion B; subst. rewrite run_cons. cbn [fst].
  apply IH; [apply step_good; assumption|apply step_fresh; assumption|assumption].
Qed.
Lemma reach_fresh h : Behaved init h -> fresh (fst (run init h)).
Proof.
  apply run_fresh; [left; exact inv_init|]. intros _ k a [<-|[]]. reflexivity.
Qed.

(** Nobody can get at the object any more. *)
Definition dead (st : state) : Prop := s_strong st = 0 /\ forall a, In a (s_agents st) -> is_ref a = false /\ is_b a = false /\ is_cas a = false.
Lemma step_dead st ix : dead st -> dead (fst (step st ix)) /\ (forall k, ~ In (Got k) (snd (step st ix))).
Proof.
  destruct ix as [i x]. intros D. destruct (step_shape st i x) as [->|(l1 & a & l2 & st' & w & ev & EA & EN & EL & EC & ->)]; [split; [exact D|intros k []]|]. cbn [fst snd].
  destruct D as [S0 D]. rewrite EA in D.
  assert (Da : is_ref a = false /\ is_b a = false /\ is_cas a = false) by (apply D; apply in_app_iff; right; left; reflexivity).
  destruct st as [s wk wc de fr ub ag]. cbn [s_strong] in S0. subst s.
  assert (Q : s_strong st' = 0 /\ (forall b, In b w -> is_ref b = false /\ is_b b = false /\ is_cas b = false) /\ (forall k, ~ In (Got k) ev)).
  { destruct Da as (D1 & D2 & D3).
    destruct a as [[]| | |[]|k0|k0| |k0 sup|k0 sup c|k0]; try discriminate D1; try discriminate D2; destruct x; cbn [act] in EC; try discriminate EC; unf; flds;
      try (cbn [Z.eqb] in EC);
      try (cbn [is_cas] in D3; destruct c as [|c|c]; [discriminate D3| |discriminate D3]; cbn in EC);
      injection EC as <- <- <-; flds;
      (split; [reflexivity|]); (split; [|cbn; intros k; intuition discriminate]);
      intros b Hb; repeat match type of Hb with context [if ?b then _ else _] => destruct b end; cbn [In] in Hb;
      repeat match type of Hb with _ \/ _ => destruct Hb as [Hb|Hb] | False => destruct Hb end; subst b; repeat split; reflexivity. }
  destruct Q as (Q1 & Q2 & Q3). split; [|exact Q3]. split; [exact Q1|].
  intros b Hb. unfold with_agents in Hb. cbn [s_agents] in Hb. apply in_app_iff in Hb. destruct Hb as [Hb|Hb]; [apply D; apply in_app_iff; left; exact Hb|].
  apply in_app_iff in Hb. destruct Hb as [Hb|Hb]; [exact (Q2 b Hb)|]. apply D. apply in_app_iff. right. right. exact Hb.
Qed.
Lemma run_dead h : forall st, dead st -> dead (fst (run st h)) /\ (forall k, ~ In (Got k) (snd (run st h))).
Proof.
  induction h as [|ix h IH]; intros st D; [split; [exact D|intros k []]|]. destruct (step_dead st ix D) as [D1 N1]. destruct (IH _ D1) as [D2 N2].
  rewrite run_cons. cbn [fst snd]. split; [exact D2|]. intros k H. apply in_app_iff in H. destruct H as [H|H]; [exact (N1 k H)|exact (N2 k H)].
Qed.
Lemma dead_unheld st : dead st -> ~ Held st.
Proof. intros [_ D] H. destruct (D _ H) as [D1 _]. discriminate D1. Qed.

(** Every request is for an interface the object has. *)
Definition supported (st : state) : Prop := Forall (asked true) (s_agents st).
Lemma step_supported st ix : snd ix <> WGet false -> supported st -> supported (fst (step st ix)).
Proof.
  destruct ix as [i x]. cbn [snd]. intros NX D. destruct (step_shape st i x) as [->|(l1 & a & l2 & st' & w & ev & EA & EN & EL & EC & ->)]; [exact D|]. cbn [fst].
  unfold supported in *. rewrite EA in D. apply Forall_app in D. destruct D as [F1 F2]. inversion F2 as [|? ? Fa F3]; subst. unfold with_agents. cbn [s_agents].
  apply Forall_app. split; [exact F1|]. apply Forall_app. split; [|exact F3].
  destruct st as [s wk wc de fr ub ag].
  destruct a as [[]| | |[]|k0|k0| |k0 sup|k0 sup c|k0], x as [| | | | | | | | | | |sp| |]; cbn [act] in EC; try discriminate EC; unf; flds; cbn [asked] in Fa; try subst sup;
    try match type of EC with context [if ?b then Some _ else Some _] => destruct b end;
    injection EC as <- <- <-; repeat match goal with |- context [if ?b then _ else _] => destruct b end;
    repeat (apply Forall_cons; [cbn [asked]; try exact Logic.I; try reflexivity; try discriminate|]); try apply Forall_nil.
  - destruct sp; [reflexivity|congruence].
Qed.
Lemma run_supported h : forall st, (forall i, ~ In (i, WGet false) h) -> supported st -> supported (fst (run st h)).
Proof.
  induction h as [|[i x] h IH]; intros st N D; [exact D|]. rewrite run_cons. cbn [fst]. apply IH; [intros j Hj; exact (N j (or_intror Hj))|].
  apply step_supported; [|exact D]. cbn [snd]. intros ->. exact (N i (or_introl eq_refl)).
Qed.

Lemma expired_dead st ix k : good st -> fresh st -> supported st -> In (Expired k) (snd (step st ix)) -> dead (fst (step st ix)).
Proof.
  destruct ix as [i x]. intros G F D. destruct (step_shape st i x) as [->|(l1 & a & l2 & st' & w & ev & EA & EN & EL & EC & ->)]; [intros []|]. cbn [fst snd]. intro H.
  assert (HA : In a (s_agents st)) by (rewrite EA; apply in_app_iff; right; left; reflexivity).
  unfold supported in D. rewrite Forall_forall in D. pose proof (D a HA) as Da.
  destruct G as [V|[_ [(A & _)|(A & _)]]].
  2:{ rewrite A in HA. destruct HA as [<-|[]]. destruct x; cbn [act] in EC; try discriminate EC. injection EC as <- <- <-. cbn in H. intuition discriminate. }
  2:{ rewrite A in HA. destruct HA. }
  pose proof (v_strong _ V) as R. pose proof (v_cas _ V) as C. unfold fresh in F.
  destruct st as [s wk wc de fr ub ag]. flds.
  destruct a as [[]| | |[]|k0|k0| |k0 sup|k0 sup c|k0], x; cbn [act] in EC; try discriminate EC; unf; flds; cbn [asked] in Da; try discriminate Da.
  all: try (match type of EC with context [if ?b then Some _ else Some _] => destruct b eqn:S0 end);
    try (match type of EC with context [if ?b then Some _ else Some _] => destruct b eqn:S1 end);
    injection EC as <- <- <-; cbn [In] in H; repeat match type of H with _ \/ _ => destruct H as [H|H] | False => destruct H end; try discriminate H.
  apply Z.eqb_eq in S0. subst s. split; [reflexivity|]. cbn [s_agents].
  assert (BF : cnt is_bf ag = 0).
  { destruct (Z.ltb_spec 0 (cnt is_bf ag)) as [Q|Q]; [|pose proof (cnt_pos is_bf ag); lia]. specialize (F Q k0 _ HA). cbn [uses_w] in F. rewrite Nat.eqb_refl in F. discriminate F. }
  assert (K : forall b, In b ag -> is_ref b = false /\ is_b b = false /\ is_cas b = false).
  { intros b Hb. pose proof (cnt_none is_ref ag (eq_sym R) b Hb) as E1. pose proof (cnt_none is_bf ag BF b Hb) as E2. pose proof (cnt_none is_cas ag C b Hb) as E3.
    split; [exact E1|]. split; [|exact E3]. destruct b as [[]| | | | | | | | |]; try reflexivity; discriminate. }
  intros b Hb. apply in_app_iff in Hb. cbn [In app] in Hb. rewrite EA in K. destruct Hb as [Hb|[<-|Hb]].
  - apply K. apply in_app_iff. left. exact Hb.
  - repeat split; reflexivity.
  - apply K. apply in_app_iff. right. right. exact Hb.
Qed.
Lemma reach_supported h : (forall i, ~ In (i, WGet false) h) -> supported (fst (run init h)).
Proof. intro N. apply run_supported; [exact N|]. repeat constructor. Qed.

Lemma got_alive st ix k : good st -> behaves st ix -> In (Got k) (snd (step st ix)) -> Held (fst (step st ix)).
Proof.
  destruct ix as [i x]. intros G B. destruct (step_shape st i x) as [->|(l1 & a & l2 & st' & w & ev & EA & EN & EL & EC & ->)]; [intros []|]. cbn [fst snd]. intro H.
  unfold Held, with_agents. cbn [s_agents]. apply in_app_iff. right. apply in_app_iff. left.
  destruct st as [s wk wc de fr ub ag].
  destruct a as [[]| | |[]|k0|k0| |k0 sup|k0 sup c|k0], x; cbn [act] in EC; try discriminate EC; unf; flds;
  try (match type of EC with context [if ?b then Some _ else Some _] => destruct b eqn:S0 end);
    try (match type of EC with context [if ?b then Some _ else Some _] => destruct b eqn:S1 end);
    injection EC as <- <- <-; cbn [In] in H; repeat match type of H with _ \/ _ => destruct H as [H|H] | False => destruct H end; try discriminate H.
  left. reflexivity.
Qed.

Lemma split_nth {A} (l1 : list A) a l2 : nth_error (l1 ++ a :: l2) (length l1) = Some a.
Proof. rewrite nth_error_app2 by lia. rewrite Nat.sub_diag. reflexivity. Qed.
Lemma first_n {A} (l1 : list A) l2 : firstn (length l1) (l1 ++ l2) = l1.
Proof. rewrite firstn_app, Nat.sub_diag, firstn_all. cbn [firstn]. apply app_nil_r. Qed.
Lemma skip_n {A} (l1 : list A) a l2 : skipn (S (length l1)) (l1 ++ a :: l2) = l2.
Proof. rewrite skipn_app. rewrite (skipn_all2 l1) by lia. replace (S (length l1) - length l1)%nat with 1%nat by lia. reflexivity. Qed.
Lemma step_at st l1 a l2 x st' w ev : s_agents st = l1 ++ a :: l2 -> act a x st = Some (st', w, ev) -> step st (length l1, x) = (with_agents st' (l1 ++ w ++ l2), ev).
Proof. intros EA EC. unfold step. rewrite EA, split_nth, EC, first_n, skip_n. reflexivity. Qed.
Lemma weak_yields st i k : inv st -> Held st -> nth_error (s_agents st) i = Some (Weak k) ->
  snd (run st [(i, WGet true); (i, Tick); (i, Tick)]) = [Got k].
Proof.
  intros V H N. destruct (ref_alive st Ref V H eq_refl) as (_ & _ & P).
  pose proof (split_at _ _ _ N) as EA. set (l1 := firstn i (s_agents st)) in *. set (l2 := skipn (S i) (s_agents st)) in *.
  assert (EL : length l1 = i) by (apply firstn_length_le; assert (i < length (s_agents st))%nat by (apply nth_error_Some; congruence); lia).
  rewrite <- EL. rewrite run_cons. erewrite (step_at st l1 (Weak k) l2 (WGet true)); [|exact EA|reflexivity]. cbn [fst snd app].
  rewrite run_cons. erewrite (step_at _ l1 (Load k true) l2 Tick); [|reflexivity|].
  2:{ cbn [act]. unf. flds. replace (s_strong st =? 0) with false by (symmetry; apply Z.eqb_neq; lia). reflexivity. }
  cbn [fst snd app]. rewrite run_cons. erewrite (step_at _ l1 (Cas k true (s_strong st)) l2 Tick); [|reflexivity|].
  2:{ cbn [act]. unf. flds. rewrite Z.eqb_refl. reflexivity. }
  reflexivity.
Qed.
