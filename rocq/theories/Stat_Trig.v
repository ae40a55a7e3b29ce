(** Proofs about the statistics block with a nested trigger, the arithmetic
    and the trigger block. *)
From Verif Require Import Base Stat_Model Stat_Spec Stat_Proofs.
Local Open Scope Z_scope.

(** ** The history *)
Lemma state_app_late : forall h k t acc, Forall (fun e : bool * Z => t < snd e) k -> state_at (h ++ k) t acc = state_at h t acc.
Proof.
  intros h. induction h as [|[b d] h IH]; intros k t acc H; cbn [app state_at].
  - destruct H as [|[b d] k L _]; [reflexivity|]. cbn [state_at snd] in *.
    replace (d <=? t) with false by (symmetry; apply Z.leb_gt; exact L). reflexivity.
  - destruct (d <=? t); [apply IH; exact H | reflexivity].
Qed.

Lemma in_order_tail : forall a h, in_order (a :: h) -> in_order h.
Proof. intros a h H i j x y L X Y. apply (H (Datatypes.S i) (Datatypes.S j) x y); [lia | exact X | exact Y]. Qed.
Lemma in_order_head : forall a h, in_order (a :: h) -> Forall (fun e => snd a <= snd e) h.
Proof.
  intros a h H. apply Forall_forall. intros x Hx. apply In_nth_error in Hx as [n Hn].
  apply (H 0%nat (Datatypes.S n) a x); [lia | reflexivity | exact Hn].
Qed.

Lemma state_on : forall h t acc, in_order h ->
  (state_at h t acc = true <-> (on h t \/ (acc = true /\ Forall (fun e => t < snd e) h))).
Proof.
  intros h t. induction h as [|[b d] h IH]; intros acc O; cbn [state_at].
  - split.
    + intros ->. right. split; [reflexivity | constructor].
    + intros [[x [y [z [H _]]]]|[H _]]; [destruct x; discriminate | exact H].
  - assert (OT := in_order_tail _ _ O). assert (OH := in_order_head _ _ O). cbn [snd] in OH.
    destruct (d <=? t) eqn:E.
    + apply Z.leb_le in E. rewrite (IH b OT). split.
      * intros [[x [y [z [H1 [H2 H3]]]]]|[-> H]]; left.
        -- exists ((b, d) :: x), y, z. rewrite H1. repeat split; assumption.
        -- exists [], d, h. repeat split; assumption.
      * intros [[x [y [z [H1 [H2 H3]]]]]|[_ H]].
        -- destruct x as [|p x]; cbn [app] in H1; inversion H1; subst.
           ++ right. split; [reflexivity | exact H3].
           ++ left. exists x, y, z. repeat split; assumption.
        -- inversion H; subst. cbn [snd] in *. lia.
    + apply Z.leb_gt in E. split.
      * intros ->. right. split; [reflexivity|]. constructor; [exact E|]. eapply Forall_impl; [|exact OH].
        cbn beta. intros; lia.
      * intros [[x [y [z [H1 [H2 H3]]]]]|[-> _]]; [|reflexivity]. exfalso.
        destruct x as [|p x]; cbn [app] in H1; inversion H1; subst; [lia|].
        rewrite Forall_app in OH. destruct OH as [_ OH]. inversion OH; subst. cbn [snd] in *. lia.
Qed.
Lemma triggered_on : forall h t, in_order h -> (triggered h t = true <-> on h t).
Proof. intros h t O. unfold triggered. rewrite (state_on h t false O). split; [intros [H|[H _]]; [exact H | discriminate] | left; assumption]. Qed.

(** the same answers from t0 on, whatever is added *)
Definition same_from (t0 : Z) (h e : list (bool * Z)) : Prop :=
  forall k t, t0 <= t -> triggered (h ++ k) t = triggered (e ++ k) t.
Lemma same_from_later : forall t0 t1 h e, t0 <= t1 -> same_from t0 h e -> same_from t1 h e.
Proof. intros t0 t1 h e L H k t L'. apply H. lia. Qed.
Lemma same_from_trans : forall t0 h e f, same_from t0 h e -> same_from t0 e f -> same_from t0 h f.
Proof. intros t0 h e f A B k t L. rewrite A by exact L. apply B. exact L. Qed.

Lemma drop_same : forall h t0, triggered h t0 = false -> same_from t0 (drop_to h t0) h.
Proof.
  assert (G : forall h t0 acc, state_at h t0 acc = false ->
     forall k t, t0 <= t -> state_at (drop_to h t0 ++ k) t false = state_at (h ++ k) t acc).
  { intros h t0. induction h as [|[b d] h IH]; intros acc H k t L; cbn [drop_to].
    - cbn [state_at app] in *. rewrite H. reflexivity.
    - cbn [state_at] in H. destruct (d <? t0) eqn:E.
      + apply Z.ltb_lt in E. replace (d <=? t0) with true in H by (symmetry; apply Z.leb_le; lia).
        rewrite (IH b H k t L). cbn [app state_at]. replace (d <=? t) with true by (symmetry; apply Z.leb_le; lia). reflexivity.
      + apply Z.ltb_ge in E. cbn [app state_at]. destruct (d <=? t) eqn:F; [reflexivity|].
        apply Z.leb_gt in F. replace (d <=? t0) with false in H by (symmetry; apply Z.leb_gt; lia). symmetry. exact H. }
  intros h t0 H k t L. apply (G h t0 false H k t L).
Qed.

(** ** Parts of a packet *)
Lemma advance_timed : forall h w d vs a, exists v1 v2 o,
  advance h w (timed d a vs) = (timed d a v1, timed d (a + Z.of_nat (length v1) * d) v2, o) /\ vs = v1 ++ v2 /\
  Forall (fun e => triggered h (fst e) = w) (timed d a v1) /\
  match v2 with [] => o = true | _ => o = false /\ triggered h (a + Z.of_nat (length v1) * d) = negb w end.
Proof.
  intros h w d vs. induction vs as [|v vs IH]; intros a; cbn [timed advance].
  - exists [], [], true. repeat split; constructor.
  - destruct (Bool.eqb (triggered h a) w) eqn:E.
    + destruct (IH (a + d)) as [v1 [v2 [o [E1 [E2 [E3 E4]]]]]]. rewrite E1. exists (v :: v1), v2, o.
      assert (P : a + Z.of_nat (length (v :: v1)) * d = a + d + Z.of_nat (length v1) * d) by (cbn [length]; lia).
      rewrite P. cbn [timed app]. rewrite E2. repeat split; [|exact E4].
      constructor; [apply Bool.eqb_prop; exact E | exact E3].
    + exists [], (v :: vs), false. cbn [timed app length]. replace (a + Z.of_nat 0 * d) with a by lia.
      repeat split; [constructor|]. apply Bool.eqb_false_iff in E. destruct (triggered h a), w; try contradiction; reflexivity.
Qed.

Definition shifted (a : Z) (l : list (Z * Z)) : list (Z * Z) := map (fun e => (fst e - a, snd e)) l.
Lemma shifted_timed : forall a d vs t, shifted a (timed d t vs) = timed d (t - a) vs.
Proof.
  intros a d vs. induction vs as [|v vs IH]; intros t; cbn [timed shifted map fst snd]; [reflexivity|].
  f_equal. fold (shifted a (timed d (t + d) vs)). rewrite IH. f_equal. lia.
Qed.
Lemma filter_all : forall (f : Z * Z -> bool) l, Forall (fun e => f e = true) l -> filter f l = l.
Proof. intros f l H. induction H as [|x l E H IH]; cbn [filter]; [reflexivity|]. rewrite E, IH. reflexivity. Qed.
Lemma filter_none : forall (f : Z * Z -> bool) l, Forall (fun e => f e = false) l -> filter f l = [].
Proof. intros f l H. induction H as [|x l E H IH]; cbn [filter]; [reflexivity|]. rewrite E. exact IH. Qed.
Lemma timed_from : forall d vs a, 0 < d -> Forall (fun e => a <= fst e <= a + Z.of_nat (length vs) * d - d) (timed d a vs).
Proof.
  intros d vs. induction vs as [|v vs IH]; intros a H; cbn [timed length]; constructor.
  - cbn [fst]. lia.
  - eapply Forall_impl; [|apply (IH (a + d) H)]. cbn beta. intros e. lia.
Qed.
Lemma last_timed : forall d vs a, vs <> [] -> fst (last (timed d a vs) (0, 0)) = a + Z.of_nat (length vs) * d - d.
Proof.
  intros d vs. induction vs as [|v vs IH]; intros a H; [contradiction|]. cbn [timed length].
  destruct vs as [|w vs]; [cbn [timed last fst length]; lia|].
  change (last ((a, v) :: timed d (a + d) (w :: vs)) (0, 0)) with (last (timed d (a + d) (w :: vs)) (0, 0)).
  rewrite IH by discriminate. cbn [length]. lia.
Qed.

Definition running_state (s : st) (c : conf) : Prop := valid s = true /\ cf s = Some c /\ nested s = true.


Lemma parts_unfold : forall f s c l, l <> [] -> triggered_parts (Datatypes.S f) s c l =
      let '(off_part, l1, o1) := advance (hist s) false l in
      let s1 := match off_part with
                | [] => s
                | _ => with_hist s (drop_to (hist s) (fst (last off_part (0, 0))))
                end in
      match l1 with
      | [] => {| after := s1; outs := []; past_end := o1; crash := false |}
      | (t, _) :: _ =>
        let '(on_part, l2, o2) := advance (hist s1) true l1 in
        let r1 := calculate_and_send s1 c (t - start c) (map snd on_part) in
        if crash r1 then {| after := after r1; outs := outs r1; past_end := o1 || o2; crash := true |}
        else let r2 := triggered_parts f (after r1) c l2 in
             {| after := after r2; outs := outs r1 ++ outs r2; past_end := o1 || o2 || past_end r2; crash := crash r2 |}
      end.
Proof. intros f s c l H. destruct l; [contradiction | reflexivity]. Qed.

Definition part_ok (c : conf) (vs : list Z) (a : Z) (s0 : list (Z * Z)) (e : list (bool * Z)) (r : result) : Prop :=
  let sel := shifted (start c) (filter (fun x => triggered e (fst x)) (timed (delta c) a vs)) in
  crash r = false /\ running_state (after r) c /\
  holding c (stretches (delta c) (s0 ++ sel)) (buf (after r)) (next (after r)) /\
  (forall b, a <= b -> a + Z.of_nat (length vs) * delta c - delta c <= b -> same_from b (hist (after r)) e) /\
  concat (map (outs_of c) (stretches (delta c) (s0 ++ sel))) = concat (map (outs_of c) (stretches (delta c) s0)) ++ outs r /\
  (past_end r = true \/ vs = []).

Lemma parts_ok : forall c fuel vs a s s0 e, sensible c -> 0 < delta c -> running_state s c ->
  (length vs < fuel)%nat ->
  holding c (stretches (delta c) s0) (buf s) (next s) -> same_from a (hist s) e ->
  part_ok c vs a s0 e (triggered_parts fuel s c (timed (delta c) a vs)).
Proof.
  intros c fuel. induction fuel as [|fuel IH]; intros vs a s s0 e H D RS L HB SF; [lia|].
  destruct (list_eq_dec Z.eq_dec vs []) as [->|N].
  { unfold part_ok. cbn [timed triggered_parts filter shifted map crash after outs length]. rewrite !app_nil_r.
    split; [reflexivity|]. split; [exact RS|]. split; [exact HB|]. split; [|split; [reflexivity | right; reflexivity]].
    intros b B _. eapply same_from_later; [exact B | exact SF]. }
  rewrite parts_unfold by (destruct vs; [contradiction | discriminate]).
  destruct (advance_timed (hist s) false (delta c) vs a) as [u1 [u2 [o1 [A1 [A2 [A3 A4]]]]]].
  rewrite A1. cbn beta iota zeta.
  set (s1 := match timed (delta c) a u1 with [] => s | _ :: _ => with_hist s (drop_to (hist s) (fst (last (timed (delta c) a u1) (0, 0)))) end).
  set (a1 := a + Z.of_nat (length u1) * delta c) in *.
  assert (S1 : running_state s1 c /\ buf s1 = buf s /\ next s1 = next s /\
               (forall b, a <= b -> a1 - delta c <= b -> same_from b (hist s1) e)).
  { unfold s1. destruct u1 as [|x u1].
    - cbn [timed]. split; [exact RS|]. split; [reflexivity|]. split; [reflexivity|]. intros b B _. eapply same_from_later; [exact B | exact SF].
    - rewrite last_timed by discriminate. fold a1. cbn [timed]. split; [exact RS|]. split; [reflexivity|]. split; [reflexivity|].
      intros b B1 B2. cbn [with_hist hist].
      assert (T : triggered (hist s) (a1 - delta c) = false).
      { rewrite Forall_forall in A3. replace (a1 - delta c) with (fst (last (timed (delta c) a (x :: u1)) (0, 0))) by (apply last_timed; discriminate).
        apply A3. cbn [timed]. assert (NE : (a, x) :: timed (delta c) (a + delta c) u1 <> []) by discriminate.
        destruct (exists_last NE) as [l' [z Ez]]. rewrite Ez. rewrite last_last. apply in_or_app. right. left. reflexivity. }
      eapply same_from_trans; [eapply same_from_later; [exact B2 | apply drop_same; exact T] | eapply same_from_later; [exact B1 | exact SF]]. }
  destruct S1 as [R1 [B1 [N1 F1]]]. clearbody s1.
  assert (AA : a <= a1) by (unfold a1; nia).
  assert (SE : forall t, a <= t -> triggered (hist s) t = triggered e t).
  { intros t Ht. assert (X := SF [] t Ht). rewrite !app_nil_r in X. exact X. }
  assert (OFF : filter (fun x => triggered e (fst x)) (timed (delta c) a u1) = []).
  { apply filter_none. assert (TF := timed_from (delta c) u1 a D). rewrite Forall_forall in *. intros x Hx.
    rewrite <- SE by (apply TF in Hx; lia). apply A3. exact Hx. }
  destruct u2 as [|x u2].
  - cbn [timed]. rewrite app_nil_r in A2. subst u1. unfold part_ok. cbn [crash after outs past_end]. rewrite OFF.
    cbn [shifted map]. rewrite !app_nil_r. split; [reflexivity|]. split; [exact R1|]. split; [rewrite B1, N1; exact HB|].
    split; [intros b X Y; apply F1; assumption|]. split; [reflexivity|]. left. exact A4.
  - destruct A4 as [-> A4]. cbn [negb] in A4.
    destruct (advance_timed (hist s1) true (delta c) (x :: u2) a1) as [w1 [w2 [o2 [C1 [C2 [C3 C4]]]]]].
    rewrite C1. cbn [timed]. cbn beta iota zeta.
    assert (S1E : forall t, a1 <= t -> triggered (hist s1) t = triggered e t).
    { intros t Ht. assert (X := F1 t ltac:(lia) ltac:(lia) [] t (Z.le_refl t)). rewrite !app_nil_r in X. exact X. }
    assert (W1 : w1 <> []).
    { intros ->. cbn [app length] in *. destruct w2 as [|y w2]; [discriminate|]. destruct C4 as [_ C4]. cbn [negb] in C4.
      replace (a1 + Z.of_nat 0 * delta c) with a1 in C4 by lia. rewrite S1E in C4 by lia. rewrite <- SE in C4 by lia. congruence. }
    rewrite map_snd_timed. unfold calculate_and_send.
    destruct (calculate_ok c _ _ _ (a1 - start c) w1 H HB) as [b' [n' [o [E1 [E2 E3]]]]].
    rewrite B1, N1, E1. cbn [crash after outs past_end].
    rewrite <- stretches_app in E2, E3 by exact W1.
    assert (LW : (1 <= length w1)%nat) by (destruct w1; [contradiction | cbn [length]; lia]).
    assert (LL : length vs = (length u1 + length w1 + length w2)%nat).
    { rewrite A2, C2, !app_length. lia. }
    set (a2 := a1 + Z.of_nat (length w1) * delta c) in *.
    assert (ON : filter (fun x => triggered e (fst x)) (timed (delta c) a1 w1) = timed (delta c) a1 w1).
    { apply filter_all. assert (TF := timed_from (delta c) w1 a1 D). rewrite Forall_forall in *. intros y Hy.
      rewrite <- S1E by (apply TF in Hy; lia). apply C3. exact Hy. }
    assert (R2 : running_state (with_data s1 b' n') c) by exact R1.
    assert (A12 : a1 + delta c <= a2) by (unfold a2; nia).
    specialize (IH w2 a2 (with_data s1 b' n') (s0 ++ timed (delta c) (a1 - start c) w1) e H D R2 ltac:(lia) E2).
    destruct IH as [I1 [I2 [I3 [I4 [I5 I6]]]]].
    { cbn [with_data hist]. apply F1; lia. }
    assert (SEL : shifted (start c) (filter (fun x => triggered e (fst x)) (timed (delta c) a vs)) =
      timed (delta c) (a1 - start c) w1 ++ shifted (start c) (filter (fun x => triggered e (fst x)) (timed (delta c) a2 w2))).
    { rewrite A2, C2. rewrite timed_app. fold a1. rewrite timed_app. fold a2. rewrite !filter_app, OFF, ON. cbn [app].
      unfold shifted at 1. rewrite map_app. fold (shifted (start c) (timed (delta c) a1 w1)). rewrite shifted_timed. reflexivity. }
    unfold part_ok. rewrite SEL. cbn [crash after outs past_end]. rewrite app_assoc.
    split; [exact I1|]. split; [exact I2|]. split; [exact I3|]. split.
    { intros b X Y.
      assert (PE : a + Z.of_nat (length vs) * delta c = a2 + Z.of_nat (length w2) * delta c).
      { unfold a2, a1. rewrite LL. lia. }
      destruct w2 as [|y w2].
      - cbn [timed length] in *. destruct fuel as [|fuel]; [lia|]. cbn [triggered_parts after with_data hist]. apply F1; [exact X | lia].
      - apply I4; [|lia]. cbn [length] in PE. nia. }
    split; [rewrite I5, E3, <- app_assoc; reflexivity|]. left.
    destruct I6 as [I6|I6].
    + rewrite I6, !Bool.orb_true_r. reflexivity.
    + subst w2. rewrite C4. cbn [orb]. reflexivity.
Qed.

(** ** Runs with a trigger *)
Lemma selected_app : forall (A : Type) (P : A -> Prop) s l s' l', selected P s l -> selected P s' l' -> selected P (s ++ s') (l ++ l').
Proof. intros A P s l s' l' H K. induction H; cbn [app]; [exact K| |]; constructor; assumption. Qed.
Lemma selected_filter : forall (A : Type) (P : A -> Prop) (f : A -> bool) s, (forall x, In x s -> (f x = true <-> P x)) -> selected P s (filter f s).
Proof.
  intros A P f s. induction s as [|x s IH]; intros H; cbn [filter]; [constructor|].
  assert (Hx := H x (or_introl eq_refl)). assert (R : selected P s (filter f s)) by (apply IH; intros y Hy; apply H; right; exact Hy).
  destruct (f x); constructor; try exact R; [apply Hx; reflexivity|]. intros Q. apply Hx in Q. discriminate.
Qed.

Lemma shifted_filter : forall a g d off l,
  shifted a (filter (fun x => g (fst x)) (timed d (a + off) l)) = filter (fun x => g (a + fst x)) (timed d off l).
Proof.
  intros a g d off l. revert off. induction l as [|v l IH]; intros off; cbn [timed]; [reflexivity|].
  cbn [filter fst]. rewrite <- Z.add_assoc. destruct (g (a + off)); cbn [shifted map fst snd]; fold (shifted a (filter (fun x => g (fst x)) (timed d (a + (off + d)) l))); rewrite IH.
  - f_equal. f_equal. lia.
  - reflexivity.
Qed.

(** the samples behind a given domain value *)
Lemma rising_app : forall s k, rising (s ++ k) -> rising k /\ Forall (fun x => Forall (fun y => fst x < fst y) k) s.
Proof.
  intros s k. induction s as [|[t v] s IH]; cbn [app rising]; intros H; [split; [exact H | constructor]|].
  destruct H as [H1 H2]. destruct (IH H2) as [I1 I2]. split; [exact I1|]. constructor; [|exact I2].
  rewrite Forall_app in H1. exact (proj2 H1).
Qed.

Lemma triggered_run : forall c all h s s0 e t0, sensible c -> 0 < delta c -> running_state s c ->
  Forall running h -> in_order all -> all = e ++ changes_of h ->
  rising (stream (delta c) (packets_of h)) -> Forall (fun x => t0 <= start c + fst x) (stream (delta c) (packets_of h)) ->
  on_time (start c) (delta c) h ->
  holding c (stretches (delta c) s0) (buf s) (next s) -> same_from t0 (hist s) e ->
  exists sel, selected (fun x => on all (start c + fst x)) (stream (delta c) (packets_of h)) sel /\
    crash (run s h) = false /\
    concat (map (outs_of c) (stretches (delta c) (s0 ++ sel))) = concat (map (outs_of c) (stretches (delta c) s0)) ++ outs (run s h).
Proof.
  intros c all h. induction h as [|o h IH]; intros s s0 e t0 H D RS RU O AL RI T0 OT HB SF.
  - exists []. cbn [run only crash outs]. rewrite !app_nil_r. split; [constructor | split; reflexivity].
  - inversion RU as [|x y RU1 RU2]; subst x y.
    assert (OT' : on_time (start c) (delta c) h).
    { intros b off l la bb t t' v Hh. apply (OT (o :: b) off l la bb t t' v). rewrite Hh. reflexivity. }
    destruct o as [| |off l| | | |b t]; cbn [running] in RU1; try contradiction.
    + change (packets_of (Input off l :: h)) with ((off, l) :: packets_of h) in *.
      change (changes_of (Input off l :: h)) with (changes_of h) in *.
      cbn [run step]. unfold input. destruct RS as [V [C N]]. rewrite V, C, N.
      unfold stream in RI, T0. cbn [map concat] in RI, T0. rewrite <- timed_ticks in RI, T0.
      fold (stream (delta c) (packets_of h)) in RI, T0.
      destruct (rising_app _ _ RI) as [RI1 RI2]. rewrite Forall_app in T0. destruct T0 as [T1 T2].
      assert (P := parts_ok c (Datatypes.S (length l)) l (start c + off) s s0 e H D (conj V (conj C N)) ltac:(lia) HB).
      assert (SF' : same_from (start c + off) (hist s) e \/ l = []).
      { destruct l as [|v l]; [right; reflexivity|]. left. cbn [timed] in T1. inversion T1; subst. cbn [fst] in *.
        eapply same_from_later; [eassumption | exact SF]. }
      destruct (list_eq_dec Z.eq_dec l []) as [->|NE].
      * cbn [timed triggered_parts length crash after outs past_end app].
        destruct (IH s s0 e t0 H D (conj V (conj C N)) RU2 O AL RI1 T2 OT' HB SF) as [sel [Q1 [Q2 Q3]]].
        exists sel. split; [exact Q1 | split; [exact Q2 | exact Q3]].
      * destruct SF' as [SF'|SF']; [|contradiction]. specialize (P SF'). clear SF'.
        set (r := triggered_parts (Datatypes.S (length l)) s c (timed (delta c) (start c + off) l)) in *. clearbody r.
        destruct P as [P1 [P2 [P3 [P4 [P5 _]]]]]. rewrite P1. cbn [crash outs].
        assert (LN : (1 <= length l)%nat) by (destruct l; [contradiction | cbn [length]; lia]).
        set (t1 := start c + off + Z.of_nat (length l) * delta c - delta c) in *.
        destruct (IH (after r) (s0 ++ shifted (start c) (filter (fun x => triggered e (fst x)) (timed (delta c) (start c + off) l))) e t1
                    H D P2 RU2 O AL RI1) as [sel [Q1 [Q2 Q3]]].
        -- (* later samples are later *)
           apply Forall_forall. intros y Hy. rewrite Forall_forall in RI2.
           assert (LST : In (last (timed (delta c) off l) (0, 0)) (timed (delta c) off l)).
           { destruct l as [|v l]; [contradiction|]. cbn [timed]. assert (NN : (off, v) :: timed (delta c) (off + delta c) l <> []) by discriminate.
             destruct (exists_last NN) as [l' [z Ez]]. rewrite Ez, last_last. apply in_or_app. right. left. reflexivity. }
           assert (X := RI2 _ LST). rewrite Forall_forall in X. specialize (X y Hy). rewrite last_timed in X by exact NE. unfold t1. lia.
        -- exact OT'.
        -- exact P3.
        -- apply P4; unfold t1; nia.
        -- rewrite <- app_assoc in Q3.
           exists (shifted (start c) (filter (fun x => triggered e (fst x)) (timed (delta c) (start c + off) l)) ++ sel).
           split; [|split; [exact Q2|]].
           ++ unfold stream. cbn [map concat]. rewrite <- timed_ticks. apply selected_app; [|exact Q1].
              rewrite shifted_filter. apply selected_filter. intros [t v] Hx. cbn [fst].
              rewrite <- (triggered_on all _ O). rewrite AL. unfold triggered. rewrite state_app_late; [reflexivity|].
              apply Forall_forall. intros [b te] He. cbn [snd]. unfold changes_of in He. apply in_flat_map in He as [oo [Ho1 Ho2]].
              destruct oo; cbn [In] in Ho2; try contradiction. destruct Ho2 as [Ho2|[]]. inversion Ho2; subst.
              rewrite timed_ticks in Hx. apply (OT [] off l h b te t v); [reflexivity | exact Ho1 | exact Hx].
           ++ rewrite Q3, P5, <- app_assoc. reflexivity.
    + change (packets_of (TriggerData b t :: h)) with (packets_of h) in *.
      change (changes_of (TriggerData b t :: h)) with ((b, t) :: changes_of h) in *.
      cbn [run step only crash after outs app].
      apply (IH (trigger_data s b t) s0 (e ++ [(b, t)]) t0 H D RS RU2 O).
      * rewrite AL, <- app_assoc. reflexivity.
      * exact RI.
      * exact T0.
      * exact OT'.
      * exact HB.
      * intros k u Hu. cbn [trigger_data with_hist hist]. rewrite <- !app_assoc. apply SF. exact Hu.
Qed.

(** ** The trigger block *)
Lemma trigger_packet_flips : forall l g, snd (trigger_packet g l) = flips (active g) l (states (threshold g) (active g) l) /\
  active (fst (trigger_packet g l)) = last (states (threshold g) (active g) l) (active g) /\
  threshold (fst (trigger_packet g l)) = threshold g.
Proof.
  intros l. induction l as [|[t v] l IH]; intros g; [repeat split; reflexivity|].
  assert (LS : forall x d d', last (states (threshold g) x l) d = last (states (threshold g) x l) d' \/ l = []).
  { intros x d d'. destruct l as [|[t1 v1] l]; [right; reflexivity|]. left. cbn [states].
    generalize (states (threshold g) (above (threshold g) v1 x) l) as m. generalize (above (threshold g) v1 x) as y.
    intros y m. revert y. induction m as [|z m IHm]; intros y; [reflexivity|]. change (last (z :: m) d = last (z :: m) d'). apply IHm. }
  assert (LC : forall x d, last (x :: states (threshold g) x l) d = last (states (threshold g) x l) x).
  { intros x d. destruct (LS x d x) as [Q| ->]; [|reflexivity]. destruct (states (threshold g) x l) as [|z m] eqn:E; [reflexivity|].
    change (last (z :: m) d = last (z :: m) x). exact Q. }
  cbn [trigger_packet states]. rewrite LC.
  assert (X : above (threshold g) v (active g) = if crossed g v then negb (active g) else active g).
  { unfold above, crossed. destruct v as [x|]; [|reflexivity]. destruct (active g).
    - destruct (x <? threshold g) eqn:E; [apply Z.ltb_lt in E; apply Z.leb_gt; exact E | apply Z.ltb_ge in E; apply Z.leb_le; exact E].
    - destruct (threshold g <=? x); reflexivity. }
  rewrite X. destruct (crossed g v) eqn:K; cbn [flips].
  - destruct (IH {| active := negb (active g); threshold := threshold g |}) as [I1 [I2 I3]]. cbn [active threshold fst snd] in *.
    replace (Bool.eqb (negb (active g)) (active g)) with false by (destruct (active g); reflexivity).
    rewrite I1. split; [reflexivity|]. split; assumption.
  - rewrite Bool.eqb_reflx. apply IH.
Qed.
Lemma trigger_packets_concat : forall ps g, trigger_packets g ps = trigger_packet g (concat ps).
Proof.
  assert (A : forall l k g, trigger_packet g (l ++ k) =
     (fst (trigger_packet (fst (trigger_packet g l)) k), snd (trigger_packet g l) ++ snd (trigger_packet (fst (trigger_packet g l)) k))).
  { intros l k. induction l as [|[t v] l IH]; intros g; cbn [app trigger_packet fst snd].
    - destruct (trigger_packet g k); reflexivity.
    - destruct (crossed g v); [|apply IH]. rewrite IH. cbn [fst snd app]. reflexivity. }
  intros ps. induction ps as [|p ps IH]; intros g; cbn [trigger_packets concat]; [reflexivity|].
  rewrite A, IH. reflexivity.
Qed.
