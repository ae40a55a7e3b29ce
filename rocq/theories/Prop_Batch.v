(** Batch updates. *)
From Coq Require Import ZArith List Bool Lia.
From Verif Require Import Prop_Model Prop_Spec Prop_Proofs Prop_Keep Prop_Last Prop_Quiet.
Import ListNotations.
Local Open Scope Z_scope.

(** The actions which a call queues. *)
Definition clears (c : cfg) (prot : bool) (l : list name) : list action :=
  flat_map (fun p => match c_prop c p with
                     | None => []
                     | Some pr => if (negb prot && p_readonly pr) || negb (p_local pr) then []
                                  else [{| a_name := p; a_set := false; a_prot := prot; a_value := VInt 0 |}]
                     end) l.

Definition acts (c : cfg) (o : op) : list action :=
  match o with
  | Set_ prot p x => [{| a_name := p; a_set := true; a_prot := prot; a_value := x |}]
  | Clear prot p => [{| a_name := p; a_set := false; a_prot := prot; a_value := VInt 0 |}]
  | ClearAll prot => clears c prot (c_names c)
  | _ => []
  end.

Lemma clear_each_queue : forall n c prot l st, s_count st <> O -> s_frozen st = false ->
  clear_each n c st prot l = Some (with_batch st (s_count st) (s_pend st ++ clears c prot l), OOk).
Proof.
  intros n c prot l. induction l as [|p l IH]; intros st K F; cbn [clear_each clears flat_map].
  - rewrite app_nil_r. destruct st; reflexivity.
  - fold (clears c prot l). destruct (c_prop c p) as [pr|]; [|cbn [app]; apply IH; assumption].
    destruct ((negb prot && p_readonly pr) || negb (p_local pr)); [cbn [app]; apply IH; assumption|].
    unfold clear_value. destruct (Nat.eqb_spec (s_count st) 0); [contradiction|]. rewrite F.
    rewrite IH by assumption. cbn [with_batch s_count s_pend]. rewrite <- app_assoc. reflexivity.
Qed.

Lemma forall2_impl : forall A B (P Q : A -> B -> Prop), (forall a b, P a b -> Q a b) ->
  forall l m, Forall2 P l m -> Forall2 Q l m.
Proof. intros A B P Q H l m F. induction F; constructor; auto. Qed.

(** Inside a batch nothing but the queue and the count changes. *)
Lemma batch_body : forall n c body st d d', s_count st = S d -> s_frozen st = false ->
  depth_after d body = Some d' -> ~ In Freeze body ->
  exists rs, runs n c st body =
    Some (with_batch st (S d') (s_pend st ++ flat_map (acts c) body), rs) /\
    Forall2 (fun o r => match o with Get p => r = Rval (get c st p) | _ => r = Rout OOk end) body rs.
Proof.
  intros n c body. induction body as [|o body IH]; intros st d d' K F D NF; cbn [depth_after] in D.
  - injection D as <-. exists []. split; [|constructor]. cbn [flat_map runs]. rewrite app_nil_r, <- K. destruct st; reflexivity.
  - assert (NF' : ~ In Freeze body) by (intro X; apply NF; right; exact X).
    cbn [runs flat_map].
    assert (GO : forall st1 d1 (r : reply), s_count st1 = S d1 -> s_frozen st1 = false -> depth_after d1 body = Some d' ->
              (forall p, get c st1 p = get c st p) ->
              s_pend st1 = s_pend st ++ acts c o ->
              (forall k l, with_batch st1 k l = with_batch st k l) ->
              match o with Get p => r = Rval (get c st p) | _ => r = Rout OOk end ->
              step n c st o = Some (st1, r) ->
              exists rs, match step n c st o with
                 | None => None
                 | Some (st1, Rout OUb) => Some (st1, [Rout OUb])
                 | Some (st1, r) => match runs n c st1 body with
                    | None => None | Some (st2, rs) => Some (st2, r :: rs) end
                 end = Some (with_batch st (S d') (s_pend st ++ acts c o ++ flat_map (acts c) body), rs) /\
                 Forall2 (fun o r => match o with Get p => r = Rval (get c st p) | _ => r = Rout OOk end) (o :: body) rs).
    { intros st1 d1 r K1 F1 D1 G1 P1 W1 R1 E1. rewrite E1.
      destruct (IH st1 d1 d' K1 F1 D1 NF') as (rs & E2 & A2). rewrite E2.
      exists (r :: rs). split.
      - rewrite P1, W1, <- app_assoc.
        assert (X : r = Rout OOk \/ exists v, r = Rval v) by (destruct o; eauto).
        destruct X as [-> | (v & ->)]; reflexivity.
      - constructor; [exact R1|]. eapply forall2_impl; [|exact A2]. intros o0 r0 X. destruct o0; try exact X. rewrite <- G1. exact X. }
    destruct o as [prot p x|prot p|prot|p| | |].
    + eapply GO with (d1 := d); [| | | | | | |cbn [step]; unfold set_value; rewrite K; cbn [Nat.eqb]; rewrite F; reflexivity];
        try reflexivity; try assumption.
    + eapply GO with (d1 := d); [| | | | | | |cbn [step]; unfold clear_value; rewrite K; cbn [Nat.eqb]; rewrite F; reflexivity];
        try reflexivity; try assumption.
    + eapply GO with (d1 := d); [| | | | | | |cbn [step]; unfold clear_all; rewrite F, clear_each_queue by congruence; reflexivity];
        try reflexivity; try assumption.
    + eapply GO with (d1 := d); [| | | | | | |cbn [step]; reflexivity]; try reflexivity; try assumption.
      cbn [acts]. rewrite app_nil_r. reflexivity.
    + eapply GO with (d1 := S d); [| | | | | | |cbn [step]; unfold begin_update; rewrite F; reflexivity];
        try reflexivity; try assumption.
      * cbn [with_batch s_count]. rewrite K. reflexivity.
      * cbn [acts with_batch s_pend]. rewrite app_nil_r. reflexivity.
    + destruct d as [|d]; [discriminate|].
      eapply GO with (d1 := d); [| | | | | | |cbn [step]; unfold end_update; rewrite K; reflexivity];
        try reflexivity; try assumption.
      cbn [acts with_batch s_pend]. rewrite app_nil_r. reflexivity.
    + exfalso. apply NF. left. reflexivity.
Qed.

(** What the queued actions do to one property. *)
Definition act_ok (c : cfg) (a : action) : Prop :=
  exists pr, c_prop c (a_name a) = Some pr /\ writable pr (a_prot a) /\
             (a_set a = true -> exists v, takes pr (a_value a) v).

Inductive Acts (pr : prop) (p : name) : list action -> Z -> Z -> Prop :=
| A_nil : forall u, Acts pr p [] u u
| A_set : forall a v l u w, a_name a = p -> a_set a = true -> takes pr (a_value a) v ->
    Acts pr p l v w -> Acts pr p (a :: l) u w
| A_clear : forall a l u w, a_name a = p -> a_set a = false ->
    Acts pr p l (p_default pr) w -> Acts pr p (a :: l) u w
| A_other : forall a l u w, a_name a <> p -> Acts pr p l u w -> Acts pr p (a :: l) u w.

Lemma apply_quiet : forall n c, no_listeners c -> forall l acc st,
  idle st -> s_frozen st = false -> Forall (act_ok c) l ->
  exists st', apply_each (S (S (S n))) c st l acc = Some (st', OOk) /\ idle st' /\ Same st st' /\
    forall p pr, c_prop c p = Some pr ->
      Acts pr p l (local_or_default st p pr) (local_or_default st' p pr).
Proof.
  intros n c N l. induction l as [|a l IH]; intros acc st I F A; cbn [apply_each].
  - eexists. split; [reflexivity|].
    destruct acc as [|x0 acc0]; (split; [exact I|]; split; [repeat split|]; intros p pr Hp; constructor).
  - inversion A as [|a' l' (pr0 & Hp0 & Wr & T) A']; subst a' l'.
    destruct (a_set a) eqn:AS.
    + destruct (T eq_refl) as (v & T').
      destruct (set_quiet n c st _ pr0 _ v _ true N I F Hp0 Wr T') as (s1 & E1 & I1 & (SF & SK & SP) & L & V).
      rewrite E1.
      destruct (IH (acc ++ [(a_name a, get_local c s1 (a_name a))]) s1 I1) as (s2 & E2 & I2 & (TF & TK & TP) & R); [congruence|exact A'|].
      exists s2. split; [exact E2|]. split; [exact I2|]. split; [repeat split; congruence|].
      intros p pr Hp. specialize (R p pr Hp).
      destruct (Nat.eq_dec (a_name a) p) as [Q|Q].
      * rewrite Q in Hp0, L. rewrite Hp in Hp0. injection Hp0 as <-. rewrite L in R.
        eapply A_set; eassumption.
      * apply A_other; [exact Q|]. rewrite <- (lod_ext st s1 p pr); [exact R|]. apply V. congruence.
    + destruct (clear_quiet n c st _ pr0 (a_prot a) true N I F Hp0 Wr) as (s1 & o & E1 & O1 & I1 & (SF & SK & SP) & L & V).
      rewrite E1.
      assert (X : exists acc', match o with
                 | OOk => apply_each (S (S (S n))) c s1 l (acc ++ [(a_name a, get_local c s1 (a_name a))])
                 | OIgn => apply_each (S (S (S n))) c s1 l acc
                 | OErr e => Some (s1, OErr e) | OUb => Some (s1, OUb) end = apply_each (S (S (S n))) c s1 l acc').
      { destruct O1 as [-> | ->]; eexists; reflexivity. }
      destruct X as (acc' & X). rewrite X.
      destruct (IH acc' s1 I1) as (s2 & E2 & I2 & (TF & TK & TP) & R); [congruence|exact A'|].
      exists s2. split; [exact E2|]. split; [exact I2|]. split; [repeat split; congruence|].
      intros p pr Hp. specialize (R p pr Hp).
      destruct (Nat.eq_dec (a_name a) p) as [Q|Q].
      * rewrite Q in Hp0, L. rewrite Hp in Hp0. injection Hp0 as <-. rewrite L in R.
        apply A_clear; assumption.
      * apply A_other; [exact Q|]. rewrite <- (lod_ext st s1 p pr); [exact R|]. apply V. congruence.
Qed.

Lemma Acts_app : forall pr p l1 l2 u w, Acts pr p (l1 ++ l2) u w ->
  exists v, Acts pr p l1 u v /\ Acts pr p l2 v w.
Proof.
  intros pr p l1. induction l1 as [|a l1 IH]; intros l2 u w H; cbn [app] in H.
  - exists u. split; [constructor|exact H].
  - inversion H as [|a0 v0 l0 u0 w0 N0 S0 T0 X0|a0 l0 u0 w0 N0 S0 X0|a0 l0 u0 w0 N0 X0]; subst;
      destruct (IH _ _ _ X0) as (v1 & X & Y); exists v1; (split; [|exact Y]).
    + eapply A_set; eauto.
    + apply A_clear; auto.
    + apply A_other; auto.
Qed.

Lemma Acts_clears : forall c pr p prot l u w, c_prop c p = Some pr ->
  Acts pr p (clears c prot l) u w ->
  (In p l -> writable pr prot -> p_local pr = true -> w = p_default pr) /\
  (~ writable pr prot \/ p_local pr = false \/ ~ In p l -> w = u).
Proof.
  intros c pr p prot l. induction l as [|q l IH]; intros u w Hp H.
  - cbn [clears flat_map] in H. inversion H; subst. split; [intros []|reflexivity].
  - cbn [clears flat_map] in H. fold (clears c prot l) in H.
    destruct (c_prop c q) as [qr|] eqn:Hq.
    + destruct ((negb prot && p_readonly qr) || negb (p_local qr)) eqn:B.
      * cbn [app] in H. destruct (IH _ _ Hp H) as (R1 & R2). apply orb_true_iff in B. split.
        -- intros [X|X] Wr Lc; [|apply R1; assumption]. subst q. rewrite Hp in Hq. injection Hq as <-.
           exfalso. destruct B as [B|B]; [apply writable_b_not in B; contradiction|]. rewrite Lc in B. discriminate.
        -- intros [X|[X|X]]; apply R2; auto. right. right. intro Y. apply X. right. exact Y.
      * apply orb_false_iff in B. destruct B as (B1 & B2). apply negb_false_iff in B2.
        cbn [app] in H. inversion H as [|a0 v0 l0 u0 w0 N0 S0 T0 X0|a0 l0 u0 w0 N0 S0 X0|a0 l0 u0 w0 N0 X0]; subst;
          cbn [a_name a_set a_value] in *; try discriminate.
        -- rewrite Hp in Hq. injection Hq as <-. destruct (IH _ _ Hp X0) as (R1 & R2). split.
           ++ intros _ Wr Lc. destruct (in_dec Nat.eq_dec q l) as [Y|Y]; [apply R1; assumption|].
              apply R2. auto.
           ++ intros [X|[X|X]].
              ** exfalso. apply X. apply writable_b_spec. unfold writable_b. rewrite B1. reflexivity.
              ** congruence.
              ** exfalso. apply X. left. reflexivity.
        -- destruct (IH _ _ Hp X0) as (R1 & R2). split.
           ++ intros [X|X]; [congruence|]. apply R1. exact X.
           ++ intros [X|[X|X]]; apply R2; auto. right. right. intro Y. apply X. right. exact Y.
    + cbn [app] in H. destruct (IH _ _ Hp H) as (R1 & R2). split.
      * intros [X|X]; [congruence|]. apply R1. exact X.
      * intros [X|[X|X]]; apply R2; auto. right. right. intro Y. apply X. right. exact Y.
Qed.

Lemma acts_writes : forall c, listed c -> forall body pr p u w, c_prop c p = Some pr ->
  Acts pr p (flat_map (acts c) body) u w -> Writes pr p body u w.
Proof.
  intros c (ND & LI) body. induction body as [|o body IH]; intros pr p u w Hp H; cbn [flat_map] in H.
  - inversion H; subst. constructor.
  - apply Acts_app in H. destruct H as (v & A & B). specialize (IH _ _ _ _ Hp B).
    destruct o as [prot q x|prot q|prot|q| | |]; cbn [acts] in A.
    + inversion A; subst; cbn [a_name a_set a_value] in *; try discriminate.
      * match goal with X : Acts _ _ [] _ _ |- _ => inversion X; subst end. eapply W_set; eassumption.
      * match goal with X : Acts _ _ [] _ _ |- _ => inversion X; subst end.
        apply W_other; [congruence|discriminate|discriminate|exact IH].
    + inversion A; subst; cbn [a_name a_set a_value] in *; try discriminate.
      * match goal with X : Acts _ _ [] _ _ |- _ => inversion X; subst end. eapply W_clear; eassumption.
      * match goal with X : Acts _ _ [] _ _ |- _ => inversion X; subst end.
        apply W_other; [discriminate|congruence|discriminate|exact IH].
    + destruct (Acts_clears _ _ _ _ _ _ _ Hp A) as (R1 & R2).
      assert (Ip : In p (c_names c)) by (apply LI; congruence).
      destruct (writable_dec pr prot) as [Wr|Wr].
      * destruct (p_local pr) eqn:Lc.
        -- rewrite (R1 Ip Wr eq_refl) in IH. apply W_all; assumption.
        -- rewrite R2 in IH by auto. apply W_all_not; auto.
      * rewrite R2 in IH by auto. apply W_all_not; auto.
    + inversion A; subst. apply W_other; try discriminate. exact IH.
    + inversion A; subst. apply W_other; try discriminate. exact IH.
    + inversion A; subst. apply W_other; try discriminate. exact IH.
    + inversion A; subst. apply W_other; try discriminate. exact IH.
Qed.

Lemma acts_ok : forall c o, acceptable c o -> Forall (act_ok c) (acts c o).
Proof.
  intros c o H. destruct o as [prot p x|prot p|prot|p| | |]; cbn [acts acceptable] in *; try constructor; try constructor.
  - destruct H as (pr & v & Hp & Wr & T). exists pr. cbn [a_name a_prot a_set a_value]. eauto.
  - destruct H as (pr & Hp & Wr). exists pr. cbn [a_name a_prot a_set a_value]. split; [exact Hp|]. split; [exact Wr|discriminate].
  - apply Forall_forall. intros a Ia. unfold clears in Ia. apply in_flat_map in Ia.
    destruct Ia as (q & _ & Ia). destruct (c_prop c q) as [qr|] eqn:Hq; [|destruct Ia].
    destruct ((negb prot && p_readonly qr) || negb (p_local qr)) eqn:B; [destruct Ia|].
    destruct Ia as [<-|[]]. exists qr. cbn [a_name a_prot a_set a_value]. split; [exact Hq|].
    apply orb_false_iff in B. destruct B as (B1 & _).
    split; [apply writable_b_spec; unfold writable_b; rewrite B1; reflexivity|discriminate].
Qed.

Theorem batch_applies : forall n c st body, no_listeners c -> listed c -> idle st ->
  s_count st = O -> s_pend st = [] -> s_frozen st = false ->
  depth_after 0 body = Some O -> Forall (acceptable c) body ->
  exists st' rs, runs (S (S (S n))) c st (Begin :: body ++ [End_]) = Some (st', rs) /\
    (forall r, In r rs -> ~ is_err r) /\
    idle st' /\ s_count st' = O /\ s_pend st' = [] /\
    forall p pr, c_prop c p = Some pr ->
      Writes pr p body (local_or_default st p pr) (local_or_default st' p pr).
Proof.
  intros n c st body N LI I K P F D A.
  set (k := S (S (S n))).
  set (st1 := with_batch st 1 []).
  assert (NF : ~ In Freeze body).
  { intro X. rewrite Forall_forall in A. apply (A Freeze X). }
  destruct (batch_body k c body st1 O O eq_refl F D NF) as (rs & E & G).
  assert (U : ~ In (Rout OUb) rs).
  { intro X. clear - G X. induction G as [|o r l rs R _ IH]; [destruct X|].
    destruct X as [X|X]; [|auto]. destruct o; congruence. }
  assert (AO : Forall (act_ok c) (flat_map (acts c) body)).
  { clear - A. induction A as [|o l Ho _ IH]; cbn [flat_map]; [constructor|].
    apply Forall_app. split; [apply acts_ok; exact Ho|exact IH]. }
  destruct (apply_quiet n c N (flat_map (acts c) body) [] (with_batch st 0 []) I F AO) as (s2 & E2 & I2 & (SF & SK & SP) & R).
  exists s2, (Rout OOk :: rs ++ [Rout OOk]).
  split.
  - cbn [runs step]. unfold begin_update. rewrite F, K, P. fold st1.
    rewrite (runs_app _ _ _ _ _ _ _ E U). cbn [runs step]. unfold end_update.
    cbn [with_batch s_count s_pend app st1]. unfold k in *.
    change (with_batch (with_batch st 1 (flat_map (acts c) body)) 0 []) with (with_batch st 0 []).
    cbn [s_pend st1 with_batch app].
    change (with_batch (with_batch st1 1 (flat_map (acts c) body)) 0 []) with (with_batch st 0 []).
    rewrite E2. reflexivity.
  - split.
    + intros r Hr (e & ->). destruct Hr as [Hr|Hr]; [discriminate|].
      apply in_app_or in Hr. destruct Hr as [Hr|[Hr|[]]]; [|discriminate].
      clear - G Hr. induction G as [|o r l rs R _ IH]; [destruct Hr|].
      destruct Hr as [X|X]; [|auto]. destruct o; congruence.
    + split; [exact I2|]. split; [symmetry; exact SK|]. split; [symmetry; exact SP|].
      intros p pr Hp. eapply acts_writes; [exact LI|exact Hp|]. exact (R p pr Hp).
Qed.
