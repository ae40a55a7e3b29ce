(** With listeners that do not throw and do not replace the value in their
    arguments, the value of a property is the one announced last. *)
From Coq Require Import ZArith List Bool Lia.
From Verif Require Import Prop_Model Prop_Spec Prop_Proofs Prop_Keep.
Import ListNotations.
Local Open Scope Z_scope.

Definition agrees (pr : prop) (e : option Z) (o : option Z) : Prop :=
  match e with
  | Some z => match o with Some y => y | None => p_default pr end = z
  | None => o = None
  end.

Definition InvP (st : state) (p : name) (pr : prop) : Prop :=
  changing (announced p (s_notes st)) /\
  match s_stk st p with
  | Some it => (exists rest, announced p (s_notes st) = i_value it :: rest) /\
               (i_pushed it = false -> agrees pr (i_value it) (s_vals st p))
  | None => match announced p (s_notes st) with
            | [] => s_vals st p = None
            | e :: _ => agrees pr e (s_vals st p)
            end
  end.

Definition Inv (c : cfg) (st : state) : Prop :=
  forall p pr, c_prop c p = Some pr -> InvP st p pr.

(** The value [v] of [p] is announced and still has to be written. *)
Definition Due (c : cfg) (st : state) (p : name) (v : option Z) : Prop :=
  (forall q pr, q <> p -> c_prop c q = Some pr -> InvP st q pr) /\
  changing (announced p (s_notes st)) /\
  (exists rest, announced p (s_notes st) = v :: rest) /\
  match s_stk st p with
  | Some it => i_value it = v /\ i_pushed it = false
  | None => True
  end.

Lemma InvP_ext : forall a b p pr,
  announced p (s_notes b) = announced p (s_notes a) ->
  s_stk b p = s_stk a p -> s_vals b p = s_vals a p -> InvP a p pr -> InvP b p pr.
Proof. intros a b p pr N S V H. unfold InvP. rewrite N, S, V. exact H. Qed.

Lemma announced_changed : forall p st q v, announced p (s_notes (noted st (NChanged q v))) = announced p (s_notes st).
Proof. reflexivity. Qed.

Lemma Inv_note : forall c st q v, Inv c st -> Inv c (noted st (NChanged q v)).
Proof. intros c st q v I p pr Hp. apply (InvP_ext st); try reflexivity. apply I. exact Hp. Qed.

Lemma due_written : forall c st p pr z, c_prop c p = Some pr -> Due c st p (Some z) ->
  Inv c (fst (write_local st p pr z)).
Proof.
  intros c st p pr z Hp (O & C & (rest & L) & S).
  destruct (write_local st p pr z) as [s b] eqn:W. apply write_local_frame in W.
  destruct W as (_ & _ & _ & NN & SS & OO & M & _). cbn [fst].
  intros q pr' Hq. destruct (Nat.eq_dec q p) as [Q|Q].
  - subst q. rewrite Hp in Hq. injection Hq as <-. unfold InvP. rewrite NN, SS.
    assert (A : agrees pr (Some z) (s_vals s p)).
    { unfold agrees. destruct (s_vals s p); exact M. }
    split; [exact C|]. destruct (s_stk st p) as [it|].
    + destruct S as (S1 & S2). split; [exists rest; rewrite S1; exact L|]. intros _. rewrite S1. exact A.
    + rewrite L. exact A.
  - apply (InvP_ext st); [rewrite NN; reflexivity|rewrite SS; reflexivity|apply OO; exact Q|].
    apply O; assumption.
Qed.

Lemma due_erased : forall c st p pr, c_prop c p = Some pr -> Due c st p None ->
  Inv c (with_vals st (put (s_vals st) p None)).
Proof.
  intros c st p pr Hp (O & C & (rest & L) & S) q pr' Hq.
  destruct (Nat.eq_dec q p) as [Q|Q].
  - subst q. rewrite Hp in Hq. injection Hq as <-. unfold InvP.
    cbn [with_vals s_notes s_stk s_vals]. rewrite put_same.
    split; [exact C|]. destruct (s_stk st p) as [it|].
    + destruct S as (S1 & S2). split; [exists rest; rewrite S1; exact L|]. intros _. rewrite S1. reflexivity.
    + rewrite L. reflexivity.
  - apply (InvP_ext st); try reflexivity.
    + cbn [with_vals s_vals]. apply put_other. exact Q.
    + apply O; assumption.
Qed.

Lemma plain_outer : forall c, all_plain c -> outer_never_throw c.
Proof.
  intros c (A & _ & B). split; intros p f e H.
  - apply (A p f e H).
  - apply (B p f e H).
Qed.

Theorem all_last : forall c, all_plain c -> forall n,
  (forall st p pr v st' o nv, Levels st -> c_prop c p = Some pr -> Inv c st ->
     (v = None -> s_vals st p <> None) ->
     call_write n c st p pr v = Some (st', o, nv) ->
     (o = OIgn /\ Inv c st') \/ (o = OOk /\ nv = nv_of v /\ Due c st' p v)) /\
  (forall st l ev a st' r, Levels st -> Inv c st -> (forall f, l = Some f -> plain (f ev)) ->
     fire n c st l ev a = Some (st', r) -> Inv c st' /\ r = RDone a) /\
  (forall st g a st' r, Levels st -> Inv c st -> plain g ->
     run n c st g a = Some (st', r) -> Inv c st' /\ r = RDone a) /\
  (forall st p x prot u st' o, Levels st -> Inv c st ->
     set_in n c st p x prot u = Some (st', o) -> Inv c st') /\
  (forall st p prot u st' o, Levels st -> Inv c st ->
     clear_in n c st p prot u = Some (st', o) -> Inv c st').
Proof.
  intros c PL. pose proof (plain_outer c PL) as NT. destruct PL as (PC & PN & PA).
  induction n as [|n (IHc & IHf & IHr & IHs & IHk)].
  { split; [|split; [|split; [|split]]]; intros; discriminate. }
  destruct (all_keep c NT n) as (KC & KF & KR & KS & KK).
  split; [|split; [|split; [|split]]].
  - intros st p pr v st' o nv LV Hp I HV H. apply call_write_cases in H.
    destruct H as [(_ & -> & -> & _)|[(st1 & z & Rg & Bs & Ez & Eq & -> & -> & _)|(st1 & Rg & Bs & E)]].
    + left. split; [reflexivity|exact I].
    + left. split; [reflexivity|].
      destruct (unregister st1 p) as [s b] eqn:U. cbn [fst].
      apply register_frame in Rg. destruct Rg as (V1 & _ & _ & _ & N1 & O1 & S1 & _).
      apply unregister_frame in U. destruct U as (V2 & _ & _ & _ & N2 & O2 & S2).
      unfold is_base in Bs. rewrite S1 in Bs. cbn [i_level] in Bs.
      destruct (S2 _ S1) as (_ & D). cbn [i_level] in D.
      assert (ST : s_stk st p = None).
      { destruct (s_stk st p) as [it|] eqn:X; [|reflexivity]. exfalso.
        specialize (LV p it X). apply Nat.eqb_eq in Bs. lia. }
      intros q pr' Hq. apply (InvP_ext st); [rewrite N2, N1; reflexivity| |rewrite V2, V1; reflexivity|apply I; exact Hq].
      destruct (Nat.eq_dec q p) as [Q|Q].
      * subst q. rewrite ST in D |- *. destruct D as [(_ & D)|(D & _)]; [exact D|lia].
      * rewrite (O2 q Q). apply O1. exact Q.
    + pose proof (register_levels _ _ _ _ Rg LV) as L1.
      pose proof (register_frame _ _ _ _ Rg) as (V1 & _ & _ & _ & N1 & O1 & S1 & D1).
      set (ev := evt_of st1 p pr v) in *. set (sh := VInt (shown_of pr v)) in *.
      set (st2 := noted st1 (NEvent p v)) in *.
      assert (L2 : Levels st2) by exact L1.
      assert (A2 : forall q, announced q (s_notes st2) =
                 if Nat.eqb p q then v :: announced q (s_notes st) else announced q (s_notes st)).
      { intro q. unfold st2. cbn [noted s_notes announced]. rewrite N1. reflexivity. }
      assert (I2 : Inv c st2).
      { intros q pr' Hq. destruct (Nat.eq_dec q p) as [Q|Q].
        - subst q. rewrite Hp in Hq. injection Hq as <-.
          unfold InvP. rewrite A2, Nat.eqb_refl.
          change (s_stk st2) with (s_stk st1). change (s_vals st2) with (s_vals st1).
          rewrite S1. cbn [i_value i_pushed]. split; [|split; [eexists; reflexivity|discriminate]].
          pose proof (I p pr Hp) as (C0 & M0). cbn [changing].
          destruct (announced p (s_notes st)) as [|e rest] eqn:EL; [split; exact Logic.I|].
          split; [|exact C0].
          destruct (s_stk st p) as [it|] eqn:X.
          + destruct M0 as ((r0 & M0) & _). injection M0 as -> _. intro Y. exact (D1 it eq_refl (eq_sym Y)).
          + intro Y. subst v. destruct e as [z|].
            * assert (B1 : is_base st1 p = true) by (unfold is_base; rewrite S1; reflexivity).
              apply (Bs B1 z eq_refl). unfold local_or_default. rewrite V1. exact M0.
            * apply (HV eq_refl). exact M0.
        - apply (InvP_ext st).
          + rewrite A2. destruct (Nat.eqb_spec p q); [congruence|reflexivity].
          + apply O1. exact Q.
          + change (s_vals st2) with (s_vals st1). rewrite V1. reflexivity.
          + apply I. exact Hq. }
      assert (K12 : Keeps st1 st2) by (intro q; apply Kept_eq; reflexivity).
      assert (CS : forall s r, class_step n c st2 p pr ev sh = Some (s, r) ->
               Keeps st2 s /\ Inv c s /\ r = RDone sh).
      { intros s r Hc. unfold class_step in Hc. destruct (p_local pr).
        - injection Hc as <- <-. split; [apply Keeps_refl|]. split; [exact I2|reflexivity].
        - split; [eapply KF; eassumption|]. eapply IHf; [exact L2|exact I2| |exact Hc].
          intros f Hf. eapply PC. exact Hf. }
      assert (NM : forall s s' r, Keeps st2 s -> Inv c s -> fire n c s (c_named c p) ev sh = Some (s', r) ->
               Keeps st2 s' /\ Inv c s' /\ r = RDone sh).
      { intros s s' r K0 I0 Hc. pose proof (Keeps_levels _ _ K0 L2) as L0.
        split; [eapply Keeps_trans; [exact K0|]; eapply KF; eassumption|].
        eapply IHf; [exact L0|exact I0| |exact Hc]. intros f Hf. eapply PN. exact Hf. }
      assert (AN : forall s s' r, Keeps st2 s -> Inv c s -> fire n c s (c_any c p) ev sh = Some (s', r) ->
               Keeps st2 s' /\ Inv c s' /\ r = RDone sh).
      { intros s s' r K0 I0 Hc. pose proof (Keeps_levels _ _ K0 L2) as L0.
        split; [eapply Keeps_trans; [exact K0|]; eapply KF; eassumption|].
        eapply IHf; [exact L0|exact I0| |exact Hc]. intros f Hf. eapply PA. exact Hf. }
      assert (SH : arg_is sh (shown_of pr v) = true) by (cbn [arg_is sh]; apply Z.eqb_refl).
      destruct E as [st3 C|st3 C|st3 a1 st4 C N|st3 a1 st4 r2 st5 r3 C N N2 A B2|st3 a1 st4 st5 a3 st6 b C N A U
                    |st3 a1 st4 a2 st5 a3 st6 C N A U|st3 a1 st4 a2 st5 a3 st6 C N A U G
                    |st3 a1 st4 a2 st5 a3 st6 st7 o C N A U G D];
        destruct (CS _ _ C) as (K3 & I3 & R3); try discriminate R3; injection R3 as ->;
        destruct (NM _ _ _ K3 I3 N) as (K4 & I4 & R4); try discriminate R4; try (rewrite R4 in A);
        try (injection R4 as ->);
        destruct (AN _ _ _ K4 I4 A) as (K5 & I5 & R5); try (destruct B2; congruence);
        injection R5 as ->; try congruence.
      * (* another value was announced since *)
        left. split; [reflexivity|].
        apply unregister_frame in U. destruct U as (V6 & _ & _ & _ & N6 & O6 & S6).
        pose proof (K5 p) as Kp. unfold Kept in Kp. change (s_stk st2 p) with (s_stk st1 p) in Kp.
        rewrite S1 in Kp. destruct Kp as (it5 & E5 & _ & _).
        destruct (S6 it5 E5) as (B6 & D6).
        pose proof (I5 p pr Hp) as (C5 & M5). rewrite E5 in M5. destruct M5 as ((rest & M5) & G5).
        intros q pr' Hq. destruct (Nat.eq_dec q p) as [Q|Q].
        -- subst q. rewrite Hp in Hq. injection Hq as <-. unfold InvP. rewrite N6, V6. split; [exact C5|].
           destruct D6 as [(_ & D6)|(_ & D6)]; rewrite D6.
           ++ rewrite M5. apply G5. congruence.
           ++ cbn [i_value i_pushed]. split; [exists rest; exact M5|]. intros _. apply G5. congruence.
        -- apply (InvP_ext st5); [rewrite N6; reflexivity|apply O6; exact Q|rewrite V6; reflexivity|].
           apply I5. exact Hq.
      * (* nothing was announced since *)
        right. split; [reflexivity|]. split; [reflexivity|].
        apply unregister_frame in U. destruct U as (V6 & _ & _ & _ & N6 & O6 & S6).
        pose proof (K5 p) as Kp. unfold Kept in Kp. change (s_stk st2 p) with (s_stk st1 p) in Kp.
        rewrite S1 in Kp. destruct Kp as (it5 & E5 & _ & P5).
        destruct (S6 it5 E5) as (B6 & D6). destruct (P5 (eq_sym B6)) as (Ei & _).
        pose proof (I5 p pr Hp) as (C5 & M5). rewrite E5 in M5. destruct M5 as ((rest & M5) & _).
        assert (Vi : i_value it5 = v) by (rewrite Ei; reflexivity).
        split; [|split; [|split]].
        -- intros q pr' Q Hq. apply (InvP_ext st5); [rewrite N6; reflexivity|apply O6; exact Q|rewrite V6; reflexivity|].
           apply I5. exact Hq.
        -- rewrite N6. exact C5.
        -- exists rest. rewrite N6, M5, Vi. reflexivity.
        -- destruct D6 as [(_ & D6)|(_ & D6)]; rewrite D6; [exact Logic.I|].
           cbn [i_value i_pushed]. split; [exact Vi|reflexivity].
  - intros st l ev a st' r LV I Pl H. rewrite fire_S in H. destruct l as [f|].
    + eapply IHr; [exact LV|exact I|apply Pl; reflexivity|exact H].
    + injection H as <- <-. split; [exact I|reflexivity].
  - intros st g a st' r LV I (Pt & Pr) H. rewrite run_S in H. destruct g as [| |x k|p k|prot p x k|prot p k].
    + injection H as <- <-. split; [exact I|reflexivity].
    + destruct Pt.
    + destruct Pr.
    + refine (IHr _ _ _ _ _ LV I _ H). split; [apply Pt|apply Pr].
    + destruct (set_in n c st p x prot false) as [[st1 o]|] eqn:S; [|discriminate].
      destruct (KS _ _ _ _ _ _ _ LV S) as (K1 & U1). pose proof (IHs _ _ _ _ _ _ _ LV I S) as I1.
      assert (H' : run n c st1 (k o) a = Some (st', r)) by (destruct o; try exact H; congruence).
      refine (IHr _ _ _ _ _ (Keeps_levels _ _ K1 LV) I1 _ H'). split; [apply Pt|apply Pr].
    + destruct (clear_in n c st p prot false) as [[st1 o]|] eqn:S; [|discriminate].
      destruct (KK _ _ _ _ _ _ LV S) as (K1 & U1). pose proof (IHk _ _ _ _ _ _ LV I S) as I1.
      assert (H' : run n c st1 (k o) a = Some (st', r)) by (destruct o; try exact H; congruence).
      refine (IHr _ _ _ _ _ (Keeps_levels _ _ K1 LV) I1 _ H'). split; [apply Pt|apply Pr].
  - intros st p x prot u st' o LV I H. rewrite set_in_S in H.
    destruct (s_frozen st). { injection H as <- <-. exact I. }
    destruct (c_prop c p) as [pr|] eqn:Hp. 2:{ injection H as <- <-. exact I. }
    destruct (negb prot && p_readonly pr). { injection H as <- <-. exact I. }
    destruct (check pr x) as [z|e] eqn:C. 2:{ injection H as <- <-. exact I. }
    destruct (call_write n c st p pr (Some z)) as [[[st1 o1] nv]|] eqn:W; [|discriminate].
    destruct (IHc st p pr (Some z) st1 o1 nv LV Hp I) as [(-> & I1)|(-> & -> & Du)]; [discriminate|exact W| |].
    + injection H as <- <-. exact I1.
    + cbn [nv_of] in H. rewrite Z.eqb_refl in H. injection H as <- <-.
      pose proof (due_written c st1 p pr z Hp Du) as I2.
      destruct u; [exact I2|apply Inv_note; exact I2].
  - intros st p prot u st' o LV I H. rewrite clear_in_S in H.
    destruct (s_frozen st). { injection H as <- <-. exact I. }
    destruct (c_prop c p) as [pr|] eqn:Hp. 2:{ injection H as <- <-. exact I. }
    destruct (negb prot && p_readonly pr). { injection H as <- <-. exact I. }
    destruct (s_vals st p) as [z|] eqn:Hv. 2:{ injection H as <- <-. exact I. }
    destruct (call_write n c st p pr None) as [[[st1 o1] nv]|] eqn:W; [|discriminate].
    destruct (KC _ _ _ _ _ _ _ LV Hp W) as (_ & _ & _ & V1).
    destruct (IHc st p pr None st1 o1 nv LV Hp I) as [(-> & I1)|(-> & -> & Du)]; [congruence|exact W| |].
    + injection H as <- <-. exact I1.
    + cbn [nv_of] in H. rewrite (V1 eq_refl eq_refl eq_refl), Hv in H. injection H as <- <-.
      pose proof (due_erased c st1 p pr Hp Du) as I2.
      destruct u; [exact I2|apply Inv_note; exact I2].
Qed.

(** * Over the interface *)

Lemma clear_each_last : forall c, all_plain c -> forall n prot l st st' o,
  idle st -> Inv c st -> clear_each n c st prot l = Some (st', o) -> Inv c st'.
Proof.
  intros c N n prot l. destruct (all_last c N n) as (_ & _ & _ & _ & IHk).
  destruct (all_keep c (plain_outer c N) n) as (_ & _ & _ & _ & KK).
  induction l as [|p l IH]; intros st st' o I J H; cbn [clear_each] in H.
  { injection H as <- <-. exact J. }
  destruct (c_prop c p) as [pr|]; [|eapply IH; eassumption].
  destruct ((negb prot && p_readonly pr) || negb (p_local pr)); [eapply IH; eassumption|].
  destruct (clear_value n c st prot p) as [[s1 o1]|] eqn:E; [|discriminate].
  assert (X : idle s1 /\ Inv c s1).
  { unfold clear_value in E. destruct (Nat.eqb (s_count st) 0).
    - destruct (KK _ _ _ _ _ _ (idle_levels _ I) E) as (K & U). split; [eapply Keeps_idle; eassumption|].
      eapply IHk; [exact (idle_levels _ I)|exact J|exact E].
    - destruct (s_frozen st); injection E as <- <-; split; try exact I; exact J. }
  destruct X as (I1 & J1).
  destruct o1; try (eapply IH; eassumption); injection H as <- <-; exact J1.
Qed.

Lemma apply_each_last : forall c, all_plain c -> forall n l acc st st' o,
  idle st -> Inv c st -> apply_each n c st l acc = Some (st', o) -> Inv c st'.
Proof.
  intros c N n l. destruct (all_last c N n) as (_ & _ & _ & IHs & IHk).
  destruct (all_keep c (plain_outer c N) n) as (_ & _ & _ & KS & KK).
  induction l as [|a l IH]; intros acc st st' o I J H; cbn [apply_each] in H.
  { injection H as <- <-. destruct acc; [exact J|]. exact J. }
  destruct (if a_set a then set_in n c st (a_name a) (a_value a) (a_prot a) true
            else clear_in n c st (a_name a) (a_prot a) true) as [[s1 o1]|] eqn:E; [|discriminate].
  assert (LV := idle_levels _ I).
  assert (X : Keeps st s1) by (destruct (a_set a); [eapply KS|eapply KK]; eassumption).
  assert (I1 := Keeps_idle _ _ X I).
  assert (J1 : Inv c s1) by (destruct (a_set a); [eapply IHs|eapply IHk]; eassumption).
  destruct o1; try (eapply IH; eassumption); injection H as <- <-; exact J1.
Qed.

Theorem step_last : forall c, all_plain c -> forall n st o st' r,
  idle st -> Inv c st -> step n c st o = Some (st', r) -> Inv c st'.
Proof.
  intros c N n st o st' r I J H. destruct (all_last c N n) as (_ & _ & _ & IHs & IHk).
  assert (LV := idle_levels _ I).
  destruct o as [prot p x|prot p|prot|p| | |]; cbn [step] in H.
  - destruct (set_value n c st prot p x) as [[s w]|] eqn:E; [|discriminate]. injection H as <- <-.
    unfold set_value in E. destruct (Nat.eqb (s_count st) 0).
    + eapply IHs; eassumption.
    + destruct (s_frozen st); injection E as <- <-; exact J.
  - destruct (clear_value n c st prot p) as [[s w]|] eqn:E; [|discriminate]. injection H as <- <-.
    unfold clear_value in E. destruct (Nat.eqb (s_count st) 0).
    + eapply IHk; eassumption.
    + destruct (s_frozen st); injection E as <- <-; exact J.
  - destruct (clear_all n c st prot) as [[s w]|] eqn:E; [|discriminate]. injection H as <- <-.
    unfold clear_all in E. destruct (s_frozen st); [injection E as <- <-; exact J|].
    eapply clear_each_last; eassumption.
  - injection H as <- <-. exact J.
  - unfold begin_update in H. destruct (s_frozen st); injection H as <- <-; exact J.
  - destruct (end_update n c st) as [[s w]|] eqn:E; [|discriminate]. injection H as <- <-.
    unfold end_update in E. destruct (s_count st) as [|[|k]].
    + injection E as <- <-. exact J.
    + eapply (apply_each_last c N); [| |exact E]; [exact I|exact J].
    + injection E as <- <-. exact J.
  - unfold freeze in H. destruct (s_frozen st); injection H as <- <-; exact J.
Qed.

Theorem runs_last : forall c, all_plain c -> forall n h st st' rs,
  idle st -> Inv c st -> runs n c st h = Some (st', rs) -> idle st' /\ Inv c st'.
Proof.
  intros c N n h. induction h as [|o h IH]; intros st st' rs I J H; cbn [runs] in H.
  { injection H as <- <-. split; assumption. }
  destruct (step n c st o) as [[s r]|] eqn:E; [|discriminate].
  destruct (step_idle c (plain_outer c N) _ _ _ _ _ I E) as (I1 & U).
  pose proof (step_last c N _ _ _ _ _ I J E) as J1.
  assert (H' : match runs n c s h with Some (st2, rs0) => Some (st2, r :: rs0) | None => None end = Some (st', rs)).
  { destruct r as [[| | |]|]; try exact H. congruence. }
  destruct (runs n c s h) as [[s2 rs2]|] eqn:E2; [|discriminate]. injection H' as <- <-.
  eapply IH; eassumption.
Qed.

Lemma init_idle : idle init.
Proof. intro p. reflexivity. Qed.

Lemma init_Inv : forall c, Inv c init.
Proof. intros c p pr _. split; [exact Logic.I|reflexivity]. Qed.

Lemma Inv_get : forall c st p pr, c_prop c p = Some pr -> idle st -> Inv c st ->
  get c st p = Some (latest pr (announced p (s_notes st))) /\ changing (announced p (s_notes st)).
Proof.
  intros c st p pr Hp I J. destruct (J p pr Hp) as (C & M). rewrite (I p) in M. split; [|exact C].
  unfold get. rewrite Hp, (I p). f_equal. unfold local_or_default, latest.
  destruct (announced p (s_notes st)) as [|[z|] r].
  - rewrite M. reflexivity.
  - unfold agrees in M. exact M.
  - unfold agrees in M. rewrite M. reflexivity.
Qed.
