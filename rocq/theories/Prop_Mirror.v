(** A client that follows the notifications holds the values of the object. *)
From Coq Require Import ZArith List Bool Lia.
From Verif Require Import Prop_Model Prop_Spec Prop_Proofs Prop_Keep Prop_Last Prop_Quiet Prop_Batch.
Import ListNotations.
Local Open Scope Z_scope.

Definition Mir (c : cfg) (st : state) : Prop :=
  forall p pr, c_prop c p = Some pr -> mirrored pr p (s_notes st) = local_or_default st p pr.

Lemma Mir_ext : forall c a b, (forall p, s_vals b p = s_vals a p) ->
  (forall pr p, mirrored pr p (s_notes b) = mirrored pr p (s_notes a)) -> Mir c a -> Mir c b.
Proof. intros c a b V M H p pr Hp. rewrite M, (lod_ext a b p pr (V p)). apply H. exact Hp. Qed.

Lemma Mir_written : forall c st p pr z, c_prop c p = Some pr -> Mir c st ->
  Mir c (noted (fst (write_local st p pr z)) (NChanged p (Some (VInt z)))).
Proof.
  intros c st p pr z Hp M q pr' Hq. destruct (write_local st p pr z) as [s b] eqn:W.
  pose proof (lod_write _ _ _ _ _ _ W) as L. apply write_local_frame in W.
  destruct W as (_ & _ & _ & NN & _ & O & _). cbn [fst noted s_notes mirrored].
  destruct (Nat.eqb_spec p q) as [Q|Q].
  - subst q. rewrite Hp in Hq. injection Hq as <-. symmetry. exact L.
  - rewrite NN. rewrite (M q pr' Hq). symmetry. apply lod_ext. cbn [noted s_vals]. apply O. congruence.
Qed.

Lemma Mir_erased : forall c st p pr, c_prop c p = Some pr -> Mir c st ->
  Mir c (noted (with_vals st (put (s_vals st) p None)) (NChanged p None)).
Proof.
  intros c st p pr Hp M q pr' Hq. cbn [noted with_vals s_notes mirrored].
  unfold local_or_default. cbn [noted with_vals s_vals].
  destruct (Nat.eqb_spec p q) as [Q|Q].
  - subst q. rewrite put_same. reflexivity.
  - rewrite put_other by congruence. apply (M q pr' Hq).
Qed.

Theorem all_mirror : forall c, all_keep_args c -> forall n,
  (forall st p pr v st' o nv, c_prop c p = Some pr -> Mir c st ->
     call_write n c st p pr v = Some (st', o, nv) -> Mir c st' /\ nv = nv_of v) /\
  (forall st l ev a st' r, Mir c st -> (forall f, l = Some f -> never_replaces (f ev)) ->
     fire n c st l ev a = Some (st', r) -> Mir c st' /\ (r = RDone a \/ r = RFail \/ r = RUb)) /\
  (forall st g a st' r, Mir c st -> never_replaces g ->
     run n c st g a = Some (st', r) -> Mir c st' /\ (r = RDone a \/ r = RFail \/ r = RUb)) /\
  (forall st p x prot st' o, Mir c st ->
     set_in n c st p x prot false = Some (st', o) -> Mir c st') /\
  (forall st p prot st' o, Mir c st ->
     clear_in n c st p prot false = Some (st', o) -> Mir c st').
Proof.
  intros c (PC & PN & PA).
  induction n as [|n (IHc & IHf & IHr & IHs & IHk)].
  { split; [|split; [|split; [|split]]]; intros; discriminate. }
  split; [|split; [|split; [|split]]].
  - intros st p pr v st' o nv Hp I H. apply call_write_cases in H.
    destruct H as [(_ & -> & _ & ->)|[(st1 & z & Rg & _ & _ & _ & -> & _ & ->)|(st1 & Rg & _ & E)]].
    + split; [exact I|reflexivity].
    + split; [|reflexivity]. destruct (unregister st1 p) as [s b] eqn:U. cbn [fst].
      apply register_frame in Rg. destruct Rg as (V1 & _ & _ & _ & N1 & _).
      apply unregister_frame in U. destruct U as (V2 & _ & _ & _ & N2 & _).
      apply (Mir_ext c st); [intro q; rewrite V2, V1; reflexivity|intros; rewrite N2, N1; reflexivity|exact I].
    + apply register_frame in Rg. destruct Rg as (V1 & _ & _ & _ & N1 & _).
      set (ev := evt_of st1 p pr v) in *. set (sh := VInt (shown_of pr v)) in *.
      set (st2 := noted st1 (NEvent p v)) in *.
      assert (I2 : Mir c st2).
      { apply (Mir_ext c st); [intro q; unfold st2; cbn [noted s_vals]; rewrite V1; reflexivity| |exact I].
        intros pr' q. unfold st2. cbn [noted s_notes mirrored]. rewrite N1. reflexivity. }
      assert (CS : forall s r, class_step n c st2 p pr ev sh = Some (s, r) ->
               Mir c s /\ (r = RDone sh \/ r = RFail \/ r = RUb)).
      { intros s r Hc. unfold class_step in Hc. destruct (p_local pr).
        - injection Hc as <- <-. split; [exact I2|left; reflexivity].
        - eapply IHf; [exact I2| |exact Hc]. intros f Hf. eapply PC. exact Hf. }
      assert (NM : forall s s' r, Mir c s -> fire n c s (c_named c p) ev sh = Some (s', r) ->
               Mir c s' /\ (r = RDone sh \/ r = RFail \/ r = RUb)).
      { intros s s' r I0 Hc. eapply IHf; [exact I0| |exact Hc]. intros f Hf. eapply PN. exact Hf. }
      assert (AN : forall s s' r, Mir c s -> fire n c s (c_any c p) ev sh = Some (s', r) ->
               Mir c s' /\ (r = RDone sh \/ r = RFail \/ r = RUb)).
      { intros s s' r I0 Hc. eapply IHf; [exact I0| |exact Hc]. intros f Hf. eapply PA. exact Hf. }
      assert (SH : arg_is sh (shown_of pr v) = true) by (cbn [arg_is sh]; apply Z.eqb_refl).
      assert (UN : forall s s' b, Mir c s -> unregister s p = (s', b) -> Mir c s').
      { intros s s' b I0 U. apply unregister_frame in U. destruct U as (V2 & _ & _ & _ & N2 & _).
        apply (Mir_ext c s); [intro q; rewrite V2; reflexivity|intros; rewrite N2; reflexivity|exact I0]. }
      destruct E as [st3 C|st3 C|st3 a1 st4 C N|st3 a1 st4 r2 st5 r3 C N N2 A B2|st3 a1 st4 st5 a3 st6 b C N A U
                    |st3 a1 st4 a2 st5 a3 st6 C N A U|st3 a1 st4 a2 st5 a3 st6 C N A U G
                    |st3 a1 st4 a2 st5 a3 st6 st7 o C N A U G D].
      * split; [apply (CS _ _ C)|reflexivity].
      * split; [apply (CS _ _ C)|reflexivity].
      * destruct (CS _ _ C) as (I3 & [R|[R|R]]); try discriminate R; injection R as ->.
        split; [apply (NM _ _ _ I3 N)|reflexivity].
      * destruct (CS _ _ C) as (I3 & [R|[R|R]]); try discriminate R; injection R as ->.
        destruct (NM _ _ _ I3 N) as (I4 & R4).
        assert (X : match r2 with RDone a => a | _ => sh end = sh).
        { destruct R4 as [-> |[-> | ->]]; reflexivity. }
        rewrite X in A. split; [apply (AN _ _ _ I4 A)|reflexivity].
      * destruct (CS _ _ C) as (I3 & [R|[R|R]]); try discriminate R; injection R as ->.
        destruct (NM _ _ _ I3 N) as (I4 & _). destruct (AN _ _ _ I4 A) as (I5 & _).
        split; [eapply UN; eassumption|reflexivity].
      * destruct (CS _ _ C) as (I3 & [R|[R|R]]); try discriminate R; injection R as ->.
        destruct (NM _ _ _ I3 N) as (I4 & [R|[R|R]]); try discriminate R; injection R as ->.
        destruct (AN _ _ _ I4 A) as (I5 & _). split; [eapply UN; eassumption|reflexivity].
      * destruct (CS _ _ C) as (I3 & [R|[R|R]]); try discriminate R; injection R as ->.
        destruct (NM _ _ _ I3 N) as (I4 & [R|[R|R]]); try discriminate R; injection R as ->.
        destruct (AN _ _ _ I4 A) as (I5 & _). split; [eapply UN; eassumption|reflexivity].
      * destruct (CS _ _ C) as (I3 & [R|[R|R]]); try discriminate R; injection R as ->.
        destruct (NM _ _ _ I3 N) as (I4 & [R|[R|R]]); try discriminate R; injection R as ->.
        destruct (AN _ _ _ I4 A) as (I5 & [R|[R|R]]); try discriminate R; injection R as ->. congruence.
  - intros st l ev a st' r I Pl H. rewrite fire_S in H. destruct l as [f|].
    + eapply IHr; [exact I|apply Pl; reflexivity|exact H].
    + injection H as <- <-. split; [exact I|left; reflexivity].
  - intros st g a st' r I Pr H. rewrite run_S in H. destruct g as [| |x k|p k|prot p x k|prot p k].
    + injection H as <- <-. split; [exact I|left; reflexivity].
    + injection H as <- <-. split; [exact I|right; left; reflexivity].
    + destruct Pr.
    + refine (IHr _ _ _ _ _ I _ H). apply Pr.
    + destruct (set_in n c st p x prot false) as [[st1 o]|] eqn:S; [|discriminate].
      pose proof (IHs _ _ _ _ _ _ I S) as I1.
      destruct o; try (refine (IHr _ _ _ _ _ I1 _ H); apply Pr).
      injection H as <- <-. split; [exact I1|right; right; reflexivity].
    + destruct (clear_in n c st p prot false) as [[st1 o]|] eqn:S; [|discriminate].
      pose proof (IHk _ _ _ _ _ I S) as I1.
      destruct o; try (refine (IHr _ _ _ _ _ I1 _ H); apply Pr).
      injection H as <- <-. split; [exact I1|right; right; reflexivity].
  - intros st p x prot st' o I H. rewrite set_in_S in H.
    destruct (s_frozen st). { injection H as <- <-. exact I. }
    destruct (c_prop c p) as [pr|] eqn:Hp. 2:{ injection H as <- <-. exact I. }
    destruct (negb prot && p_readonly pr). { injection H as <- <-. exact I. }
    destruct (check pr x) as [z|e] eqn:C. 2:{ injection H as <- <-. exact I. }
    destruct (call_write n c st p pr (Some z)) as [[[st1 o1] nv]|] eqn:W; [|discriminate].
    destruct (IHc _ _ _ _ _ _ _ Hp I W) as (I1 & ->).
    destruct o1; try (injection H as <- <-; exact I1).
    cbn [nv_of] in H. rewrite Z.eqb_refl in H. injection H as <- <-.
    apply (Mir_written c st1 p pr z Hp I1).
  - intros st p prot st' o I H. rewrite clear_in_S in H.
    destruct (s_frozen st). { injection H as <- <-. exact I. }
    destruct (c_prop c p) as [pr|] eqn:Hp. 2:{ injection H as <- <-. exact I. }
    destruct (negb prot && p_readonly pr). { injection H as <- <-. exact I. }
    destruct (s_vals st p) as [z|] eqn:Hv. 2:{ injection H as <- <-. exact I. }
    destruct (call_write n c st p pr None) as [[[st1 o1] nv]|] eqn:W; [|discriminate].
    destruct (IHc _ _ _ _ _ _ _ Hp I W) as (I1 & ->).
    destruct o1; try (injection H as <- <-; exact I1).
    cbn [nv_of] in H. destruct (s_vals st1 p).
    + injection H as <- <-. apply (Mir_erased c st1 p pr Hp I1).
    + injection H as <- <-. exact I1.
Qed.

(** Calls outside a batch. *)
Lemma clear_each_mirror : forall c, all_keep_args c -> forall n prot l st st' o,
  Mir c st -> clear_each n c st prot l = Some (st', o) -> Mir c st'.
Proof.
  intros c N n prot l. destruct (all_mirror c N n) as (_ & _ & _ & _ & IHk).
  induction l as [|p l IH]; intros st st' o J H; cbn [clear_each] in H.
  { injection H as <- <-. exact J. }
  destruct (c_prop c p) as [pr|]; [|eapply IH; eassumption].
  destruct ((negb prot && p_readonly pr) || negb (p_local pr)); [eapply IH; eassumption|].
  destruct (clear_value n c st prot p) as [[s1 o1]|] eqn:E; [|discriminate].
  assert (J1 : Mir c s1).
  { unfold clear_value in E. destruct (Nat.eqb (s_count st) 0).
    - eapply IHk; eassumption.
    - destruct (s_frozen st); injection E as <- <-; exact J. }
  destruct o1; try (eapply IH; eassumption); injection H as <- <-; exact J1.
Qed.

Theorem step_mirror : forall c, all_keep_args c -> forall n st o st' r,
  o <> End_ \/ s_count st <> 1%nat -> Mir c st -> step n c st o = Some (st', r) -> Mir c st'.
Proof.
  intros c N n st o st' r NE J H. destruct (all_mirror c N n) as (_ & _ & _ & IHs & IHk).
  destruct o as [prot p x|prot p|prot|p| | |]; cbn [step] in H.
  - destruct (set_value n c st prot p x) as [[s w]|] eqn:E; [|discriminate]. injection H as <- <-.
    unfold set_value in E. destruct (Nat.eqb (s_count st) 0).
    + eapply IHs; eassumption.
    + destruct (s_frozen st); injection E as <- <-; exact J.
  - destruct (clear_value n c st prot p) as [[s w]|] eqn:E; [|discriminate]. injection H as <- <-.
    unfold clear_value in E. destruct (Nat.eqb (s_count st) 0).
    + eapply IHk; eassumption.
    + destruct (s_frozen st); injection E as <- <-; exact J.
  - destruct (clear_all n c st prot) as [[s w]|] eqn:E; [|discriminate]. injection H as <- <-.
    unfold clear_all in E. destruct (s_frozen st); [injection E as <- <-; exact J|].
    eapply clear_each_mirror; eassumption.
  - injection H as <- <-. exact J.
  - unfold begin_update in H. destruct (s_frozen st); injection H as <- <-; exact J.
  - destruct (end_update n c st) as [[s w]|] eqn:E; [|discriminate]. injection H as <- <-.
    unfold end_update in E. destruct (s_count st) as [|[|k]].
    + injection E as <- <-. exact J.
    + exfalso. destruct NE as [NE|NE]; apply NE; reflexivity.
    + injection E as <- <-. exact J.
  - unfold freeze in H. destruct (s_frozen st); injection H as <- <-; exact J.
Qed.

Lemma init_Mir : forall c, Mir c init.
Proof. intros c p pr _. reflexivity. Qed.

(** Outside a batch the count stays zero. *)
Lemma step_count : forall n c st o st' r, o <> Begin -> s_count st = O ->
  step n c st o = Some (st', r) -> s_count st' = O.
Proof.
  intros n c st o st' r NB K H. destruct (all_prims c _ (Same_prims c) n) as (_ & _ & _ & IHs & IHk).
  destruct o as [prot p x|prot p|prot|p| | |]; cbn [step] in H.
  - unfold set_value in H. rewrite K in H. cbn [Nat.eqb] in H.
    destruct (set_in n c st p x prot false) as [[s w]|] eqn:E; [|discriminate]. injection H as <- <-.
    destruct (IHs _ _ _ _ _ _ _ E) as (_ & X & _). congruence.
  - unfold clear_value in H. rewrite K in H. cbn [Nat.eqb] in H.
    destruct (clear_in n c st p prot false) as [[s w]|] eqn:E; [|discriminate]. injection H as <- <-.
    destruct (IHk _ _ _ _ _ _ E) as (_ & X & _). congruence.
  - unfold clear_all in H. destruct (s_frozen st); [injection H as <- <-; exact K|].
    destruct (clear_each n c st prot (c_names c)) as [[s w]|] eqn:E; [|discriminate]. injection H as <- <-.
    apply (clear_each_prims c _ (Same_prims c)) in E; [|exact K|intros a b (_ & X & _); exact X].
    destruct E as (_ & X & _). congruence.
  - injection H as <- <-. exact K.
  - congruence.
  - unfold end_update in H. rewrite K in H. injection H as <- <-. exact K.
  - unfold freeze in H. destruct (s_frozen st); injection H as <- <-; exact K.
Qed.

Theorem runs_mirror : forall c, all_keep_args c -> forall n h st st' rs,
  no_batches h -> s_count st = O -> Mir c st -> runs n c st h = Some (st', rs) -> Mir c st'.
Proof.
  intros c N n h. induction h as [|o h IH]; intros st st' rs NB K J H; cbn [runs] in H.
  { injection H as <- <-. exact J. }
  destruct (step n c st o) as [[s r]|] eqn:E; [|discriminate].
  assert (J1 : Mir c s).
  { eapply step_mirror; [exact N| |exact J|exact E]. right. congruence. }
  assert (K1 : s_count s = O).
  { eapply step_count; [|exact K|exact E]. intro X. apply NB. left. congruence. }
  assert (NB1 : no_batches h) by (intro X; apply NB; right; exact X).
  assert (G : forall X, match runs n c s h with Some (st2, rs0) => Some (st2, r :: rs0) | None => None end = Some X -> Mir c (fst X)).
  { intros X HX. destruct (runs n c s h) as [[s2 rs2]|] eqn:E2; [|discriminate].
    injection HX as <-. eapply IH; eassumption. }
  destruct r as [[| | |]|]; try (apply G in H; exact H).
  injection H as <- <-. exact J1.
Qed.

(** * Batches, without listeners *)

Lemma quiet_args : forall c, no_listeners c -> all_keep_args c.
Proof. intros c N. split; [|split]; intros p f e H; destruct (N p) as (A & B & D); congruence. Qed.

Lemma fire_quiet : forall n c st l ev a st' r, l = None -> fire n c st l ev a = Some (st', r) -> st' = st /\ r = RDone a.
Proof.
  intros [|n] c st l ev a st' r -> H; [discriminate|]. rewrite fire_S in H. injection H as <- <-. auto.
Qed.

Lemma call_quiet_notes : forall n c st p pr v st' o nv, no_listeners c ->
  call_write n c st p pr v = Some (st', o, nv) ->
  forall pr' q, mirrored pr' q (s_notes st') = mirrored pr' q (s_notes st).
Proof.
  intros [|n] c st p pr v st' o nv N H; [discriminate|]. destruct (N p) as (NC & NN & NA).
  apply call_write_cases in H.
  destruct H as [(_ & -> & _ & _)|[(st1 & z & Rg & _ & _ & _ & -> & _ & _)|(st1 & Rg & _ & E)]].
  - reflexivity.
  - intros pr' q. destruct (unregister st1 p) as [s b] eqn:U. cbn [fst].
    apply register_frame in Rg. destruct Rg as (_ & _ & _ & _ & N1 & _).
    apply unregister_frame in U. destruct U as (_ & _ & _ & _ & N2 & _). rewrite N2, N1. reflexivity.
  - apply register_frame in Rg. destruct Rg as (_ & _ & _ & _ & N1 & _).
    set (st2 := noted st1 (NEvent p v)) in *.
    assert (M2 : forall pr' q, mirrored pr' q (s_notes st2) = mirrored pr' q (s_notes st)).
    { intros pr' q. unfold st2. cbn [noted s_notes mirrored]. rewrite N1. reflexivity. }
    assert (CS : forall ev a s r, class_step n c st2 p pr ev a = Some (s, r) -> s = st2 /\ r = RDone a).
    { intros ev a s r Hc. unfold class_step in Hc. destruct (p_local pr).
      - injection Hc as <- <-. auto.
      - eapply fire_quiet; [exact NC|exact Hc]. }
    assert (UN : forall s s' b, s_notes s = s_notes st2 -> unregister s p = (s', b) -> s_notes s' = s_notes st2).
    { intros s s' b X U. apply unregister_frame in U. destruct U as (_ & _ & _ & _ & N2 & _). congruence. }
    destruct E as [st3 C|st3 C|st3 a1 st4 C Nm|st3 a1 st4 r2 st5 r3 C Nm N2 A B2|st3 a1 st4 st5 a3 st6 b C Nm A U
                  |st3 a1 st4 a2 st5 a3 st6 C Nm A U|st3 a1 st4 a2 st5 a3 st6 C Nm A U G
                  |st3 a1 st4 a2 st5 a3 st6 st7 o C Nm A U G D];
      destruct (CS _ _ _ _ C) as (-> & R1); try discriminate R1;
      destruct (fire_quiet _ _ _ _ _ _ _ _ NN Nm) as (-> & R2); try discriminate R2;
      destruct (fire_quiet _ _ _ _ _ _ _ _ NA A) as (-> & R3); try (destruct B2; congruence).
    + intros pr' q. rewrite (UN _ _ _ eq_refl U). apply M2.
    + intros pr' q. rewrite (UN _ _ _ eq_refl U). apply M2.
    + injection R1 as ->. injection R2 as ->. injection R3 as ->.
      cbn [arg_is] in G. rewrite Z.eqb_refl in G. discriminate.
Qed.

Lemma set_in_quiet_notes : forall n c st p x prot st' o, no_listeners c ->
  set_in n c st p x prot true = Some (st', o) ->
  forall pr' q, mirrored pr' q (s_notes st') = mirrored pr' q (s_notes st).
Proof.
  intros [|n] c st p x prot st' o N H pr' q; [discriminate|]. rewrite set_in_S in H.
  destruct (s_frozen st). { injection H as <- <-. reflexivity. }
  destruct (c_prop c p) as [pr|]. 2:{ injection H as <- <-. reflexivity. }
  destruct (negb prot && p_readonly pr). { injection H as <- <-. reflexivity. }
  destruct (check pr x) as [z|e]. 2:{ injection H as <- <-. reflexivity. }
  destruct (call_write n c st p pr (Some z)) as [[[st1 o1] nv]|] eqn:W; [|discriminate].
  pose proof (call_quiet_notes _ _ _ _ _ _ _ _ _ N W pr' q) as M.
  destruct o1; try (injection H as <- <-; exact M).
  injection H as <- <-. rewrite <- M. destruct nv as [[y|t]|]; try reflexivity.
  destruct (y =? z); [|reflexivity]. destruct (write_local st1 p pr y) as [s b] eqn:Wl.
  apply write_local_frame in Wl. destruct Wl as (_ & _ & _ & NN & _). cbn [fst]. rewrite NN. reflexivity.
Qed.

Lemma clear_in_quiet_notes : forall n c st p prot st' o, no_listeners c ->
  clear_in n c st p prot true = Some (st', o) ->
  forall pr' q, mirrored pr' q (s_notes st') = mirrored pr' q (s_notes st).
Proof.
  intros [|n] c st p prot st' o N H pr' q; [discriminate|]. rewrite clear_in_S in H.
  destruct (s_frozen st). { injection H as <- <-. reflexivity. }
  destruct (c_prop c p) as [pr|]. 2:{ injection H as <- <-. reflexivity. }
  destruct (negb prot && p_readonly pr). { injection H as <- <-. reflexivity. }
  destruct (s_vals st p). 2:{ injection H as <- <-. reflexivity. }
  destruct (call_write n c st p pr None) as [[[st1 o1] nv]|] eqn:W; [|discriminate].
  pose proof (call_quiet_notes _ _ _ _ _ _ _ _ _ N W pr' q) as M.
  destruct o1; try (injection H as <- <-; exact M).
  destruct nv as [a|]; [injection H as <- <-; exact M|].
  destruct (s_vals st1 p); injection H as <- <-; exact M.
Qed.

Lemma in_update_snoc : forall p l q v, in_update p (l ++ [(q, v)]) =
  match (if Nat.eqb q p then v else None) with Some z => Some z | None => in_update p l end.
Proof.
  intros p l q v. induction l as [|[r w] l IH]; cbn [app in_update].
  - destruct (if Nat.eqb q p then v else None); reflexivity.
  - rewrite IH. destruct (if Nat.eqb q p then v else None); reflexivity.
Qed.

(** The copy as it will be when the update event arrives. *)
Definition MirA (c : cfg) (st : state) (acc : list (name * option Z)) : Prop :=
  forall p pr, c_prop c p = Some pr ->
    match in_update p acc with Some z => z | None => mirrored pr p (s_notes st) end = local_or_default st p pr.

Lemma apply_mirror : forall n c, no_listeners c -> forall l acc st st' o,
  idle st -> s_frozen st = false -> MirA c st acc ->
  apply_each (S (S (S n))) c st l acc = Some (st', o) -> (forall e, o <> OErr e) -> Mir c st'.
Proof.
  intros n c N l. induction l as [|a l IH]; intros acc st st' o I F J H NE; cbn [apply_each] in H.
  - injection H as <- <-. destruct acc as [|x0 acc0]; [exact J|].
    intros p pr Hp. cbn [noted s_notes mirrored]. apply (J p pr Hp).
  - assert (GO : forall s1 o1, (if a_set a then set_in (S (S (S n))) c st (a_name a) (a_value a) (a_prot a) true
                  else clear_in (S (S (S n))) c st (a_name a) (a_prot a) true) = Some (s1, o1) ->
               (exists e, o1 = OErr e) \/
               (idle s1 /\ s_frozen s1 = false /\
                (o1 = OOk /\ MirA c s1 (acc ++ [(a_name a, get_local c s1 (a_name a))]) \/
                 o1 = OIgn /\ MirA c s1 acc))).
    { intros s1 o1 E1.
      destruct (c_prop c (a_name a)) as [pr0|] eqn:Hp0.
      2:{ left. destruct (a_set a).
          - destruct (set_refused (S (S n)) c st (a_name a) (a_value a) (a_prot a) true) as (e & X); [auto|].
            rewrite X in E1. injection E1 as <- <-. eauto.
          - destruct (clear_refused (S (S n)) c st (a_name a) (a_prot a) true) as (e & X); [auto|].
            rewrite X in E1. injection E1 as <- <-. eauto. }
      destruct (writable_dec pr0 (a_prot a)) as [Wr|Wr].
      2:{ left. destruct (a_set a).
          - destruct (set_refused (S (S n)) c st (a_name a) (a_value a) (a_prot a) true) as (e & X); [right; right; exists pr0; auto|].
            rewrite X in E1. injection E1 as <- <-. eauto.
          - destruct (clear_refused (S (S n)) c st (a_name a) (a_prot a) true) as (e & X); [right; right; exists pr0; auto|].
            rewrite X in E1. injection E1 as <- <-. eauto. }
      destruct (a_set a).
      - destruct (takes_dec pr0 (a_value a)) as [(v & T)|T].
        2:{ left. destruct (set_refused (S (S n)) c st (a_name a) (a_value a) (a_prot a) true) as (e & X); [right; right; exists pr0; auto|].
            rewrite X in E1. injection E1 as <- <-. eauto. }
        right. destruct (set_quiet n c st _ pr0 _ v _ true N I F Hp0 Wr T) as (s2 & E2 & I2 & (SF & _) & L & V).
        rewrite E2 in E1. injection E1 as <- <-. split; [exact I2|]. split; [congruence|]. left. split; [reflexivity|].
        intros p pr Hp. rewrite in_update_snoc, (set_in_quiet_notes _ _ _ _ _ _ _ _ N E2).
        destruct (Nat.eqb_spec (a_name a) p) as [Q|Q].
        + subst p. unfold get_local. rewrite Hp. reflexivity.
        + rewrite (lod_ext st s2) by (apply V; congruence). apply (J p pr Hp).
      - right. destruct (clear_quiet n c st _ pr0 (a_prot a) true N I F Hp0 Wr) as (s2 & o2 & E2 & O2 & I2 & (SF & _) & L & V).
        rewrite E2 in E1. injection E1 as <- <-. split; [exact I2|]. split; [congruence|].
        destruct O2 as [-> | ->].
        + left. split; [reflexivity|].
          intros p pr Hp. rewrite in_update_snoc, (clear_in_quiet_notes _ _ _ _ _ _ _ N E2).
          destruct (Nat.eqb_spec (a_name a) p) as [Q|Q].
          * subst p. unfold get_local. rewrite Hp. reflexivity.
          * rewrite (lod_ext st s2) by (apply V; congruence). apply (J p pr Hp).
        + right. split; [reflexivity|].
          assert (X : s2 = st).
          { rewrite clear_in_S, F, Hp0 in E2. apply writable_b_spec in Wr. unfold writable_b in Wr.
            apply negb_true_iff in Wr. rewrite Wr in E2.
            destruct (s_vals st (a_name a)); [|congruence].
            destruct (call_write (S (S n)) c st (a_name a) pr0 None) as [[[s3 o3] nv3]|]; [|discriminate].
            destruct o3; try discriminate. destruct nv3; [|destruct (s_vals s3 (a_name a))]; discriminate. }
          rewrite X. exact J. }
    destruct (if a_set a then set_in (S (S (S n))) c st (a_name a) (a_value a) (a_prot a) true
              else clear_in (S (S (S n))) c st (a_name a) (a_prot a) true) as [[s1 o1]|]; [|discriminate].
    destruct (GO s1 o1 eq_refl) as [(e & ->)|(I1 & F1 & [(-> & J1)|(-> & J1)])].
    + injection H as <- <-. exfalso. apply (NE e). reflexivity.
    + eapply IH; eassumption.
    + eapply IH; eassumption.
Qed.

Theorem runs_mirror_quiet : forall n c, no_listeners c -> forall h st st' rs,
  idle st -> Mir c st -> (s_frozen st = false) -> ~ In Freeze h ->
  runs (S (S (S n))) c st h = Some (st', rs) ->
  Forall2 (fun o r => o = End_ -> ~ is_err r) h rs -> Mir c st'.
Proof.
  intros n c N h. induction h as [|o h IH]; intros st st' rs I J F NF H FA; cbn [runs] in H.
  { injection H as <- <-. exact J. }
  destruct (step (S (S (S n))) c st o) as [[s r]|] eqn:E; [|discriminate].
  destruct (step_idle c (quiet_outer c N) _ _ _ _ _ I E) as (I1 & U).
  assert (H' : match runs (S (S (S n))) c s h with Some (st2, rs0) => Some (st2, r :: rs0) | None => None end = Some (st', rs)).
  { destruct r as [[| | |]|]; try exact H. congruence. }
  destruct (runs (S (S (S n))) c s h) as [[s2 rs2]|] eqn:E2; [|discriminate]. injection H' as <- <-.
  inversion FA as [|o' r' h' rs' R FA']; subst o' r' h' rs'.
  assert (NF1 : ~ In Freeze h) by (intro X; apply NF; right; exact X).
  assert (NFo : o <> Freeze) by (intro X; apply NF; left; exact X).
  assert (F1 : s_frozen s = false).
  { clear - E F NFo I. destruct (all_prims c _ (Same_prims c) (S (S (S n)))) as (_ & _ & _ & IHs & IHk).
    destruct o as [prot p x|prot p|prot|p| | |]; cbn [step] in E.
    - destruct (set_value (S (S (S n))) c st prot p x) as [[s0 w]|] eqn:E0; [|discriminate]. injection E as <- <-.
      unfold set_value in E0. destruct (Nat.eqb (s_count st) 0).
      + destruct (IHs _ _ _ _ _ _ _ E0) as (X & _). congruence.
      + rewrite F in E0. injection E0 as <- <-. exact F.
    - destruct (clear_value (S (S (S n))) c st prot p) as [[s0 w]|] eqn:E0; [|discriminate]. injection E as <- <-.
      unfold clear_value in E0. destruct (Nat.eqb (s_count st) 0).
      + destruct (IHk _ _ _ _ _ _ E0) as (X & _). congruence.
      + rewrite F in E0. injection E0 as <- <-. exact F.
    - unfold clear_all in E. rewrite F in E.
      destruct (clear_each (S (S (S n))) c st prot (c_names c)) as [[s0 w]|] eqn:E0; [|discriminate]. injection E as <- <-.
      destruct (Nat.eq_dec (s_count st) 0) as [K|K].
      + apply (clear_each_prims c _ (Same_prims c)) in E0; [|exact K|intros a b (_ & X & _); exact X].
        destruct E0 as (X & _). congruence.
      + rewrite clear_each_queue in E0 by assumption. injection E0 as <- <-. exact F.
    - injection E as <- <-. exact F.
    - unfold begin_update in E. rewrite F in E. injection E as <- <-. exact F.
    - destruct (end_update (S (S (S n))) c st) as [[s0 w]|] eqn:E0; [|discriminate]. injection E as <- <-.
      unfold end_update in E0. destruct (s_count st) as [|[|k]].
      + injection E0 as <- <-. exact F.
      + apply (apply_each_prims c _ (Same_prims c)) in E0. destruct E0 as (X & _). cbn [with_batch s_frozen] in X. congruence.
      + injection E0 as <- <-. exact F.
    - congruence. }
  assert (J1 : Mir c s).
  { assert (DEC : (o = End_ /\ s_count st = 1%nat) \/ (o <> End_ \/ s_count st <> 1%nat)).
    { destruct (Nat.eq_dec (s_count st) 1) as [K|K]; [|auto]. destruct o; auto; right; left; discriminate. }
    destruct DEC as [(Eo & K)|D]; [|eapply step_mirror; [exact (quiet_args c N)|exact D|exact J|exact E]].
    subst o. cbn [step] in E.
    destruct (end_update (S (S (S n))) c st) as [[s0 w]|] eqn:E0; [|discriminate]. injection E as <- <-.
    unfold end_update in E0. rewrite K in E0.
    eapply (apply_mirror n c N); [| | |exact E0|].
    - exact I.
    - exact F.
    - intros p pr Hp. apply (J p pr Hp).
    - intros e X. apply (R eq_refl). exists e. congruence. }
  eapply IH; eassumption.
Qed.
