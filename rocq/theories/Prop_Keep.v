(** When the listeners of the class and of any property do not throw, every
    call leaves the update stack as it found it. *)
From Coq Require Import ZArith List Bool Lia.
From Verif Require Import Prop_Model Prop_Spec Prop_Proofs.
Import ListNotations.
Local Open Scope Z_scope.

(** What happens to the entry of a property over a call. *)
Definition Kept (a b : state) (p : name) : Prop :=
  match s_stk a p with
  | None => s_stk b p = None
  | Some it => exists it', s_stk b p = Some it' /\ i_level it' = i_level it /\
      (i_pushed it' = true -> it' = it /\ s_vals b p = s_vals a p)
  end.

Definition Keeps (a b : state) : Prop := forall p, Kept a b p.

Lemma Kept_refl : forall a p, Kept a a p.
Proof. intros a p. unfold Kept. destruct (s_stk a p) as [it|]; [|reflexivity]. exists it. auto. Qed.

Lemma Kept_trans : forall a b d p, Kept a b p -> Kept b d p -> Kept a d p.
Proof.
  intros a b d p. unfold Kept. destruct (s_stk a p) as [it|].
  - intros (i1 & E1 & L1 & P1). rewrite E1. intros (i2 & E2 & L2 & P2).
    exists i2. split; [exact E2|]. split; [congruence|]. intro Q.
    destruct (P2 Q) as (-> & V2). destruct (P1 Q) as (-> & V1). split; [reflexivity|congruence].
  - intros ->. auto.
Qed.

Lemma Keeps_refl : forall a, Keeps a a.
Proof. intros a p. apply Kept_refl. Qed.

Lemma Keeps_trans : forall a b d, Keeps a b -> Keeps b d -> Keeps a d.
Proof. intros a b d A B p. eapply Kept_trans; [apply A|apply B]. Qed.

Lemma Kept_eq : forall a b p, s_stk b p = s_stk a p -> s_vals b p = s_vals a p -> Kept a b p.
Proof.
  intros a b p S V. unfold Kept. rewrite S. destruct (s_stk a p) as [it|]; [|reflexivity].
  exists it. auto.
Qed.

(** The entry is not the one to be written any more. *)
Definition Spent (st : state) (p : name) : Prop :=
  forall it, s_stk st p = Some it -> i_pushed it = false.

(** The three listeners between registering and unregistering. *)
Lemma bracket_keeps : forall st p v st1 st5 st6 b,
  (forall it, s_stk st p = Some it -> (1 <= i_level it)%nat) ->
  register st p v = Some st1 -> Keeps st1 st5 -> unregister st5 p = (st6, b) ->
  Keeps st st6 /\ Spent st6 p /\
  (b = true -> s_vals st6 p = s_vals st p).
Proof.
  intros st p v st1 st5 st6 b LV R K U.
  apply register_frame in R. destruct R as (V & _ & _ & _ & _ & O & E & _).
  apply unregister_frame in U. destruct U as (V6 & _ & _ & _ & _ & O6 & E6).
  pose proof (K p) as Kp. unfold Kept in Kp. rewrite E in Kp.
  destruct Kp as (it5 & E5 & L5 & P5). cbn [i_level] in L5.
  destruct (E6 it5 E5) as (B & D).
  split; [|split].
  - intro q. destruct (Nat.eq_dec q p) as [Q|Q].
    + subst q. unfold Kept. destruct (s_stk st p) as [it|] eqn:S0.
      * destruct D as [(D1 & _)|(D1 & D2)]; [exfalso; specialize (LV it eq_refl); lia|].
        eexists. split; [exact D2|]. cbn [i_level i_pushed]. split; [lia|discriminate].
      * destruct D as [(_ & D2)|(D1 & _)]; [exact D2|lia].
    + apply Kept_trans with st1. { apply Kept_eq; [apply O; exact Q|rewrite V; reflexivity]. }
      apply Kept_trans with st5; [apply K|]. apply Kept_eq; [apply O6; exact Q|rewrite V6; reflexivity].
  - intros it E0. destruct D as [(_ & D2)|(_ & D2)]; rewrite D2 in E0; [discriminate|].
    injection E0 as <-. reflexivity.
  - intro Bt. rewrite Bt in B. symmetry in B. destruct (P5 B) as (_ & W). rewrite V6, W, V. reflexivity.
Qed.

(** Levels are never zero. *)
Definition Levels (st : state) : Prop := forall p it, s_stk st p = Some it -> (1 <= i_level it)%nat.

Lemma Keeps_levels : forall a b, Keeps a b -> Levels a -> Levels b.
Proof.
  intros a b K L p it E. specialize (K p). unfold Kept in K.
  destruct (s_stk a p) as [i0|] eqn:S.
  - destruct K as (i1 & E1 & L1 & _). rewrite E in E1. injection E1 as <-. rewrite L1. eapply L; eassumption.
  - congruence.
Qed.

Lemma register_levels : forall st p v st1, register st p v = Some st1 -> Levels st -> Levels st1.
Proof.
  intros st p v st1 R L q it E. apply register_frame in R. destruct R as (_ & _ & _ & _ & _ & O & P & _).
  destruct (Nat.eq_dec q p) as [Q|Q].
  - subst q. rewrite P in E. injection E as <-. cbn [i_level]. destruct (s_stk st p); lia.
  - rewrite (O q Q) in E. eapply L; eassumption.
Qed.

Lemma write_keeps : forall st p pr z, Spent st p -> Keeps st (fst (write_local st p pr z)).
Proof.
  intros st p pr z S q. destruct (write_local st p pr z) as [s b] eqn:W.
  apply write_local_frame in W. destruct W as (_ & _ & _ & _ & K & O & _). cbn [fst].
  destruct (Nat.eq_dec q p) as [Q|Q].
  - subst q. unfold Kept. rewrite K. destruct (s_stk st p) as [it|] eqn:E; [|reflexivity].
    exists it. split; [reflexivity|]. split; [reflexivity|]. rewrite (S it E). discriminate.
  - apply Kept_eq; [rewrite K; reflexivity|apply O; exact Q].
Qed.

Lemma erase_keeps : forall st p, Spent st p -> Keeps st (with_vals st (put (s_vals st) p None)).
Proof.
  intros st p S q. destruct (Nat.eq_dec q p) as [Q|Q].
  - subst q. unfold Kept. cbn [with_vals s_stk]. destruct (s_stk st p) as [it|] eqn:E; [|reflexivity].
    exists it. split; [reflexivity|]. split; [reflexivity|]. rewrite (S it E). discriminate.
  - apply Kept_eq; [reflexivity|]. cbn [with_vals s_vals]. apply put_other. exact Q.
Qed.

Lemma set_direct_keeps : forall st p pr x st' o, Spent st p ->
  set_direct st p pr x = (st', o) -> Keeps st st' /\ Spent st' p /\ o <> OUb.
Proof.
  intros st p pr x st' o S H. unfold set_direct in H.
  destruct (s_frozen st). { injection H as <- <-. split; [apply Keeps_refl|]. split; [exact S|discriminate]. }
  destruct (check pr x) as [z|e]. 2:{ injection H as <- <-. split; [apply Keeps_refl|]. split; [exact S|discriminate]. }
  pose proof (write_keeps st p pr z S) as K.
  destruct (write_local st p pr z) as [s w] eqn:W. injection H as <- <-.
  apply write_local_frame in W. destruct W as (_ & _ & _ & _ & Q & _).
  split; [exact K|]. split; [intros it E; rewrite Q in E; apply S; exact E|].
  destruct w; discriminate.
Qed.

Definition throws_not (r : ran) (P : Prop) : Prop := r <> RUb /\ (P -> r <> RFail).

Theorem all_keep : forall c, outer_never_throw c -> forall n,
  (forall st p pr v st' o nv, Levels st -> c_prop c p = Some pr ->
     call_write n c st p pr v = Some (st', o, nv) ->
     Keeps st st' /\ o <> OUb /\ (o = OOk -> Spent st' p) /\
     (o = OOk -> v = None -> nv = None -> s_vals st' p = s_vals st p)) /\
  (forall st l ev a st' r, Levels st -> fire n c st l ev a = Some (st', r) ->
     Keeps st st' /\ throws_not r (forall f, l = Some f -> never_throws (f ev))) /\
  (forall st g a st' r, Levels st -> run n c st g a = Some (st', r) ->
     Keeps st st' /\ throws_not r (never_throws g)) /\
  (forall st p x prot u st' o, Levels st -> set_in n c st p x prot u = Some (st', o) ->
     Keeps st st' /\ o <> OUb) /\
  (forall st p prot u st' o, Levels st -> clear_in n c st p prot u = Some (st', o) ->
     Keeps st st' /\ o <> OUb).
Proof.
  intros c (NC & NA).
  induction n as [|n (IHc & IHf & IHr & IHs & IHk)].
  { split; [|split; [|split; [|split]]]; intros; discriminate. }
  split; [|split; [|split; [|split]]].
  - intros st p pr v st' o nv LV Hp H. apply call_write_cases in H.
    destruct H as [(_ & -> & -> & _)|[(st1 & z & Rg & _ & _ & _ & -> & -> & _)|(st1 & Rg & _ & E)]].
    + split; [apply Keeps_refl|]. split; [discriminate|]. split; discriminate.
    + destruct (unregister st1 p) as [s b] eqn:U. cbn [fst].
      destruct (bracket_keeps st p v st1 st1 s b (LV p) Rg (Keeps_refl st1) U) as (K & _).
      split; [exact K|]. split; [discriminate|]. split; discriminate.
    + set (ev := evt_of st1 p pr v) in *. set (sh := VInt (shown_of pr v)) in *.
      set (st2 := noted st1 (NEvent p v)) in *.
      assert (L2 : Levels st2) by exact (register_levels _ _ _ _ Rg LV).
      assert (K12 : Keeps st1 st2) by (intro q; apply Kept_eq; reflexivity).
      assert (CS : forall s r, class_step n c st2 p pr ev sh = Some (s, r) ->
               Keeps st2 s /\ r <> RUb /\ r <> RFail).
      { intros s r Hc. unfold class_step in Hc. destruct (p_local pr).
        - injection Hc as <- <-. split; [apply Keeps_refl|]. split; discriminate.
        - apply IHf in Hc; [|exact L2]. destruct Hc as (K & U & F). split; [exact K|]. split; [exact U|].
          apply F. intros f Hf. eapply NC. exact Hf. }
      assert (NM : forall s a s' r, Keeps st2 s -> fire n c s (c_named c p) ev a = Some (s', r) ->
               Keeps st2 s' /\ r <> RUb).
      { intros s a s' r K0 Hc. apply IHf in Hc; [|eapply Keeps_levels; eassumption].
        destruct Hc as (K & U & _). split; [eapply Keeps_trans; eassumption|exact U]. }
      assert (AN : forall s a s' r, Keeps st2 s -> fire n c s (c_any c p) ev a = Some (s', r) ->
               Keeps st2 s' /\ r <> RUb /\ r <> RFail).
      { intros s a s' r K0 Hc. apply IHf in Hc; [|eapply Keeps_levels; eassumption].
        destruct Hc as (K & U & F). split; [eapply Keeps_trans; eassumption|]. split; [exact U|].
        apply F. intros f Hf. eapply NA. exact Hf. }
      assert (FIN : forall s5 s6 b, Keeps st2 s5 -> unregister s5 p = (s6, b) ->
                Keeps st s6 /\ Spent s6 p /\ (b = true -> s_vals s6 p = s_vals st p)).
      { intros s5 s6 b K5 U. eapply bracket_keeps; [exact (LV p)|exact Rg| |exact U].
        eapply Keeps_trans; [exact K12|exact K5]. }
      destruct E as [st3 C|st3 C|st3 a1 st4 C N|st3 a1 st4 r2 st5 r3 C N N2 A A2|st3 a1 st4 st5 a3 st6 b C N A U
                    |st3 a1 st4 a2 st5 a3 st6 C N A U|st3 a1 st4 a2 st5 a3 st6 C N A U G
                    |st3 a1 st4 a2 st5 a3 st6 st7 o C N A U G D];
        destruct (CS _ _ C) as (K3 & U3 & F3); try congruence;
        destruct (NM _ _ _ _ K3 N) as (K4 & U4); try congruence;
        destruct (AN _ _ _ _ K4 A) as (K5 & U5 & F5); try (destruct A2; congruence);
        destruct (FIN _ _ _ K5 U) as (K6 & S6 & V6).
      * split; [exact K6|]. split; [discriminate|]. split; discriminate.
      * split; [exact K6|]. split; [discriminate|]. split; discriminate.
      * split; [exact K6|]. split; [discriminate|]. split; [intros _; exact S6|].
        intros _ _ _. apply V6. reflexivity.
      * destruct (set_direct_keeps _ _ _ _ _ _ S6 D) as (K7 & S7 & U7).
        split; [eapply Keeps_trans; eassumption|]. split; [exact U7|]. split; [intros _; exact S7|].
        discriminate.
  - intros st l ev a st' r L H. rewrite fire_S in H. destruct l as [f|].
    + apply IHr in H; [|exact L]. destruct H as (K & U & F). split; [exact K|]. split; [exact U|].
      intro X. apply F. apply X. reflexivity.
    + injection H as <- <-. split; [apply Keeps_refl|]. split; [discriminate|intros _; discriminate].
  - intros st g a st' r L H. rewrite run_S in H. destruct g as [| |x k|p k|prot p x k|prot p k].
    + injection H as <- <-. split; [apply Keeps_refl|]. split; [discriminate|intros _; discriminate].
    + injection H as <- <-. split; [apply Keeps_refl|]. split; [discriminate|]. intros X. destruct X.
    + apply IHr in H; [|exact L]. exact H.
    + apply IHr in H; [|exact L]. destruct H as (K & U & F). split; [exact K|]. split; [exact U|].
      intro X. apply F. apply X.
    + destruct (set_in n c st p x prot false) as [[st1 o]|] eqn:S; [|discriminate].
      destruct (IHs _ _ _ _ _ _ _ L S) as (K1 & U1).
      assert (L1 := Keeps_levels _ _ K1 L).
      assert (H' : run n c st1 (k o) a = Some (st', r)) by (destruct o; try exact H; congruence).
      apply IHr in H'; [|exact L1]. destruct H' as (K & U & F).
      split; [eapply Keeps_trans; eassumption|]. split; [exact U|]. intro X. apply F. apply X.
    + destruct (clear_in n c st p prot false) as [[st1 o]|] eqn:S; [|discriminate].
      destruct (IHk _ _ _ _ _ _ L S) as (K1 & U1).
      assert (L1 := Keeps_levels _ _ K1 L).
      assert (H' : run n c st1 (k o) a = Some (st', r)) by (destruct o; try exact H; congruence).
      apply IHr in H'; [|exact L1]. destruct H' as (K & U & F).
      split; [eapply Keeps_trans; eassumption|]. split; [exact U|]. intro X. apply F. apply X.
  - intros st p x prot u st' o L H. rewrite set_in_S in H.
    destruct (s_frozen st). { injection H as <- <-. split; [apply Keeps_refl|discriminate]. }
    destruct (c_prop c p) as [pr|] eqn:Hp. 2:{ injection H as <- <-. split; [apply Keeps_refl|discriminate]. }
    destruct (negb prot && p_readonly pr). { injection H as <- <-. split; [apply Keeps_refl|discriminate]. }
    destruct (check pr x) as [z|e] eqn:C. 2:{ injection H as <- <-. split; [apply Keeps_refl|discriminate]. }
    destruct (call_write n c st p pr (Some z)) as [[[st1 o1] nv]|] eqn:W; [|discriminate].
    destruct (IHc _ _ _ _ _ _ _ L Hp W) as (K1 & U1 & S1 & _).
    destruct o1; try (injection H as <- <-; split; [exact K1|discriminate]); try congruence.
    injection H as <- <-. split; [|discriminate]. eapply Keeps_trans; [exact K1|].
    assert (R2 : Keeps st1 match nv with
                       | Some (VInt y) => if y =? z then fst (write_local st1 p pr y) else st1
                       | _ => st1 end).
    { destruct nv as [[y|t]|]; try apply Keeps_refl. destruct (y =? z); [|apply Keeps_refl].
      apply write_keeps. apply S1. reflexivity. }
    destruct u; [exact R2|]. eapply Keeps_trans; [exact R2|]. intro q. apply Kept_eq; reflexivity.
  - intros st p prot u st' o L H. rewrite clear_in_S in H.
    destruct (s_frozen st). { injection H as <- <-. split; [apply Keeps_refl|discriminate]. }
    destruct (c_prop c p) as [pr|] eqn:Hp. 2:{ injection H as <- <-. split; [apply Keeps_refl|discriminate]. }
    destruct (negb prot && p_readonly pr). { injection H as <- <-. split; [apply Keeps_refl|discriminate]. }
    destruct (s_vals st p) as [z|] eqn:Hv. 2:{ injection H as <- <-. split; [apply Keeps_refl|discriminate]. }
    destruct (call_write n c st p pr None) as [[[st1 o1] nv]|] eqn:W; [|discriminate].
    destruct (IHc _ _ _ _ _ _ _ L Hp W) as (K1 & U1 & S1 & V1).
    destruct o1; try (injection H as <- <-; split; [exact K1|discriminate]); try congruence.
    assert (NN : forall s x, Keeps s (noted s x)) by (intros s x q; apply Kept_eq; reflexivity).
    destruct nv as [a|].
    + injection H as <- <-. split; [|discriminate]. destruct u; [exact K1|].
      eapply Keeps_trans; [exact K1|apply NN].
    + rewrite (V1 eq_refl eq_refl eq_refl), Hv in H. injection H as <- <-. split; [|discriminate].
      eapply Keeps_trans; [exact K1|].
      assert (E1 := erase_keeps st1 p (S1 eq_refl)).
      destruct u; [exact E1|]. eapply Keeps_trans; [exact E1|apply NN].
Qed.

(** * Over the interface *)

Lemma idle_levels : forall st, idle st -> Levels st.
Proof. intros st I p it E. rewrite (I p) in E. discriminate. Qed.

Lemma Keeps_idle : forall a b, Keeps a b -> idle a -> idle b.
Proof. intros a b K I p. specialize (K p). unfold Kept in K. rewrite (I p) in K. exact K. Qed.

Lemma clear_each_keeps : forall c, outer_never_throw c -> forall n prot l st st' o,
  idle st -> clear_each n c st prot l = Some (st', o) -> idle st' /\ o <> OUb.
Proof.
  intros c N n prot l. destruct (all_keep c N n) as (_ & _ & _ & _ & IHk).
  induction l as [|p l IH]; intros st st' o I H; cbn [clear_each] in H.
  { injection H as <- <-. split; [exact I|discriminate]. }
  destruct (c_prop c p) as [pr|]; [|eapply IH; eassumption].
  destruct ((negb prot && p_readonly pr) || negb (p_local pr)); [eapply IH; eassumption|].
  destruct (clear_value n c st prot p) as [[s1 o1]|] eqn:E; [|discriminate].
  assert (X : idle s1 /\ o1 <> OUb).
  { unfold clear_value in E. destruct (Nat.eqb (s_count st) 0).
    - destruct (IHk _ _ _ _ _ _ (idle_levels _ I) E) as (K & U). split; [eapply Keeps_idle; eassumption|exact U].
    - destruct (s_frozen st); injection E as <- <-; (split; [exact I|discriminate]). }
  destruct X as (I1 & U1).
  destruct o1; try congruence; try (eapply IH; eassumption).
  injection H as <- <-. split; [exact I1|discriminate].
Qed.

Lemma apply_each_keeps : forall c, outer_never_throw c -> forall n l acc st st' o,
  idle st -> apply_each n c st l acc = Some (st', o) -> idle st' /\ o <> OUb.
Proof.
  intros c N n l. destruct (all_keep c N n) as (_ & _ & _ & IHs & IHk).
  induction l as [|a l IH]; intros acc st st' o I H; cbn [apply_each] in H.
  { injection H as <- <-. split; [destruct acc; exact I|discriminate]. }
  destruct (if a_set a then set_in n c st (a_name a) (a_value a) (a_prot a) true
            else clear_in n c st (a_name a) (a_prot a) true) as [[s1 o1]|] eqn:E; [|discriminate].
  assert (X : Keeps st s1 /\ o1 <> OUb)
    by (destruct (a_set a); [eapply IHs|eapply IHk]; try exact E; apply idle_levels; exact I).
  destruct X as (K1 & U1). assert (I1 := Keeps_idle _ _ K1 I).
  destruct o1; try congruence; try (eapply IH; eassumption).
  injection H as <- <-. split; [exact I1|discriminate].
Qed.

Theorem step_idle : forall c, outer_never_throw c -> forall n st o st' r,
  idle st -> step n c st o = Some (st', r) -> idle st' /\ r <> Rout OUb.
Proof.
  intros c N n st o st' r I H. destruct (all_keep c N n) as (_ & _ & _ & IHs & IHk).
  assert (LV := idle_levels _ I).
  destruct o as [prot p x|prot p|prot|p| | |]; cbn [step] in H.
  - destruct (set_value n c st prot p x) as [[s w]|] eqn:E; [|discriminate]. injection H as <- <-.
    unfold set_value in E. destruct (Nat.eqb (s_count st) 0).
    + destruct (IHs _ _ _ _ _ _ _ LV E) as (K & U). split; [eapply Keeps_idle; eassumption|congruence].
    + destruct (s_frozen st); injection E as <- <-; (split; [exact I|discriminate]).
  - destruct (clear_value n c st prot p) as [[s w]|] eqn:E; [|discriminate]. injection H as <- <-.
    unfold clear_value in E. destruct (Nat.eqb (s_count st) 0).
    + destruct (IHk _ _ _ _ _ _ LV E) as (K & U). split; [eapply Keeps_idle; eassumption|congruence].
    + destruct (s_frozen st); injection E as <- <-; (split; [exact I|discriminate]).
  - destruct (clear_all n c st prot) as [[s w]|] eqn:E; [|discriminate]. injection H as <- <-.
    unfold clear_all in E. destruct (s_frozen st); [injection E as <- <-; split; [exact I|discriminate]|].
    destruct (clear_each_keeps c N n prot _ _ _ _ I E) as (I1 & U). split; [exact I1|congruence].
  - injection H as <- <-. split; [exact I|discriminate].
  - unfold begin_update in H. destruct (s_frozen st); injection H as <- <-; (split; [exact I|discriminate]).
  - destruct (end_update n c st) as [[s w]|] eqn:E; [|discriminate]. injection H as <- <-.
    unfold end_update in E. destruct (s_count st) as [|[|k]].
    + injection E as <- <-. split; [exact I|discriminate].
    + apply (apply_each_keeps c N) in E; [|exact I]. destruct E as (I1 & U). split; [exact I1|congruence].
    + injection E as <- <-. split; [exact I|discriminate].
  - unfold freeze in H. destruct (s_frozen st); injection H as <- <-; (split; [exact I|discriminate]).
Qed.

Theorem runs_idle : forall c, outer_never_throw c -> forall n h st st' rs,
  idle st -> runs n c st h = Some (st', rs) -> idle st' /\ ~ In (Rout OUb) rs.
Proof.
  intros c N n h. induction h as [|o h IH]; intros st st' rs I H; cbn [runs] in H.
  { injection H as <- <-. split; [exact I|intros []]. }
  destruct (step n c st o) as [[s r]|] eqn:E; [|discriminate].
  destruct (step_idle c N _ _ _ _ _ I E) as (I1 & U).
  assert (H' : match runs n c s h with Some (st2, rs0) => Some (st2, r :: rs0) | None => None end = Some (st', rs)).
  { destruct r as [[| | |]|]; try exact H. congruence. }
  destruct (runs n c s h) as [[s2 rs2]|] eqn:E2; [|discriminate]. injection H' as <- <-.
  destruct (IH _ _ _ I1 E2) as (I2 & U2). split; [exact I2|].
  intros [X|X]; [congruence|contradiction].
Qed.
