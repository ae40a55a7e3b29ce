(** The object without listeners: histories of calls, and batches. *)
From Coq Require Import ZArith List Bool Lia.
From Verif Require Import Prop_Model Prop_Spec Prop_Proofs Prop_Keep Prop_Last.
Import ListNotations.
Local Open Scope Z_scope.

Lemma quiet_outer : forall c, no_listeners c -> outer_never_throw c.
Proof.
  intros c N. split; intros p f e H; destruct (N p) as (A & B & D); congruence.
Qed.

Definition writable_b (pr : prop) (prot : bool) : bool := negb (negb prot && p_readonly pr).

Lemma writable_b_spec : forall pr prot, writable_b pr prot = true <-> writable pr prot.
Proof.
  intros pr prot. unfold writable_b, writable. destruct prot, (p_readonly pr); cbn; split; intro H;
    auto; try discriminate; destruct H; discriminate.
Qed.

Lemma writable_b_not : forall pr prot, negb prot && p_readonly pr = true <-> ~ writable pr prot.
Proof.
  intros pr prot. rewrite <- writable_b_spec. unfold writable_b.
  destruct (negb prot && p_readonly pr); cbn; split; intro H; try discriminate; try reflexivity; exfalso; apply H; reflexivity.
Qed.

Lemma call_quiet : forall n c st p pr v, no_listeners c -> idle st ->
  exists st' o, call_write (S (S n)) c st p pr v = Some (st', o, nv_of v) /\
    idle st' /\ s_vals st' = s_vals st /\ Same st st' /\
    (o = OOk \/ o = OIgn /\ v = Some (local_or_default st p pr)).
Proof.
  intros n c st p pr v N I.
  destruct (N p) as (NC & NN & NA).
  rewrite call_write_S. cbv zeta. unfold register. rewrite (I p).
  set (st1 := with_stk st (put (s_stk st) p (Some {| i_value := v; i_level := 1; i_pushed := true |}))).
  assert (S1 : s_stk st1 p = Some {| i_value := v; i_level := 1; i_pushed := true |}) by apply put_same.
  assert (B1 : is_base st1 p = true) by (unfold is_base; rewrite S1; reflexivity).
  assert (U1 : forall s, s_stk s = s_stk st1 -> unregister s p = (with_stk s (put (s_stk s) p None), true)).
  { intros s E. unfold unregister. rewrite E, S1. reflexivity. }
  assert (ID : forall s, s_stk s = s_stk st1 -> idle (with_stk s (put (s_stk s) p None))).
  { intros s E q. cbn [with_stk s_stk]. rewrite E. destruct (Nat.eq_dec q p) as [Q|Q].
    - subst q. apply put_same.
    - rewrite put_other by exact Q. unfold st1. cbn [with_stk s_stk]. rewrite put_other by exact Q. apply I. }
  rewrite B1. cbn [andb].
  destruct (match v with Some z => negb (should_write st1 p pr z) | None => false end) eqn:W.
  - rewrite (U1 st1 eq_refl). cbn [fst].
    eexists _, _. split; [reflexivity|]. split; [apply ID; reflexivity|]. split; [reflexivity|].
    split; [repeat split|]. right. split; [reflexivity|].
    destruct v as [z|]; [|discriminate]. unfold should_write in W. rewrite negb_involutive in W.
    apply Z.eqb_eq in W. f_equal. rewrite <- W. reflexivity.
  - rewrite NC, NN, NA.
    assert (CE : (if p_local pr then Some (noted st1 (NEvent p v), RDone (VInt (shown_of pr v)))
                  else Some (noted st1 (NEvent p v), RDone (VInt (shown_of pr v)))) =
                 Some (noted st1 (NEvent p v), RDone (VInt (shown_of pr v)))) by (destruct (p_local pr); reflexivity).
    rewrite !fire_S.
    change (match v with Some z => z | None => p_default pr end) with (shown_of pr v).
    rewrite CE. rewrite !fire_S.
    rewrite (U1 (noted st1 (NEvent p v)) eq_refl).
    replace (match v with Some z => arg_is (VInt (shown_of pr v)) z | None => arg_is (VInt (shown_of pr v)) (p_default pr) end)
      with true by (destruct v; cbn [arg_is shown_of]; symmetry; apply Z.eqb_refl).
    eexists _, _. split; [reflexivity|]. split; [apply (ID (noted st1 (NEvent p v))); reflexivity|].
    split; [reflexivity|]. split; [repeat split|]. left. reflexivity.
Qed.

Lemma lod_write : forall st p pr z st1 b, write_local st p pr z = (st1, b) ->
  local_or_default st1 p pr = z.
Proof.
  intros st p pr z st1 b W. apply write_local_frame in W. destruct W as (_ & _ & _ & _ & _ & _ & M & _).
  unfold local_or_default. destruct (s_vals st1 p); exact M.
Qed.

Lemma lod_ext : forall a b p pr, s_vals b p = s_vals a p -> local_or_default b p pr = local_or_default a p pr.
Proof. intros a b p pr E. unfold local_or_default. rewrite E. reflexivity. Qed.

Lemma set_quiet : forall n c st p pr x z prot u, no_listeners c -> idle st ->
  s_frozen st = false -> c_prop c p = Some pr -> writable pr prot -> takes pr x z ->
  exists st', set_in (S (S (S n))) c st p x prot u = Some (st', OOk) /\ idle st' /\ Same st st' /\
    local_or_default st' p pr = z /\ (forall q, q <> p -> s_vals st' q = s_vals st q).
Proof.
  intros n c st p pr x z prot u N I F Hp W T. rewrite set_in_S, F, Hp.
  destruct (negb prot && p_readonly pr) eqn:B. { apply writable_b_not in B. contradiction. }
  apply check_spec in T. rewrite T.
  destruct (call_quiet n c st p pr (Some z) N I) as (s1 & o & E & I1 & V1 & S1 & D). rewrite E.
  destruct D as [-> | (-> & D)].
  - cbn [nv_of]. rewrite Z.eqb_refl.
    destruct (write_local s1 p pr z) as [s2 b] eqn:Wl. pose proof (lod_write _ _ _ _ _ _ Wl) as L.
    apply write_local_frame in Wl. destruct Wl as (F2 & K2 & Q2 & N2 & T2 & O2 & _). cbn [fst].
    assert (I2 : idle s2) by (intro q; rewrite T2; apply I1).
    assert (SS : Same st s2).
    { destruct S1 as (A1 & A2 & A3). repeat split; congruence. }
    destruct u; (eexists; split; [reflexivity|]).
    + split; [exact I2|]. split; [exact SS|]. split; [exact L|]. intros q Q. rewrite (O2 q Q), V1. reflexivity.
    + split; [exact I2|]. split; [exact SS|]. split; [exact L|]. intros q Q. cbn [noted s_vals]. rewrite (O2 q Q), V1. reflexivity.
  - eexists. split; [reflexivity|]. split; [exact I1|]. split; [exact S1|].
    split; [|intros q _; rewrite V1; reflexivity].
    injection D as ->. apply lod_ext. rewrite V1. reflexivity.
Qed.

Lemma clear_quiet : forall n c st p pr prot u, no_listeners c -> idle st ->
  s_frozen st = false -> c_prop c p = Some pr -> writable pr prot ->
  exists st' o, clear_in (S (S (S n))) c st p prot u = Some (st', o) /\ (o = OOk \/ o = OIgn) /\
    idle st' /\ Same st st' /\
    local_or_default st' p pr = p_default pr /\ (forall q, q <> p -> s_vals st' q = s_vals st q).
Proof.
  intros n c st p pr prot u N I F Hp W. rewrite clear_in_S, F, Hp.
  destruct (negb prot && p_readonly pr) eqn:B. { apply writable_b_not in B. contradiction. }
  destruct (s_vals st p) as [y|] eqn:V.
  2:{ eexists _, _. split; [reflexivity|]. split; [right; reflexivity|]. split; [exact I|].
      split; [repeat split|]. split; [unfold local_or_default; rewrite V; reflexivity|reflexivity]. }
  destruct (call_quiet n c st p pr None N I) as (s1 & o & E & I1 & V1 & S1 & D). rewrite E.
  destruct D as [-> | (_ & D)]; [|discriminate]. cbn [nv_of]. rewrite V1, V.
  destruct u; (eexists _, _; split; [reflexivity|]; split; [left; reflexivity|]; split; [exact I1|]; split; [exact S1|];
    split; [unfold local_or_default; cbn [noted with_vals s_vals]; rewrite put_same; reflexivity|];
    intros q Q; cbn [noted with_vals s_vals]; rewrite put_other by exact Q; reflexivity).
Qed.

(** Refused calls change nothing, whatever the listeners. *)
Lemma set_refused : forall n c st p x prot u,
  (s_frozen st = true \/ c_prop c p = None \/
   exists pr, c_prop c p = Some pr /\ (~ writable pr prot \/ ~ exists v, takes pr x v)) ->
  exists e, set_in (S n) c st p x prot u = Some (st, OErr e).
Proof.
  intros n c st p x prot u H. rewrite set_in_S.
  destruct (s_frozen st); [eexists; reflexivity|].
  destruct (c_prop c p) as [pr|]; [|eexists; reflexivity].
  destruct (negb prot && p_readonly pr) eqn:B; [eexists; reflexivity|].
  destruct (check pr x) as [z|e] eqn:C; [|eexists; reflexivity].
  exfalso. destruct H as [H|[H|(pr' & E & [H|H])]]; try discriminate; injection E as <-.
  - apply writable_b_not in H. congruence.
  - apply H. exists z. apply check_spec. exact C.
Qed.

Lemma clear_refused : forall n c st p prot u,
  (s_frozen st = true \/ c_prop c p = None \/ exists pr, c_prop c p = Some pr /\ ~ writable pr prot) ->
  exists e, clear_in (S n) c st p prot u = Some (st, OErr e).
Proof.
  intros n c st p prot u H. rewrite clear_in_S.
  destruct (s_frozen st); [eexists; reflexivity|].
  destruct (c_prop c p) as [pr|]; [|eexists; reflexivity].
  destruct (negb prot && p_readonly pr) eqn:B; [eexists; reflexivity|].
  exfalso. destruct H as [H|[H|(pr' & E & H)]]; try discriminate; injection E as <-.
  apply writable_b_not in H. congruence.
Qed.

Lemma clear_each_quiet : forall n c prot, no_listeners c -> forall l st,
  idle st -> s_frozen st = false -> s_count st = O ->
  exists st', clear_each (S (S (S n))) c st prot l = Some (st', OOk) /\ idle st' /\ Same st st' /\
    forall p pr, c_prop c p = Some pr ->
      (In p l -> writable pr prot -> p_local pr = true -> local_or_default st' p pr = p_default pr) /\
      (~ In p l \/ ~ writable pr prot \/ p_local pr = false ->
         local_or_default st' p pr = local_or_default st p pr).
Proof.
  intros n c prot N l. induction l as [|q l IH]; intros st I F K.
  - exists st. split; [reflexivity|]. split; [exact I|]. split; [repeat split|].
    intros p pr Hp. split; [intros []|reflexivity].
  - cbn [clear_each]. destruct (c_prop c q) as [qr|] eqn:Hq.
    + destruct ((negb prot && p_readonly qr) || negb (p_local qr)) eqn:B.
      * destruct (IH st I F K) as (s & E & I1 & S1 & R). exists s. split; [exact E|].
        split; [exact I1|]. split; [exact S1|]. intros p pr Hp. destruct (R p pr Hp) as (R1 & R2).
        apply orb_true_iff in B.
        split.
        -- intros [X|X] Wr Lc; [|apply R1; assumption]. subst q.
           rewrite Hp in Hq. injection Hq as <-. exfalso. destruct B as [B|B].
           ++ apply writable_b_not in B. contradiction.
           ++ rewrite Lc in B. discriminate.
        -- intros X. apply R2. destruct X as [X|X]; [left|right; exact X]. intro Y. apply X. right. exact Y.
      * apply orb_false_iff in B. destruct B as (B1 & B2). apply negb_false_iff in B2.
        assert (Wq : writable qr prot).
        { apply writable_b_spec. unfold writable_b. rewrite B1. reflexivity. }
        unfold clear_value. rewrite K. cbn [Nat.eqb].
        destruct (clear_quiet n c st q qr prot false N I F Hq Wq) as (s1 & o & E1 & O1 & I1 & S1 & L1 & V1).
        rewrite E1. destruct S1 as (SF & SK & SP).
        destruct (IH s1 I1) as (s & E & I2 & (TF & TK & TP) & R); [congruence|congruence|].
        exists s. split; [destruct O1 as [-> | ->]; exact E|]. split; [exact I2|].
        split; [repeat split; congruence|].
        intros p pr Hp. destruct (R p pr Hp) as (R1 & R2).
        destruct (Nat.eq_dec p q) as [Q|Q].
        -- subst q. rewrite Hp in Hq. injection Hq as <-. split.
           ++ intros _ Wr Lc. destruct (in_dec Nat.eq_dec p l) as [X|X]; [apply R1; assumption|].
              rewrite R2 by (left; exact X). exact L1.
           ++ intros [X|[X|X]]; [exfalso; apply X; left; reflexivity|contradiction|congruence].
        -- split.
           ++ intros [X|X]; [congruence|]. apply R1. exact X.
           ++ intro X. rewrite R2.
              ** apply lod_ext. apply V1. exact Q.
              ** destruct X as [X|X]; [left; intro Y; apply X; right; exact Y|right; exact X].
    + destruct (IH st I F K) as (s & E & I1 & S1 & R). exists s. split; [exact E|].
      split; [exact I1|]. split; [exact S1|]. intros p pr Hp. destruct (R p pr Hp) as (R1 & R2).
      split.
      * intros [X|X]; [congruence|apply R1; exact X].
      * intros X. apply R2. destruct X as [X|X]; [left; intro Y; apply X; right; exact Y|right; exact X].
Qed.

(** * Histories without batches *)

Lemma runs_app : forall n c h1 h2 st st1 rs1,
  runs n c st h1 = Some (st1, rs1) -> ~ In (Rout OUb) rs1 ->
  runs n c st (h1 ++ h2) =
    match runs n c st1 h2 with Some (s, rs) => Some (s, rs1 ++ rs) | None => None end.
Proof.
  intros n c h1. induction h1 as [|o h1 IH]; intros h2 st st1 rs1 H U; cbn [runs app] in *.
  - injection H as <- <-. destruct (runs n c st h2) as [[s rs]|]; reflexivity.
  - destruct (step n c st o) as [[s r]|] eqn:E; [|discriminate].
    assert (X : exists rs, runs n c s h1 = Some (st1, rs) /\ rs1 = r :: rs).
    { destruct r as [[| |e|]|v]; try (destruct (runs n c s h1) as [[s2 rs2]|]; [|discriminate];
        injection H as <- <-; exists rs2; split; reflexivity).
      injection H as <- <-. exfalso. apply U. left. reflexivity. }
    destruct X as (rs & E2 & ->).
    assert (U2 : ~ In (Rout OUb) rs) by (intro Y; apply U; right; exact Y).
    rewrite (IH h2 _ _ _ E2 U2).
    destruct (runs n c st1 h2) as [[s3 rs3]|].
    + destruct r as [[| |e|]|v]; try reflexivity. exfalso. apply U. left. reflexivity.
    + destruct r as [[| |e|]|v]; try reflexivity. exfalso. apply U. left. reflexivity.
Qed.

Definition frozen_dec (h : list op) : {Frozen h} + {~ Frozen h}.
Proof.
  induction h as [|o h IH]; [right; intro H; inversion H|].
  destruct IH as [IH|IH]; [left; constructor; exact IH|].
  destruct o; try (right; intro H; inversion H; contradiction).
  left. constructor.
Defined.

Lemma takes_dec : forall pr x, (exists v, takes pr x v) \/ ~ exists v, takes pr x v.
Proof.
  intros pr x. destruct (check pr x) as [z|e] eqn:C.
  - left. exists z. apply check_spec. exact C.
  - right. eapply check_err. exact C.
Qed.

Lemma writable_dec : forall pr prot, writable pr prot \/ ~ writable pr prot.
Proof.
  intros pr prot. destruct (negb prot && p_readonly pr) eqn:B.
  - right. apply writable_b_not. exact B.
  - left. apply writable_b_spec. unfold writable_b. rewrite B. reflexivity.
Qed.

Theorem quiet_history : forall n c, no_listeners c -> listed c -> forall h, no_batches h ->
  exists st rs, runs (S (S (S n))) c init (rev h) = Some (st, rs) /\ idle st /\ s_count st = O /\
    (s_frozen st = true <-> Frozen h) /\ ~ In (Rout OUb) rs /\
    forall p pr, c_prop c p = Some pr -> Holds pr p h (local_or_default st p pr).
Proof.
  intros n c N (ND & LI) h. set (k := S (S (S n))).
  induction h as [|o h IH]; intro NB.
  - exists init, []. split; [reflexivity|]. split; [intro q; reflexivity|]. split; [reflexivity|].
    split; [split; [discriminate|intro H; inversion H]|]. split; [intros []|].
    intros p pr Hp. constructor.
  - destruct IH as (st & rs & E & I & K & F & U & HH).
    { intro X. apply NB. right. exact X. }
    cbn [rev]. rewrite (runs_app _ _ _ _ _ _ _ E U). cbn [runs].
    assert (FB : forall st', s_frozen st' = s_frozen st -> (forall h', Frozen (o :: h') -> Frozen h' \/ o = Freeze) -> o <> Freeze ->
              (s_frozen st' = true <-> Frozen (o :: h))).
    { intros st' EF X Y. rewrite EF, F. split; [intro; constructor; assumption|]. intro Z.
      destruct (X _ Z) as [Z1|Z1]; [exact Z1|contradiction]. }
    assert (FI : forall h', Frozen (o :: h') -> Frozen h' \/ o = Freeze).
    { intros h' Z. inversion Z; subst; [right; reflexivity|left; assumption]. }
    assert (UU : forall e : reply, e <> Rout OUb -> ~ In (Rout OUb) (rs ++ [e])).
    { intros e Y X. apply in_app_or in X. destruct X as [X|[X|[]]]; [contradiction|congruence]. }
    assert (FD : s_frozen st = true -> Frozen h) by (apply F).
    assert (FN : s_frozen st = false -> ~ Frozen h).
    { intros X Y. apply F in Y. congruence. }
    destruct o as [prot p x|prot p|prot|p| | |]; cbn [step].
    + (* set *)
      unfold set_value. rewrite K. cbn [Nat.eqb].
      assert (DEC : (s_frozen st = true \/ c_prop c p = None \/
                     exists pr, c_prop c p = Some pr /\ (~ writable pr prot \/ ~ exists v, takes pr x v)) \/
                    (s_frozen st = false /\ exists pr v, c_prop c p = Some pr /\ writable pr prot /\ takes pr x v)).
      { destruct (s_frozen st); [left; left; reflexivity|].
        destruct (c_prop c p) as [pr|]; [|left; right; left; reflexivity].
        destruct (writable_dec pr prot) as [Wr|Wr]; [|left; right; right; exists pr; auto].
        destruct (takes_dec pr x) as [(v & T)|T]; [|left; right; right; exists pr; auto].
        right. split; [reflexivity|]. exists pr, v. auto. }
      destruct DEC as [D|(Fz & pr & v & Hp & Wr & T)].
      * destruct (set_refused (S (S n)) c st p x prot false D) as (e & E1). unfold k. rewrite E1.
        exists st, (rs ++ [Rout (OErr e)]). split; [reflexivity|]. split; [exact I|]. split; [exact K|].
        split; [apply FB; [reflexivity|exact FI|discriminate]|]. split; [apply UU; discriminate|].
        intros q qr Hq. destruct (Nat.eq_dec p q) as [Q|Q]; [|apply H_set_other; [exact Q|apply HH; exact Hq]].
        subst q. apply H_set_refused; [|apply HH; exact Hq].
        destruct D as [D|[D|(pr' & E2 & D)]]; [left; apply FD; exact D|congruence|].
        rewrite Hq in E2. injection E2 as <-. right. exact D.
      * destruct (set_quiet n c st p pr x v prot false N I Fz Hp Wr T) as (s1 & E1 & I1 & (SF & SK & SP) & L & V).
        unfold k. rewrite E1. exists s1, (rs ++ [Rout OOk]). split; [reflexivity|]. split; [exact I1|].
        split; [congruence|]. split; [apply FB; [congruence|exact FI|discriminate]|]. split; [apply UU; discriminate|].
        intros q qr Hq. destruct (Nat.eq_dec p q) as [Q|Q].
        -- subst q. rewrite Hp in Hq. injection Hq as <-. rewrite L. apply H_set; auto.
        -- apply H_set_other; [exact Q|]. rewrite (lod_ext st s1 q qr) by (apply V; congruence). apply HH. exact Hq.
    + (* clear *)
      unfold clear_value. rewrite K. cbn [Nat.eqb].
      assert (DEC : (s_frozen st = true \/ c_prop c p = None \/ exists pr, c_prop c p = Some pr /\ ~ writable pr prot) \/
                    (s_frozen st = false /\ exists pr, c_prop c p = Some pr /\ writable pr prot)).
      { destruct (s_frozen st); [left; left; reflexivity|].
        destruct (c_prop c p) as [pr|]; [|left; right; left; reflexivity].
        destruct (writable_dec pr prot) as [Wr|Wr]; [|left; right; right; exists pr; auto].
        right. split; [reflexivity|]. exists pr. auto. }
      destruct DEC as [D|(Fz & pr & Hp & Wr)].
      * destruct (clear_refused (S (S n)) c st p prot false D) as (e & E1). unfold k. rewrite E1.
        exists st, (rs ++ [Rout (OErr e)]). split; [reflexivity|]. split; [exact I|]. split; [exact K|].
        split; [apply FB; [reflexivity|exact FI|discriminate]|]. split; [apply UU; discriminate|].
        intros q qr Hq. destruct (Nat.eq_dec p q) as [Q|Q]; [|apply H_clear_other; [exact Q|apply HH; exact Hq]].
        subst q. apply H_clear_refused; [|apply HH; exact Hq].
        destruct D as [D|[D|(pr' & E2 & D)]]; [left; apply FD; exact D|congruence|].
        rewrite Hq in E2. injection E2 as <-. right. exact D.
      * destruct (clear_quiet n c st p pr prot false N I Fz Hp Wr) as (s1 & o & E1 & O1 & I1 & (SF & SK & SP) & L & V).
        unfold k. rewrite E1. exists s1, (rs ++ [Rout o]).
        split; [destruct O1 as [-> | ->]; reflexivity|]. split; [exact I1|].
        split; [congruence|]. split; [apply FB; [congruence|exact FI|discriminate]|].
        split; [apply UU; destruct O1 as [-> | ->]; discriminate|].
        intros q qr Hq. destruct (Nat.eq_dec p q) as [Q|Q].
        -- subst q. rewrite Hp in Hq. injection Hq as <-. rewrite L. apply H_clear; auto.
        -- apply H_clear_other; [exact Q|]. rewrite (lod_ext st s1 q qr) by (apply V; congruence). apply HH. exact Hq.
    + (* clear all *)
      unfold clear_all. destruct (s_frozen st) eqn:Fz.
      * exists st, (rs ++ [Rout (OErr EFrozen)]). split; [reflexivity|]. split; [exact I|]. split; [exact K|].
        split; [apply FB; [congruence|exact FI|discriminate]|]. split; [apply UU; discriminate|].
        intros q qr Hq. apply H_all_not; [left; apply FD; reflexivity|apply HH; exact Hq].
      * destruct (clear_each_quiet n c prot N (c_names c) st I Fz K) as (s1 & E1 & I1 & (SF & SK & SP) & R).
        unfold k. rewrite E1. exists s1, (rs ++ [Rout OOk]). split; [reflexivity|]. split; [exact I1|].
        split; [congruence|]. split; [apply FB; [congruence|exact FI|discriminate]|]. split; [apply UU; discriminate|].
        intros q qr Hq. destruct (R q qr Hq) as (R1 & R2).
        assert (Iq : In q (c_names c)) by (apply LI; congruence).
        destruct (writable_dec qr prot) as [Wr|Wr].
        -- destruct (p_local qr) eqn:Lc.
           ++ rewrite R1 by auto. apply H_all; auto.
           ++ rewrite R2 by auto. apply H_all_not; auto.
        -- rewrite R2 by auto. apply H_all_not; auto.
    + exists st, (rs ++ [Rval (get c st p)]). split; [reflexivity|]. split; [exact I|]. split; [exact K|].
      split; [apply FB; [reflexivity|exact FI|discriminate]|]. split; [apply UU; discriminate|].
      intros q qr Hq. apply H_get. apply HH. exact Hq.
    + exfalso. apply NB. left. reflexivity.
    + unfold end_update. rewrite K. exists st, (rs ++ [Rout (OErr EState)]).
      split; [reflexivity|]. split; [exact I|]. split; [exact K|].
      split; [apply FB; [reflexivity|exact FI|discriminate]|]. split; [apply UU; discriminate|].
      intros q qr Hq. apply H_end. apply HH. exact Hq.
    + unfold freeze. destruct (s_frozen st) eqn:Fz.
      * exists st, (rs ++ [Rout OIgn]). split; [reflexivity|]. split; [exact I|]. split; [exact K|].
        split; [rewrite Fz; split; [intros _; constructor|reflexivity]|]. split; [apply UU; discriminate|].
        intros q qr Hq. apply H_freeze. apply HH. exact Hq.
      * exists (with_frozen st), (rs ++ [Rout OOk]). split; [reflexivity|]. split; [exact I|]. split; [exact K|].
        split; [split; [intros _; constructor|reflexivity]|]. split; [apply UU; discriminate|].
        intros q qr Hq. apply H_freeze. apply HH. exact Hq.
Qed.

Lemma Holds_fun : forall pr p h u v, Holds pr p h u -> Holds pr p h v -> u = v.
Proof.
  intros pr p h u v A. revert v. induction A; intros w B; inversion B; subst; clear B;
    try reflexivity; try (eauto; fail);
    try (exfalso; match goal with
         | H : ?q <> ?q |- _ => apply H; reflexivity
         | H : Frozen ?h \/ _ |- _ =>
             repeat match goal with
             | H : _ \/ _ |- _ => destruct H
             end; try contradiction; try congruence; eauto
         end; fail).
  - eapply takes_fun; eassumption.
Qed.
