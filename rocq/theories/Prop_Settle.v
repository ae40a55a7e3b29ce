(** A listener that corrects the value of its own property. *)
From Coq Require Import ZArith List Bool Lia.
From Verif Require Import Prop_Model Prop_Spec Prop_Proofs Prop_Keep Prop_Last Prop_Quiet.
Import ListNotations.
Local Open Scope Z_scope.

Lemma call_write_named : forall n c st p pr z st1 f st4 a,
  register st p (Some z) = Some st1 ->
  (is_base st1 p = true -> local_or_default st1 p pr <> z) ->
  p_local pr = true -> c_named c p = Some f -> c_any c p = None ->
  run n c (noted st1 (NEvent p (Some z))) (f (evt_of st1 p pr (Some z))) (VInt z) = Some (st4, RDone a) ->
  call_write (S (S n)) c st p pr (Some z) =
    (let '(st6, mine) := unregister st4 p in
     if mine then if arg_is a z then Some (st6, OOk, Some (VInt z))
                  else let '(st7, o) := set_direct st6 p pr a in Some (st7, o, Some a)
     else Some (st6, OIgn, Some (VInt z))).
Proof.
  intros n c st p pr z st1 f st4 a R B L N A Rn. rewrite call_write_S. cbv zeta. rewrite R.
  assert (X : is_base st1 p && negb (should_write st1 p pr z) = false).
  { destruct (is_base st1 p); [|reflexivity]. cbn [andb]. unfold should_write.
    rewrite negb_involutive. apply Z.eqb_neq. apply B. reflexivity. }
  rewrite X, L, N, A, !fire_S.
  change {| e_new := z; e_old := local_or_default st1 p pr; e_clear := false |} with (evt_of st1 p pr (Some z)).
  rewrite Rn. reflexivity.
Qed.

Definition Outcome (st st' : state) (p : name) (pr : prop) (u : Z) : Prop :=
  local_or_default st' p pr = u /\ s_frozen st' = s_frozen st /\
  match s_stk st p with
  | None => s_stk st' p = None
  | Some it => exists v b, s_stk st' p = Some {| i_value := v; i_level := i_level it; i_pushed := b |} /\ b = false
  end /\
  (forall q, q <> p -> s_stk st' q = s_stk st q).

Section Corrector.
Variables (c : cfg) (p : name) (pr : prop) (f : Z -> Z).
Hypothesis Hp : c_prop c p = Some pr.
Hypothesis Hl : p_local pr = true.
Hypothesis Hw : p_readonly pr = false.
Hypothesis Ht : forall z, takes pr (VInt z) z.
Hypothesis Hn : c_named c p = Some (corrector p f).
Hypothesis Ha : c_any c p = None.

Lemma set_in_forward : forall n st z, s_frozen st = false ->
  set_in (S n) c st p (VInt z) false false =
  match call_write n c st p pr (Some z) with
  | None => None
  | Some (st1, OErr e, _) => Some (st1, OErr e)
  | Some (st1, OUb, _) => Some (st1, OUb)
  | Some (st1, OIgn, _) => Some (st1, OOk)
  | Some (st1, OOk, nv) =>
      let st2 := match nv with
                 | Some (VInt y) => if y =? z then fst (write_local st1 p pr y) else st1
                 | _ => st1
                 end in
      Some (noted st2 (NChanged p nv), OOk)
  end.
Proof.
  intros n st z F. rewrite set_in_S, F, Hp, Hw. cbn [negb andb].
  pose proof (Ht z) as T. apply check_spec in T. rewrite T. reflexivity.
Qed.

(** The value is announced and the listener asks for the same value again. *)
Lemma settle_fixed : forall st v st1, s_frozen st = false -> Levels st ->
  register st p (Some v) = Some st1 ->
  (is_base st1 p = true -> local_or_default st1 p pr <> v) ->
  f v = v ->
  exists n st', set_in n c st p (VInt v) false false = Some (st', OOk) /\ Outcome st st' p pr v.
Proof.
  intros st v st1 F LV R B Fx. exists 7%nat.
  pose proof (register_frame _ _ _ _ R) as (V1 & F1 & _ & _ & _ & O1 & S1 & _).
  set (st2 := noted st1 (NEvent p (Some v))).
  assert (RN : run 4 c st2 (corrector p f (evt_of st1 p pr (Some v))) (VInt v) = Some (st2, RDone (VInt v))).
  { rewrite run_S. unfold corrector. cbn [e_new evt_of shown_of]. rewrite Fx.
    rewrite set_in_forward by (cbn [st2 noted s_frozen]; congruence).
    rewrite call_write_S. cbv zeta. unfold register. change (s_stk st2 p) with (s_stk st1 p). rewrite S1.
    cbn [i_value same_opt]. rewrite Z.eqb_refl. rewrite run_S. reflexivity. }
  rewrite set_in_forward by exact F.
  rewrite (call_write_named 4 c st p pr v st1 _ st2 (VInt v) R B Hl Hn Ha RN).
  destruct (unregister st2 p) as [st6 mine] eqn:U.
  apply unregister_frame in U. destruct U as (V6 & F6 & _ & _ & _ & O6 & S6).
  destruct (S6 _ S1) as (M6 & D6). cbn [i_pushed] in M6. rewrite M6. cbn [arg_is]. rewrite Z.eqb_refl.
  cbv zeta; repeat rewrite Z.eqb_refl. destruct (write_local st6 p pr v) as [s7 b7] eqn:W.
  pose proof (lod_write _ _ _ _ _ _ W) as L7. apply write_local_frame in W.
  destruct W as (F7 & _ & _ & _ & S7 & _). cbn [fst].
  eexists. split; [reflexivity|]. split; [exact L7|]. split; [cbn [noted s_frozen]; rewrite F7, F6; cbn [st2 noted s_frozen]; exact F1|].
  split; [|intros q Q; cbn [noted s_stk]; rewrite S7, (O6 q Q); apply O1; exact Q].
  cbn [noted s_stk]. rewrite S7. cbn [i_level i_value] in D6. destruct (s_stk st p) as [it|] eqn:E0.
  - specialize (LV p it E0). destruct D6 as [(D6 & _)|(_ & D6)]; [lia|].
    exists (Some v), false. split; [rewrite D6; f_equal; f_equal; lia|reflexivity].
  - destruct D6 as [(_ & D6)|(D6 & _)]; [exact D6|lia].
Qed.

Lemma settle : forall k st v st1, s_frozen st = false -> Levels st ->
  register st p (Some v) = Some st1 ->
  (is_base st1 p = true -> local_or_default st1 p pr <> v) ->
  f (times k f v) = times k f v ->
  exists n st', set_in n c st p (VInt v) false false = Some (st', OOk) /\ Outcome st st' p pr (times k f v).
Proof.
  induction k as [|k IH]; intros st v st1 F LV R B Fx; cbn [times] in *.
  { eapply settle_fixed; eassumption. }
  destruct (Z.eq_dec (f v) v) as [Q|Q].
  { assert (T : times k f (f v) = v).
    { clear - Q. rewrite Q. induction k as [|k IHk]; cbn [times]; [reflexivity|]. rewrite Q. exact IHk. }
    rewrite T. eapply settle_fixed; eassumption. }
  pose proof (register_frame _ _ _ _ R) as (V1 & F1 & _ & _ & _ & O1 & S1 & _).
  pose proof (register_levels _ _ _ _ R LV) as L1.
  set (st2 := noted st1 (NEvent p (Some v))).
  (* the nested write *)
  assert (R2 : exists st3, register st2 p (Some (f v)) = Some st3 /\ is_base st3 p = false).
  { unfold register. change (s_stk st2 p) with (s_stk st1 p). rewrite S1. cbn [i_value same_opt i_level].
    destruct (Z.eqb_spec v (f v)); [congruence|]. eexists. split; [reflexivity|].
    unfold is_base. cbn [with_stk s_stk]. rewrite put_same. cbn [i_level].
    destruct (s_stk st p); reflexivity. }
  destruct R2 as (st3 & R2 & B2).
  assert (F2 : s_frozen st2 = false) by (cbn [st2 noted s_frozen]; congruence).
  destruct (IH st2 (f v) st3 F2 L1 R2) as (n & st4 & E4 & (LD & FF & SK & OT)); [congruence|exact Fx|].
  destruct n as [|n]; [discriminate|].
  exists (S (S (S (S (S n))))).
  assert (RN : run (S (S n)) c st2 (corrector p f (evt_of st1 p pr (Some v))) (VInt v) = Some (st4, RDone (VInt v))).
  { rewrite run_S. unfold corrector. cbn [e_new evt_of shown_of]. rewrite E4, run_S. reflexivity. }
  rewrite set_in_forward by exact F.
  rewrite (call_write_named (S (S n)) c st p pr v st1 _ st4 (VInt v) R B Hl Hn Ha RN).
  change (s_stk st2 p) with (s_stk st1 p) in SK. rewrite S1 in SK. cbn [i_level] in SK.
  destruct SK as (w & b & SK & ->).
  destruct (unregister st4 p) as [st6 mine] eqn:U.
  apply unregister_frame in U. destruct U as (V6 & F6 & _ & _ & _ & O6 & S6).
  destruct (S6 _ SK) as (M6 & D6). cbn [i_pushed] in M6. rewrite M6.
  eexists. split; [reflexivity|]. split; [rewrite <- LD; apply lod_ext; rewrite V6; reflexivity|].
  split; [rewrite F6, FF; exact F1|].
  split.
  - cbn [i_level i_value] in D6. destruct (s_stk st p) as [it|] eqn:E0.
    + specialize (LV p it E0). destruct D6 as [(D6 & _)|(_ & D6)]; [lia|].
      exists w, false. split; [rewrite D6; f_equal; f_equal; lia|reflexivity].
    + destruct D6 as [(_ & D6)|(D6 & _)]; [exact D6|lia].
  - intros q Q'. rewrite (O6 q Q'), (OT q Q'). apply O1. exact Q'.
Qed.

Lemma settles : forall k st v, s_frozen st = false -> idle st ->
  local_or_default st p pr <> v -> f (times k f v) = times k f v ->
  exists n st', set_in n c st p (VInt v) false false = Some (st', OOk) /\ idle st' /\
     get c st' p = Some (times k f v).
Proof.
  intros k st v F I D Fx.
  destruct (register st p (Some v)) as [st1|] eqn:R.
  2:{ unfold register in R. rewrite (I p) in R. discriminate. }
  pose proof (register_frame _ _ _ _ R) as (V1 & _).
  destruct (settle k st v st1 F (idle_levels _ I) R) as (n & st' & E & (L & _ & SK & OT)); [|exact Fx|].
  { intros _. rewrite (lod_ext st st1 p pr) by (rewrite V1; reflexivity). exact D. }
  exists n, st'. split; [exact E|]. rewrite (I p) in SK.
  split.
  - intro q. destruct (Nat.eq_dec q p) as [Q|Q]; [subst q; exact SK|]. rewrite (OT q Q). apply I.
  - unfold get. rewrite Hp, SK, L. reflexivity.
Qed.

End Corrector.
