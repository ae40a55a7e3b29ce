(** Properties C28, C29, C30 and C44: the property object. *)
From Coq Require Import ZArith List Bool Lia.
From Verif Require Import Prop_Model Prop_Spec Prop_Proofs Prop_Keep Prop_Last Prop_Quiet Prop_Batch
  Prop_Mirror Prop_Settle.
Import ListNotations.
Local Open Scope Z_scope.

(** * C28 *)

(** Every history of calls outside batches, on an object without listeners:
    reading a property gives what the history says, and the history says one
    thing. *)
Theorem c28_history_partial : forall c h p pr n,
  no_listeners c -> listed c -> no_batches h -> c_prop c p = Some pr ->
  exists st rs u, runs (3 + n) c init (rev h) = Some (st, rs) /\
    get c st p = Some u /\ Holds pr p h u /\ (forall v, Holds pr p h v -> v = u).
Proof.
  intros c h p pr n N L NB Hp.
  destruct (quiet_history n c N L h NB) as (st & rs & E & I & _ & _ & _ & HH).
  exists st, rs, (local_or_default st p pr). split; [exact E|].
  split; [unfold get; rewrite Hp, (I p); reflexivity|]. split; [apply HH; exact Hp|].
  intros v Hv. eapply Holds_fun; [exact Hv|apply HH; exact Hp].
Qed.

(** A refused write answers with an error and changes nothing, whatever the
    listeners are. *)
Theorem c28_refused : forall c st p x prot n,
  s_count st = O ->
  (s_frozen st = true \/ c_prop c p = None \/
   exists pr, c_prop c p = Some pr /\ (~ writable pr prot \/ ~ exists v, takes pr x v)) ->
  exists e, step (1 + n) c st (Set_ prot p x) = Some (st, Rout (OErr e)).
Proof.
  intros c st p x prot n K H. destruct (set_refused n c st p x prot false H) as (e & E).
  exists e. cbn [step]. unfold set_value. rewrite K. cbn [Nat.eqb]. change (1 + n)%nat with (S n). rewrite E. reflexivity.
Qed.

Theorem c28_clear_refused : forall c st p prot n,
  s_count st = O ->
  (s_frozen st = true \/ c_prop c p = None \/ exists pr, c_prop c p = Some pr /\ ~ writable pr prot) ->
  exists e, step (1 + n) c st (Clear prot p) = Some (st, Rout (OErr e)).
Proof.
  intros c st p prot n K H. destruct (clear_refused n c st p prot false H) as (e & E).
  exists e. cbn [step]. unfold clear_value. rewrite K. cbn [Nat.eqb]. change (1 + n)%nat with (S n). rewrite E. reflexivity.
Qed.

(** The stored value lies within the limits: every history, with batches, and
    every listener. *)
Theorem c28_limits : forall c h n st rs p pr z,
  runs n c init h = Some (st, rs) -> c_prop c p = Some pr -> sound_limits pr ->
  s_vals st p = Some z -> within pr z.
Proof.
  intros c h n st rs p pr z E Hp SL Hz.
  destruct (runs_stored _ _ _ _ _ _ (init_stored c) E p pr z Hp Hz) as (x & y & w & _ & _ & _ & _ & ->).
  apply limited_within. exact SL.
Qed.

(** It satisfies the validator when moving a valid value into the limits gives
    a valid value; in particular when there are no limits. *)
Theorem c28_validator_partial : forall c h n st rs p pr z,
  runs n c init h = Some (st, rs) -> c_prop c p = Some pr ->
  (forall w, satisfies pr w -> satisfies pr (limited pr w)) ->
  s_vals st p = Some z -> satisfies pr z.
Proof.
  intros c h n st rs p pr z E Hp SL Hz.
  destruct (runs_stored _ _ _ _ _ _ (init_stored c) E p pr z Hp Hz) as (x & y & w & _ & _ & _ & V & ->).
  apply SL. exact V.
Qed.

Definition bare (d : Z) : prop :=
  {| p_default := d; p_readonly := false; p_local := true; p_items := None; p_coerce := None;
     p_valid := None; p_min := None; p_max := None |}.

Definition one (pr : prop) (l : listener) : cfg :=
  {| c_names := [0%nat]; c_prop := fun p => if Nat.eqb p 0 then Some pr else None;
     c_class := fun _ => None; c_named := fun _ => l; c_any := fun _ => None |}.

(** The limits are applied after the validator: an even number above an odd
    maximum is stored as that odd maximum. *)
Definition even_max9 : prop :=
  {| p_default := 0; p_readonly := false; p_local := true; p_items := None; p_coerce := None;
     p_valid := Some Z.even; p_min := None; p_max := Some 9 |}.

Theorem c28_validator_refuted : exists st rs,
  runs 5 (one even_max9 None) init [Set_ false 0%nat (VInt 20)] = Some (st, rs) /\
  rs = [Rout OOk] /\ s_vals st 0%nat = Some 9 /\ ~ satisfies even_max9 9.
Proof. eexists _, _. split; [vm_compute; reflexivity|]. split; [reflexivity|]. split; [reflexivity|]. discriminate. Qed.

(** A coercer is applied after the check of the selection: the stored value
    need not be one of the items. *)
Definition coerced_items : prop :=
  {| p_default := 0; p_readonly := false; p_local := true; p_items := Some 3%nat;
     p_coerce := Some (fun z => Some (z + 5)); p_valid := None; p_min := None; p_max := None |}.

Theorem c28_selection_refuted : exists st rs,
  runs 5 (one coerced_items None) init [Set_ false 0%nat (VInt 2)] = Some (st, rs) /\
  rs = [Rout OOk] /\ s_vals st 0%nat = Some 7 /\ ~ selectable coerced_items 7.
Proof.
  eexists _, _. split; [vm_compute; reflexivity|]. split; [reflexivity|]. split; [reflexivity|].
  unfold selectable; cbn; lia.
Qed.

(** clearPropertyValues does not clear a property of the object's class. *)
Definition of_class : prop :=
  {| p_default := 1; p_readonly := false; p_local := false; p_items := None; p_coerce := None;
     p_valid := None; p_min := None; p_max := None |}.

Theorem c28_clear_all_refuted : exists st rs,
  runs 5 (one of_class None) init [Set_ false 0%nat (VInt 7); ClearAll false; Get 0%nat] = Some (st, rs) /\
  rs = [Rout OOk; Rout OOk; Rval (Some 7)].
Proof. eexists _, _. split; vm_compute; reflexivity. Qed.

Example c28_history_example :
  let c := one even_max9 None in
  exists st rs, runs 3 c init
    [Set_ false 0%nat (VInt 4); Set_ false 0%nat (VInt 5); Set_ false 0%nat (VText (Some 8)); Set_ false 0%nat (VText None);
     Get 0%nat; Clear false 0%nat; Get 0%nat; Set_ true 0%nat (VInt 2); Freeze; Set_ true 0%nat (VInt 6); Get 0%nat] = Some (st, rs) /\
  rs = [Rout OOk; Rout (OErr EValid); Rout OOk; Rout (OErr EType); Rval (Some 8); Rout OOk; Rval (Some 0);
        Rout OOk; Rout OOk; Rout (OErr EFrozen); Rval (Some 2)].
Proof. eexists _, _. split; vm_compute; reflexivity. Qed.

Example c28_listed_example : no_listeners (one even_max9 None) /\ listed (one even_max9 None).
Proof.
  split; [intro p; repeat split|]. split; [repeat constructor; intros []|].
  intro p. cbn. destruct (Nat.eqb_spec p 0) as [Q|Q]; split; intro H.
  - discriminate.
  - left. symmetry. exact Q.
  - destruct H as [H|[]]. congruence.
  - congruence.
Qed.

(** * C29 *)

(** Inside a batch, whatever the listeners, reads give the values from before,
    and every other call answers with success. *)
Theorem c29_reads : forall c st body d n,
  s_count st = O -> s_frozen st = false -> depth_after 0%nat body = Some d -> ~ In Freeze body ->
  exists st' rs, runs n c st (Begin :: body) = Some (st', Rout OOk :: rs) /\
    (forall p, get c st' p = get c st p) /\
    Forall2 (fun o r => match o with Get p => r = Rval (get c st p) | _ => r = Rout OOk end) body rs.
Proof.
  intros c st body d n K F D NF.
  destruct (batch_body n c body (with_batch st 1 (s_pend st)) O d eq_refl F D NF) as (rs & E & G).
  eexists _, rs. split.
  - cbn [runs step]. unfold begin_update. rewrite F, K. rewrite E. reflexivity.
  - split; [reflexivity|exact G].
Qed.

(** A batch of acceptable calls: when it ends, every property has the value of
    the last write to it. [st] is the state after any history of complete
    batches and single calls. *)
Theorem c29_batch_partial : forall c st body n,
  no_listeners c -> listed c -> idle st -> s_count st = O -> s_pend st = [] -> s_frozen st = false ->
  depth_after 0%nat body = Some O -> Forall (acceptable c) body ->
  exists st' rs, runs (3 + n) c st (Begin :: body ++ [End_]) = Some (st', rs) /\
    (forall r, In r rs -> ~ is_err r) /\
    idle st' /\ s_count st' = O /\ s_pend st' = [] /\
    forall p pr, c_prop c p = Some pr ->
      exists u w, get c st p = Some u /\ get c st' p = Some w /\ Writes pr p body u w.
Proof.
  intros c st body n N L I K P F D A.
  destruct (batch_applies n c st body N L I K P F D A) as (st' & rs & E & G & I1 & K1 & P1 & W).
  exists st', rs. split; [exact E|]. split; [exact G|]. split; [exact I1|]. split; [exact K1|]. split; [exact P1|].
  intros p pr Hp. exists (local_or_default st p pr), (local_or_default st' p pr).
  split; [unfold get; rewrite Hp, (I p); reflexivity|].
  split; [unfold get; rewrite Hp, (I1 p); reflexivity|]. apply W. exact Hp.
Qed.

Definition two (pr : prop) (l : name -> listener) : cfg :=
  {| c_names := [0%nat; 1%nat]; c_prop := fun p => if Nat.leb p 1 then Some pr else None;
     c_class := fun _ => None; c_named := l; c_any := fun _ => None |}.

(** A write which the object would refuse is accepted in a batch; the end of
    the batch fails at it and the writes after it are lost. *)
Theorem c29_refused_refuted : exists st rs,
  runs 5 (two even_max9 (fun _ => None)) init
    [Begin; Set_ false 0%nat (VInt 4); Set_ false 0%nat (VInt 5); Set_ false 1%nat (VInt 6); End_; Get 0%nat; Get 1%nat; End_] = Some (st, rs) /\
  rs = [Rout OOk; Rout OOk; Rout OOk; Rout OOk; Rout (OErr EValid); Rval (Some 4); Rval (Some 0); Rout (OErr EState)].
Proof. eexists _, _. split; vm_compute; reflexivity. Qed.

(** Freezing an object in a batch loses the batch. *)
Theorem c29_frozen_refuted : exists st rs,
  runs 5 (one (bare 0) None) init [Begin; Set_ false 0%nat (VInt 4); Freeze; End_; Get 0%nat] = Some (st, rs) /\
  rs = [Rout OOk; Rout OOk; Rout OOk; Rout (OErr EFrozen); Rval (Some 0)].
Proof. eexists _, _. split; vm_compute; reflexivity. Qed.

Example c29_example : exists st rs,
  runs 3 (two even_max9 (fun _ => None)) init
    [Set_ false 1%nat (VInt 8); Begin; Set_ false 0%nat (VInt 4); Begin; Get 0%nat; Set_ false 0%nat (VInt 6); Clear false 1%nat; End_; Get 0%nat; End_; Get 0%nat; Get 1%nat] = Some (st, rs) /\
  rs = [Rout OOk; Rout OOk; Rout OOk; Rout OOk; Rval (Some 0); Rout OOk; Rout OOk; Rout OOk; Rval (Some 0); Rout OOk; Rval (Some 6); Rval (Some 0)].
Proof. eexists _, _. split; vm_compute; reflexivity. Qed.

Example c29_acceptable_example :
  Forall (acceptable (two even_max9 (fun _ => None))) [Set_ false 0%nat (VInt 4); Begin; Set_ true 1%nat (VInt 6); Clear false 1%nat; End_].
Proof.
  repeat constructor; cbn [acceptable].
  - exists even_max9, 4. split; [reflexivity|]. split; [right; reflexivity|]. exists 4, 4. repeat split.
  - exists even_max9, 6. split; [reflexivity|]. split; [left; reflexivity|]. exists 6, 6. repeat split.
  - exists even_max9. split; [reflexivity|]. right. reflexivity.
Qed.

(** * C30 *)

(** After every history, with any listeners on named properties - they may
    throw, replace the value and write any property - as long as those of the
    class and of "any property" do not throw: no write is left in progress, no
    call was undefined, and reading gives the stored value or the default. *)
Theorem c30_idle_partial : forall c h n st rs,
  outer_never_throw c -> runs n c init h = Some (st, rs) ->
  idle st /\ ~ In (Rout OUb) rs /\
  forall p pr, c_prop c p = Some pr ->
    get c st p = Some (match s_vals st p with Some z => z | None => p_default pr end).
Proof.
  intros c h n st rs N E. destruct (runs_idle c N n h init st rs init_idle E) as (I & U).
  split; [exact I|]. split; [exact U|]. intros p pr Hp. unfold get. rewrite Hp, (I p). reflexivity.
Qed.

(** Listeners that write as they like but neither throw nor replace: the value
    of every property is the one announced last, and no value is announced
    twice in a row. *)
Theorem c30_last_partial : forall c h n st rs p pr,
  all_plain c -> runs n c init h = Some (st, rs) -> c_prop c p = Some pr ->
  get c st p = Some (latest pr (announced p (s_notes st))) /\
  changing (announced p (s_notes st)).
Proof.
  intros c h n st rs p pr N E Hp.
  destruct (runs_last c N n h init st rs init_idle (init_Inv c) E) as (I & J).
  apply Inv_get; assumption.
Qed.

(** A listener that writes [f v] when [v] is announced: if repeating [f] comes
    to a value it does not change, the write returns with that value. *)
Theorem c30_settles_partial : forall c st p pr f k v,
  c_prop c p = Some pr -> p_local pr = true -> p_readonly pr = false ->
  (forall z, takes pr (VInt z) z) ->
  c_named c p = Some (corrector p f) -> c_any c p = None ->
  idle st -> s_count st = O -> s_frozen st = false ->
  get c st p <> Some v -> f (times k f v) = times k f v ->
  exists n st', step n c st (Set_ false p (VInt v)) = Some (st', Rout OOk) /\ idle st' /\
    get c st' p = Some (times k f v).
Proof.
  intros c st p pr f k v Hp Hl Hw Ht Hn Ha I K F G Fx.
  destruct (settles c p pr f Hp Hl Hw Ht Hn Ha k st v F I) as (n & st' & E & I1 & G1).
  - intro X. apply G. unfold get. rewrite Hp, (I p), X. reflexivity.
  - exact Fx.
  - exists n, st'. split; [|split; assumption]. cbn [step]. unfold set_value. rewrite K. cbn [Nat.eqb]. rewrite E. reflexivity.
Qed.

(** A listener of the property that only decides - throws or returns: the
    write takes place if it returns, and otherwise changes nothing. *)
Theorem c30_veto_partial : forall c st p pr z (ok : Z -> bool) n,
  c_prop c p = Some pr -> p_local pr = true -> p_readonly pr = false -> takes pr (VInt z) z ->
  c_named c p = Some (fun e => if ok (e_new e) then PDone else PFail) -> c_any c p = None ->
  idle st -> s_count st = O -> s_frozen st = false -> get c st p <> Some z ->
  exists st' o, step (5 + n) c st (Set_ false p (VInt z)) = Some (st', Rout o) /\ idle st' /\
    (ok z = true -> o = OOk /\ get c st' p = Some z) /\
    (ok z = false -> o = OErr EListener /\ s_vals st' = s_vals st) /\
    (forall q, q <> p -> get c st' q = get c st q).
Proof.
  intros c st p pr z ok n Hp Hl Hw T Hn Ha I K F G.
  assert (D : local_or_default st p pr <> z).
  { intro X. apply G. unfold get. rewrite Hp, (I p), X. reflexivity. }
  cbn [step]. unfold set_value. rewrite K. change (5 + n)%nat with (S (S (S (S (S n))))); cbn [Nat.eqb].
  rewrite set_in_S, F, Hp, Hw. cbn [negb andb]. apply check_spec in T. rewrite T.
  rewrite call_write_S. cbv zeta. unfold register. rewrite (I p).
  set (st1 := with_stk st (put (s_stk st) p (Some {| i_value := Some z; i_level := 1; i_pushed := true |}))).
  assert (S1 : s_stk st1 p = Some {| i_value := Some z; i_level := 1; i_pushed := true |}) by apply put_same.
  assert (B1 : is_base st1 p = true) by (unfold is_base; rewrite S1; reflexivity).
  assert (SW : should_write st1 p pr z = true).
  { unfold should_write. apply negb_true_iff. apply Z.eqb_neq. exact D. }
  rewrite B1, SW. cbn [negb andb]. rewrite Hl, Hn, Ha. rewrite !fire_S. cbn [e_new].
  set (st2 := noted st1 (NEvent p (Some z))).
  assert (U : unregister st2 p = (with_stk st2 (put (s_stk st2) p None), true)).
  { unfold unregister. change (s_stk st2 p) with (s_stk st1 p). rewrite S1. reflexivity. }
  assert (ID : idle (with_stk st2 (put (s_stk st2) p None))).
  { intro q. cbn [with_stk s_stk st2 noted]. destruct (Nat.eq_dec q p) as [Q|Q].
    - subst q. apply put_same.
    - rewrite put_other by exact Q. unfold st1. cbn [with_stk s_stk]. rewrite put_other by exact Q. apply I. }
  destruct (ok z).
  - rewrite run_S, fire_S, U. cbn [arg_is]. rewrite Z.eqb_refl, Z.eqb_refl.
    set (st6 := with_stk st2 (put (s_stk st2) p None)).
    destruct (write_local st6 p pr z) as [s7 b7] eqn:W. pose proof (lod_write _ _ _ _ _ _ W) as L7.
    apply write_local_frame in W. destruct W as (_ & _ & _ & _ & S7 & O7 & _). cbn [fst].
    eexists _, _. split; [reflexivity|]. split; [intro q; cbn [noted s_stk]; rewrite S7; apply ID|].
    assert (I7 : forall q, s_stk s7 q = None) by (intro q; rewrite S7; apply ID).
    split; [intros _; split; [reflexivity|]|].
    + unfold get. cbn [noted s_stk]. rewrite Hp, I7. f_equal. exact L7.
    + split; [discriminate|]. intros q Q. unfold get. cbn [noted s_stk]. rewrite I7, (I q).
      destruct (c_prop c q) as [qr|]; [|reflexivity]. f_equal. apply lod_ext. cbn [noted s_vals]. rewrite (O7 q Q). reflexivity.
  - rewrite run_S, fire_S, U.
    eexists _, _. split; [reflexivity|]. split; [exact ID|]. split; [discriminate|].
    split; [intros _; split; reflexivity|]. intros q Q. unfold get. rewrite (ID q), (I q).
    destruct (c_prop c q) as [qr|]; [|reflexivity]. reflexivity.
Qed.

(** A listener of the property that reads it and replaces the value sees the
    value being written; the replacement goes through the same checks, and if
    it does not pass them the write fails and changes nothing. *)
Theorem c30_replaced_partial : forall c st p pr z (k : option Z -> value) n,
  c_prop c p = Some pr -> p_local pr = true -> p_readonly pr = false -> takes pr (VInt z) z ->
  c_named c p = Some (fun _ => PGet p (fun v => PArg (k v) PDone)) -> c_any c p = None ->
  idle st -> s_count st = O -> s_frozen st = false -> get c st p <> Some z ->
  k (Some z) <> VInt z ->
  exists st' o, step (7 + n) c st (Set_ false p (VInt z)) = Some (st', Rout o) /\ idle st' /\
    (forall w, takes pr (k (Some z)) w -> o = OOk /\ get c st' p = Some w) /\
    ((~ exists w, takes pr (k (Some z)) w) -> (exists e, o = OErr e) /\ s_vals st' = s_vals st) /\
    (forall q, q <> p -> get c st' q = get c st q).
Proof.
  intros c st p pr z k n Hp Hl Hw T Hn Ha I K F G X.
  assert (D : local_or_default st p pr <> z).
  { intro Y. apply G. unfold get. rewrite Hp, (I p), Y. reflexivity. }
  cbn [step]. unfold set_value. rewrite K. change (7 + n)%nat with (S (S (S (S (S (S (S n))))))); cbn [Nat.eqb].
  rewrite set_in_S, F, Hp, Hw. cbn [negb andb]. apply check_spec in T. rewrite T.
  rewrite call_write_S. cbv zeta. unfold register. rewrite (I p).
  set (st1 := with_stk st (put (s_stk st) p (Some {| i_value := Some z; i_level := 1; i_pushed := true |}))).
  assert (S1 : s_stk st1 p = Some {| i_value := Some z; i_level := 1; i_pushed := true |}) by apply put_same.
  assert (B1 : is_base st1 p = true) by (unfold is_base; rewrite S1; reflexivity).
  assert (SW : should_write st1 p pr z = true).
  { unfold should_write. apply negb_true_iff. apply Z.eqb_neq. exact D. }
  rewrite B1, SW. cbn [negb andb]. rewrite Hl, Hn, Ha. rewrite !fire_S.
  set (st2 := noted st1 (NEvent p (Some z))).
  assert (U : unregister st2 p = (with_stk st2 (put (s_stk st2) p None), true)).
  { unfold unregister. change (s_stk st2 p) with (s_stk st1 p). rewrite S1. reflexivity. }
  assert (ID : idle (with_stk st2 (put (s_stk st2) p None))).
  { intro q. cbn [with_stk s_stk st2 noted]. destruct (Nat.eq_dec q p) as [Q|Q].
    - subst q. apply put_same.
    - rewrite put_other by exact Q. unfold st1. cbn [with_stk s_stk]. rewrite put_other by exact Q. apply I. }
  assert (G2 : get c st2 p = Some z).
  { unfold get. rewrite Hp. change (s_stk st2 p) with (s_stk st1 p). rewrite S1. reflexivity. }
  rewrite !run_S, G2. rewrite fire_S, U.
  assert (A : arg_is (k (Some z)) z = false).
  { unfold arg_is. destruct (k (Some z)) as [y|t]; [|reflexivity]. apply Z.eqb_neq. congruence. }
  rewrite A. set (st6 := with_stk st2 (put (s_stk st2) p None)) in *.
  unfold set_direct. change (s_frozen st6) with (s_frozen st). rewrite F.
  destruct (check pr (k (Some z))) as [w|e] eqn:C.
  - destruct (write_local st6 p pr w) as [s7 b7] eqn:W. pose proof (lod_write _ _ _ _ _ _ W) as L7.
    apply write_local_frame in W. destruct W as (_ & _ & _ & _ & S7 & O7 & _).
    assert (I7 : forall q, s_stk s7 q = None) by (intro q; rewrite S7; apply ID).
    assert (Fin : forall st', s_vals st' = s_vals s7 -> s_stk st' = s_stk s7 -> idle st' /\
      (forall w0, takes pr (k (Some z)) w0 -> OOk = OOk /\ get c st' p = Some w0) /\
      ((~ exists w0, takes pr (k (Some z)) w0) -> (exists e, OOk = OErr e) /\ s_vals st' = s_vals st) /\
      (forall q, q <> p -> get c st' q = get c st q)).
    { intros st' V' S'. split; [intro q; rewrite S'; apply I7|]. split; [|split].
      - intros w0 T0. apply check_spec in T0. rewrite C in T0. injection T0 as <-. split; [reflexivity|].
        unfold get. rewrite Hp, S', I7. f_equal. rewrite <- L7. apply lod_ext. rewrite V'. reflexivity.
      - intro N. exfalso. apply N. exists w. apply check_spec. exact C.
      - intros q Q. unfold get. rewrite S', I7, (I q).
        destruct (c_prop c q) as [qr|]; [|reflexivity]. f_equal. apply lod_ext. rewrite V', (O7 q Q). reflexivity. }
    destruct b7.
    + eexists _, _. split; [reflexivity|]. apply Fin; destruct (k (Some z)) as [y|t]; try reflexivity;
        (assert (N : y =? z = false) by (apply Z.eqb_neq; congruence)); rewrite N; reflexivity.
    + eexists _, _. split; [reflexivity|]. apply Fin; reflexivity.
  - eexists _, _. split; [reflexivity|]. split; [exact ID|]. split; [|split].
    + intros w T0. apply check_spec in T0. congruence.
    + intros _. split; [eexists; reflexivity|reflexivity].
    + intros q Q. unfold get. rewrite (ID q), (I q). destruct (c_prop c q) as [qr|]; reflexivity.
Qed.

(** Such a listener that adds one, and one whose replacement is refused. *)
Example c30_replaced_meets : exists st rs,
  runs 12 (one (bare 0) (Some (fun _ => PGet 0%nat (fun v => PArg (match v with Some 5 => VInt 6 | _ => VText None end) PDone)))) init
    [Set_ false 0%nat (VInt 5); Get 0%nat; Set_ false 0%nat (VInt 7); Get 0%nat] = Some (st, rs) /\
  rs = [Rout OOk; Rval (Some 6); Rout (OErr EType); Rval (Some 6)].
Proof. eexists _, _. split; vm_compute; reflexivity. Qed.

(** A listener of "any property" that throws leaves the write in progress: the
    refused value is read back; setting it again answers with success and
    stores nothing, and no listener is told. *)
Definition any_throws : cfg :=
  {| c_names := [0%nat]; c_prop := fun p => if Nat.eqb p 0 then Some (bare 0) else None;
     c_class := fun _ => None; c_named := fun _ => None; c_any := fun _ => Some (fun _ => PFail) |}.

Theorem c30_any_throws_refuted : exists st rs,
  runs 9 any_throws init [Set_ false 0%nat (VInt 5); Get 0%nat; Set_ false 0%nat (VInt 5); Get 0%nat] = Some (st, rs) /\
  rs = [Rout (OErr EListener); Rval (Some 5); Rout OOk; Rval (Some 5)] /\
  s_vals st 0%nat = None /\ length (s_notes st) = 1%nat.
Proof. eexists _, _. split; [vm_compute; reflexivity|]. repeat split. Qed.

(** A write inside a listener that fails in its own turn takes the outer write
    with it: it answers with success and nothing is stored. *)
Definition nested_failure : cfg :=
  one (bare 0) (Some (fun e => if e_new e =? 5 then PSet false 0%nat (VInt 6) (fun _ => PDone) else PFail)).

Theorem c30_nested_failure_refuted : exists st rs,
  runs 20 nested_failure init [Set_ false 0%nat (VInt 5); Get 0%nat] = Some (st, rs) /\
  rs = [Rout OOk; Rval (Some 0)].
Proof. eexists _, _. split; vm_compute; reflexivity. Qed.

(** A listener that clears the property it is told about, when no value was
    stored before, does nothing: the value is stored afterwards. *)
Theorem c30_clear_ignored_refuted : exists st rs,
  runs 20 (one (bare 0) (Some (fun e => if e_clear e then PDone else PClear false 0%nat (fun _ => PDone)))) init
    [Set_ false 0%nat (VInt 5); Get 0%nat; Set_ false 0%nat (VInt 6); Get 0%nat] = Some (st, rs) /\
  rs = [Rout OOk; Rval (Some 5); Rout OOk; Rval (Some 0)].
Proof. eexists _, _. split; vm_compute; reflexivity. Qed.

(** A listener that throws and listeners that write: erasing an entry that is
    not there. *)
Definition ub_cfg : cfg :=
  {| c_names := [0%nat]; c_prop := fun p => if Nat.eqb p 0 then Some (bare 0) else None;
     c_class := fun _ => None;
     c_named := fun _ => Some (fun e =>
       if e_clear e && (e_old e =? 5) then
         PSet false 0%nat (VInt 6) (fun _ => PClear false 0%nat (fun _ => PSet false 0%nat (VInt 7) (fun _ => PDone)))
       else PDone);
     c_any := fun _ => Some (fun e => if e_new e =? 7 then PFail else PDone) |}.

Theorem c30_erase_refuted : exists st rs,
  runs 30 ub_cfg init [Set_ false 0%nat (VInt 5); Clear false 0%nat] = Some (st, rs) /\
  rs = [Rout OOk; Rout OUb].
Proof. eexists _, _. split; vm_compute; reflexivity. Qed.

(** A listener that rounds up to a multiple of ten, and a second property that
    follows the first. *)
Definition follower : cfg :=
  two (bare 0) (fun p => if Nat.eqb p 0
     then Some (fun e => PSet false 0%nat (VInt ((e_new e + 9) / 10 * 10)) (fun _ =>
                  PGet 0%nat (fun v => match v with Some z => PSet true 1%nat (VInt (z + 1)) (fun _ => PDone) | None => PDone end)))
     else None).

Example c30_follower_plain : all_plain follower.
Proof.
  split; [intros p f e H; discriminate|]. split; [|intros p f e H; discriminate].
  intros p f e H. cbn [follower two c_named] in H. destruct (Nat.eqb p 0); [|discriminate].
  injection H as <-. split; cbn; intros _ [v|]; cbn; auto.
Qed.

Example c30_follower_example : exists st rs,
  runs 30 follower init [Set_ false 0%nat (VInt 14); Get 0%nat; Get 1%nat; Set_ false 0%nat (VInt 20); Set_ false 0%nat (VInt 31); Get 0%nat; Get 1%nat] = Some (st, rs) /\
  rs = [Rout OOk; Rval (Some 20); Rval (Some 21); Rout OOk; Rout OOk; Rval (Some 40); Rval (Some 41)] /\
  announced 0%nat (s_notes st) = [Some 40; Some 31; Some 20; Some 14].
Proof. eexists _, _. split; [vm_compute; reflexivity|]. repeat split. Qed.

Example c30_settles_example :
  let f := fun z => (z + 9) / 10 * 10 in
  f (times 1 f 14) = times 1 f 14 /\ times 1 f 14 = 20.
Proof. split; vm_compute; reflexivity. Qed.

Example c30_idle_example : outer_never_throw nested_failure.
Proof. split; intros p f e H; discriminate. Qed.

(** * C44 *)

(** A client that applies the core events to its own copy, outside batches:
    its copy is the value read on the object, whatever the listeners write. *)
Theorem c44_mirror_partial : forall c h n st rs p pr,
  all_keep_args c -> outer_never_throw c -> no_batches h ->
  runs n c init h = Some (st, rs) -> c_prop c p = Some pr ->
  get c st p = Some (mirrored pr p (s_notes st)).
Proof.
  intros c h n st rs p pr A N NB E Hp.
  destruct (c30_idle_partial c h n st rs N E) as (_ & _ & G). rewrite (G p pr Hp). f_equal.
  symmetry. exact (runs_mirror c A n h init st rs NB eq_refl (init_Mir c) E p pr Hp).
Qed.

(** With batches, on an object without listeners, as long as no batch ends in
    an error. *)
Theorem c44_batches_partial : forall c h n st rs p pr,
  no_listeners c -> ~ In Freeze h -> runs (3 + n) c init h = Some (st, rs) ->
  Forall2 (fun o r => o = End_ -> ~ is_err r) h rs -> c_prop c p = Some pr ->
  get c st p = Some (mirrored pr p (s_notes st)).
Proof.
  intros c h n st rs p pr N NF E FA Hp.
  destruct (c30_idle_partial c h _ st rs (quiet_outer c N) E) as (_ & _ & G). rewrite (G p pr Hp). f_equal.
  symmetry. exact (runs_mirror_quiet n c N h init st rs init_idle (init_Mir c) eq_refl NF E FA p pr Hp).
Qed.

(** A batch that ends in an error leaves its first writes in place and sends
    no event. *)
Theorem c44_failed_batch_refuted : exists st rs,
  runs 5 (two even_max9 (fun _ => None)) init
    [Begin; Set_ false 0%nat (VInt 4); Set_ false 0%nat (VInt 5); End_; Get 0%nat] = Some (st, rs) /\
  nth 4 rs (Rout OOk) = Rval (Some 4) /\ mirrored even_max9 0%nat (s_notes st) = 0.
Proof. eexists _, _. split; [vm_compute; reflexivity|]. split; vm_compute; reflexivity. Qed.

(** A listener that writes another property of the batch: the event at the end
    of the batch carries the older value. *)
Definition cross : cfg :=
  two (bare 0) (fun p => if Nat.eqb p 1 then Some (fun _ => PSet false 0%nat (VInt 9) (fun _ => PDone)) else None).

Theorem c44_stale_refuted : exists st rs,
  runs 20 cross init [Begin; Set_ false 0%nat (VInt 4); Set_ false 1%nat (VInt 5); End_; Get 0%nat] = Some (st, rs) /\
  rs = [Rout OOk; Rout OOk; Rout OOk; Rout OOk; Rval (Some 9)] /\ mirrored (bare 0) 0%nat (s_notes st) = 4.
Proof. eexists _, _. split; [vm_compute; reflexivity|]. split; vm_compute; reflexivity. Qed.

(** A listener that replaces the value: the event carries the value before it
    is moved into the limits. *)
Theorem c44_replaced_refuted : exists st rs,
  runs 20 (one even_max9 (Some (fun _ => PArg (VInt 20) PDone))) init [Set_ false 0%nat (VInt 4); Get 0%nat] = Some (st, rs) /\
  rs = [Rout OOk; Rval (Some 9)] /\ mirrored even_max9 0%nat (s_notes st) = 20.
Proof. eexists _, _. split; [vm_compute; reflexivity|]. split; vm_compute; reflexivity. Qed.

Example c44_follower_example : all_keep_args follower /\ outer_never_throw follower.
Proof.
  destruct c30_follower_plain as (A & B & C). split; [split; [|split]|split]; intros p f e H.
  - apply (A p f e H).
  - apply (B p f e H).
  - apply (C p f e H).
  - apply (A p f e H).
  - apply (C p f e H).
Qed.

Print Assumptions c28_history_partial.
Print Assumptions c28_refused.
Print Assumptions c28_clear_refused.
Print Assumptions c28_limits.
Print Assumptions c28_validator_partial.
Print Assumptions c28_validator_refuted.
Print Assumptions c28_selection_refuted.
Print Assumptions c28_clear_all_refuted.
Print Assumptions c29_reads.
Print Assumptions c29_batch_partial.
Print Assumptions c29_refused_refuted.
Print Assumptions c29_frozen_refuted.
Print Assumptions c30_idle_partial.
Print Assumptions c30_last_partial.
Print Assumptions c30_settles_partial.
Print Assumptions c30_veto_partial.
Print Assumptions c30_replaced_partial.
Print Assumptions c30_any_throws_refuted.
Print Assumptions c30_nested_failure_refuted.
Print Assumptions c30_clear_ignored_refuted.
Print Assumptions c30_erase_refuted.
Print Assumptions c44_mirror_partial.
Print Assumptions c44_batches_partial.
Print Assumptions c44_failed_batch_refuted.
Print Assumptions c44_stale_refuted.
Print Assumptions c44_replaced_refuted.
