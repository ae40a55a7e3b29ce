(** Proofs about the property object. *)
From Coq Require Import ZArith List Bool Lia.
From Verif Require Import Prop_Model Prop_Spec.
Import ListNotations.
Local Open Scope Z_scope.

(** * One step of each function *)

Lemma call_write_S : forall (n : nat) (c : cfg) (st : state) (p : name) (pr : prop)
         (v : option Z),
  call_write (S n) c st p pr v =

      let nv := match v with Some z => Some (VInt z) | None => None end in
      match register st p v with
      | None => Some (st, OIgn, nv)
      | Some st1 =>
          if is_base st1 p &&
             match v with Some z => negb (should_write st1 p pr z) | None => false end
          then Some (fst (unregister st1 p), OIgn, nv)
          else
            let old := local_or_default st1 p pr in
            let shown := match v with Some z => z | None => p_default pr end in
            let ev := {| e_new := shown; e_old := old;
                         e_clear := match v with Some _ => false | None => true end |} in
            let st2 := noted st1 (NEvent p v) in
            match (if p_local pr then Some (st2, RDone (VInt shown))
                   else fire n c st2 (c_class c p) ev (VInt shown)) with
            | None => None
            | Some (st3, RUb) => Some (st3, OUb, nv)
            | Some (st3, RFail) => Some (st3, OErr EListener, nv)
            | Some (st3, RDone a1) =>
                match fire n c st3 (c_named c p) ev a1 with
                | None => None
                | Some (st4, RUb) => Some (st4, OUb, nv)
                | Some (st4, r2) =>
                    let a2 := match r2 with RDone a => a | _ => a1 end in
                    match fire n c st4 (c_any c p) ev a2 with
                    | None => None
                    | Some (st5, RUb) => Some (st5, OUb, nv)
                    | Some (st5, RFail) => Some (st5, OErr EListener, nv)
                    | Some (st5, RDone a3) =>
                        let '(st6, mine) := unregister st5 p in
                        match r2 with
                        | RFail => Some (st6, OErr EListener, nv)
                        | _ =>
                            if mine then
                              if match v with
                                 | None => arg_is a3 (p_default pr)
                                 | Some z => arg_is a3 z
                                 end
                              then Some (st6, OOk, nv)
                              else
                                let '(st7, o) := set_direct st6 p pr a3 in
                                Some (st7, o, Some a3)
                            else Some (st6, OIgn, nv)
                        end
                    end
                end
            end
      end.
Proof. reflexivity. Qed.

Lemma fire_S : forall (n : nat) (c : cfg) (st : state) (l : listener) (ev : evt) (a : value),
  fire (S n) c st l ev a =

      match l with
      | None => Some (st, RDone a)
      | Some f => run n c st (f ev) a
      end.
Proof. reflexivity. Qed.

Lemma run_S : forall (n : nat) (c : cfg) (st : state) (g : prog) (a : value),
  run (S n) c st g a =

      match g with
      | PDone => Some (st, RDone a)
      | PFail => Some (st, RFail)
      | PArg x k => run n c st k x
      | PGet p k => run n c st (k (get c st p)) a
      | PSet prot p x k =>
          match set_in n c st p x prot false with
          | None => None
          | Some (st1, OUb) => Some (st1, RUb)
          | Some (st1, o) => run n c st1 (k o) a
          end
      | PClear prot p k =>
          match clear_in n c st p prot false with
          | None => None
          | Some (st1, OUb) => Some (st1, RUb)
          | Some (st1, o) => run n c st1 (k o) a
          end
      end.
Proof. reflexivity. Qed.

Lemma set_in_S : forall (n : nat) (c : cfg) (st : state) (p : name) (x : value)
            (prot updating : bool),
  set_in (S n) c st p x prot updating =

      if s_frozen st then Some (st, OErr EFrozen)
      else match c_prop c p with
      | None => Some (st, OErr ENotFound)
      | Some pr =>
          if negb prot && p_readonly pr then Some (st, OErr EDenied)
          else match check pr x with
          | CErr e => Some (st, OErr e)
          | CVal z =>
              match call_write n c st p pr (Some z) with
              | None => None
              | Some (st1, OErr e, _) => Some (st1, OErr e)
              | Some (st1, OUb, _) => Some (st1, OUb)
              | Some (st1, OIgn, _) => Some (st1, OOk)
              | Some (st1, OOk, nv) =>
                  let st2 := match nv with
                             | Some (VInt y) => if y =? z then fst (write_local st1 p pr y) else st1
                             | _ => st1
                             end in
                  Some (if updating then st2 else noted st2 (NChanged p nv), OOk)
              end
          end
      end.
Proof. reflexivity. Qed.

Lemma clear_in_S : forall (n : nat) (c : cfg) (st : state) (p : name)
              (prot updating : bool),
  clear_in (S n) c st p prot updating =

      if s_frozen st then Some (st, OErr EFrozen)
      else match c_prop c p with
      | None => Some (st, OErr ENotFound)
      | Some pr =>
          if negb prot && p_readonly pr then Some (st, OErr EDenied)
          else match s_vals st p with
          | None => Some (st, OIgn)
          | Some _ =>
              match call_write n c st p pr None with
              | None => None
              | Some (st1, OErr e, _) => Some (st1, OErr e)
              | Some (st1, OUb, _) => Some (st1, OUb)
              | Some (st1, OIgn, _) => Some (st1, OOk)
              | Some (st1, OOk, nv) =>
                  match nv, s_vals st1 p with
                  | None, None => Some (st1, OUb)
                  | _, _ =>
                      let st2 := match nv with
                                 | None => with_vals st1 (put (s_vals st1) p None)
                                 | Some _ => st1
                                 end in
                      Some (if updating then st2 else noted st2 (NChanged p nv), OOk)
                  end
              end
          end
      end.
Proof. reflexivity. Qed.

(** * Small facts *)

Lemma put_same : forall A (f : name -> A) p a, put f p a p = a.
Proof. intros. unfold put. rewrite Nat.eqb_refl. reflexivity. Qed.

Lemma put_other : forall A (f : name -> A) p q a, q <> p -> put f p a q = f q.
Proof. intros. unfold put. destruct (Nat.eqb_spec q p); [contradiction|reflexivity]. Qed.

Lemma same_opt_true : forall a b, same_opt a b = true -> a = b.
Proof.
  intros [x|] [y|] H; cbn in H; try discriminate; try reflexivity.
  apply Z.eqb_eq in H. congruence.
Qed.

Lemma same_opt_false : forall a b, same_opt a b = false -> a <> b.
Proof.
  intros [x|] [y|] H E; cbn in H; try discriminate.
  apply Z.eqb_neq in H. congruence.
Qed.

Lemma check_spec : forall pr x v, check pr x = CVal v <-> takes pr x v.
Proof.
  intros pr x v. unfold takes.
  assert (L : forall w, limited pr w = coerce_max (p_max pr) (coerce_min (p_min pr) w)).
  { intro w. unfold limited, coerce_max, coerce_min.
    destruct (p_min pr) as [a|], (p_max pr) as [b|]; try reflexivity.
    - destruct (Z.ltb_spec w a); destruct (Z.ltb_spec b (Z.max a w));
        destruct (Z.ltb_spec b a); destruct (Z.ltb_spec b w); lia.
    - destruct (Z.ltb_spec w a); lia.
    - destruct (Z.ltb_spec b w); lia. }
  assert (I : forall z, in_items (p_items pr) z = true <-> selectable pr z).
  { intro z. unfold in_items, selectable. destruct (p_items pr); [|tauto].
    rewrite andb_true_iff, Z.leb_le, Z.ltb_lt. tauto. }
  unfold check, reads_as, coerced, satisfies, convert.
  split.
  - intro H. destruct (match x with VInt z => Some z | VText o => o end) as [z|] eqn:E; [|discriminate].
    destruct (in_items (p_items pr) z) eqn:S; [|discriminate].
    destruct (match p_coerce pr with Some f => f z | None => Some z end) as [w|] eqn:C; [|discriminate].
    exists z, w. split; [reflexivity|]. split; [apply I; exact S|]. split; [exact C|].
    destruct (p_valid pr) as [f|].
    + destruct (f w) eqn:V; [|discriminate]. split; [reflexivity|]. rewrite L. congruence.
    + split; [exact Logic.I|]. rewrite L. congruence.
  - intros (z & w & E & S & C & V & ->). rewrite E. apply I in S. rewrite S, C, L.
    destruct (p_valid pr) as [f|]; [rewrite V|]; reflexivity.
Qed.

Lemma takes_fun : forall pr x v w, takes pr x v -> takes pr x w -> v = w.
Proof. intros pr x v w A B. apply check_spec in A. apply check_spec in B. congruence. Qed.

Lemma check_err : forall pr x e, check pr x = CErr e -> ~ exists v, takes pr x v.
Proof. intros pr x e H (v & T). apply check_spec in T. congruence. Qed.

Lemma limited_within : forall pr w, sound_limits pr -> within pr (limited pr w).
Proof.
  intros pr w. unfold sound_limits, within, limited.
  destruct (p_min pr), (p_max pr); lia.
Qed.

(** ** The update stack *)

Lemma register_frame : forall st p v st1, register st p v = Some st1 ->
  s_vals st1 = s_vals st /\ s_frozen st1 = s_frozen st /\ s_count st1 = s_count st /\
  s_pend st1 = s_pend st /\ s_notes st1 = s_notes st /\
  (forall q, q <> p -> s_stk st1 q = s_stk st q) /\
  s_stk st1 p = Some {| i_value := v;
     i_level := match s_stk st p with None => 1%nat | Some it => S (i_level it) end;
     i_pushed := true |} /\
  (forall it, s_stk st p = Some it -> i_value it <> v).
Proof.
  intros st p v st1 H. unfold register in H.
  destruct (s_stk st p) as [it|] eqn:E.
  - destruct (same_opt (i_value it) v) eqn:S; [discriminate|]. injection H as <-.
    cbn [with_stk s_vals s_frozen s_count s_pend s_notes s_stk].
    do 5 (split; [reflexivity|]). split; [intros; apply put_other; assumption|].
    split; [apply put_same|]. intros it0 E0. injection E0 as <-. apply same_opt_false. exact S.
  - injection H as <-.
    cbn [with_stk s_vals s_frozen s_count s_pend s_notes s_stk].
    do 5 (split; [reflexivity|]). split; [intros; apply put_other; assumption|].
    split; [apply put_same|]. discriminate.
Qed.

Lemma unregister_frame : forall st p st1 b, unregister st p = (st1, b) ->
  s_vals st1 = s_vals st /\ s_frozen st1 = s_frozen st /\ s_count st1 = s_count st /\
  s_pend st1 = s_pend st /\ s_notes st1 = s_notes st /\
  (forall q, q <> p -> s_stk st1 q = s_stk st q) /\
  (forall it, s_stk st p = Some it ->
     b = i_pushed it /\
     ((i_level it <= 1)%nat /\ s_stk st1 p = None \/
      (1 < i_level it)%nat /\
      s_stk st1 p = Some {| i_value := i_value it; i_level := i_level it - 1; i_pushed := false |})).
Proof.
  intros st p st1 b H. unfold unregister in H. destruct (s_stk st p) as [it|] eqn:E.
  - injection H as <- <-.
    cbn [with_stk s_vals s_frozen s_count s_pend s_notes s_stk].
    do 5 (split; [reflexivity|]). split; [intros; apply put_other; assumption|].
    intros it0 E0. injection E0 as <-. split; [reflexivity|]. rewrite put_same.
    destruct (Nat.leb_spec (i_level it) 1); [left|right]; auto.
  - injection H as <- <-. do 5 (split; [reflexivity|]). split; [reflexivity|]. discriminate.
Qed.

Lemma write_local_frame : forall st p pr z st1 b, write_local st p pr z = (st1, b) ->
  s_frozen st1 = s_frozen st /\ s_count st1 = s_count st /\ s_pend st1 = s_pend st /\
  s_notes st1 = s_notes st /\ s_stk st1 = s_stk st /\
  (forall q, q <> p -> s_vals st1 q = s_vals st q) /\
  match s_vals st1 p with Some y => y = z | None => p_default pr = z end /\
  (b = false -> st1 = st) /\
  (s_vals st1 p = s_vals st p \/ s_vals st1 p = Some z).
Proof.
  intros st p pr z st1 b H. unfold write_local in H.
  destruct (s_vals st p) as [y|] eqn:E.
  - destruct (Z.eqb_spec y z) as [Q|Q]; injection H as <- <-.
    + rewrite E. do 5 (split; [reflexivity|]). split; [reflexivity|]. split; [exact Q|].
      split; [reflexivity|]. left. reflexivity.
    + cbn [with_vals s_vals s_frozen s_count s_pend s_notes s_stk].
      do 5 (split; [reflexivity|]). split; [intros; apply put_other; assumption|].
      rewrite put_same. split; [reflexivity|]. split; [discriminate|]. right. reflexivity.
  - destruct (Z.eqb_spec (p_default pr) z) as [Q|Q]; injection H as <- <-.
    + rewrite E. do 5 (split; [reflexivity|]). split; [reflexivity|]. split; [exact Q|].
      split; [reflexivity|]. left. reflexivity.
    + cbn [with_vals s_vals s_frozen s_count s_pend s_notes s_stk].
      do 5 (split; [reflexivity|]). split; [intros; apply put_other; assumption|].
      rewrite put_same. split; [reflexivity|]. split; [discriminate|]. right. reflexivity.
Qed.

(** ** What a call of callPropertyValueWrite can do *)

Definition nv_of (v : option Z) : option value :=
  match v with Some z => Some (VInt z) | None => None end.
Definition shown_of (pr : prop) (v : option Z) : Z :=
  match v with Some z => z | None => p_default pr end.
Definition evt_of (st : state) (p : name) (pr : prop) (v : option Z) : evt :=
  {| e_new := shown_of pr v; e_old := local_or_default st p pr;
     e_clear := match v with Some _ => false | None => true end |}.
Definition class_step (n : nat) (c : cfg) (st : state) (p : name) (pr : prop) (ev : evt) (a : value) :=
  if p_local pr then Some (st, RDone a) else fire n c st (c_class c p) ev a.

Inductive Ended (n : nat) (c : cfg) (p : name) (pr : prop) (v : option Z) (st1 : state)
  : state -> out -> option value -> Prop :=
| En_ub_class : forall st3, class_step n c (noted st1 (NEvent p v)) p pr (evt_of st1 p pr v) (VInt (shown_of pr v)) = Some (st3, RUb) ->
    Ended n c p pr v st1 st3 OUb (nv_of v)
| En_fail_class : forall st3, class_step n c (noted st1 (NEvent p v)) p pr (evt_of st1 p pr v) (VInt (shown_of pr v)) = Some (st3, RFail) ->
    Ended n c p pr v st1 st3 (OErr EListener) (nv_of v)
| En_ub_named : forall st3 a1 st4,
    class_step n c (noted st1 (NEvent p v)) p pr (evt_of st1 p pr v) (VInt (shown_of pr v)) = Some (st3, RDone a1) ->
    fire n c st3 (c_named c p) (evt_of st1 p pr v) a1 = Some (st4, RUb) ->
    Ended n c p pr v st1 st4 OUb (nv_of v)
| En_any : forall st3 a1 st4 r2 st5 r3,
    class_step n c (noted st1 (NEvent p v)) p pr (evt_of st1 p pr v) (VInt (shown_of pr v)) = Some (st3, RDone a1) ->
    fire n c st3 (c_named c p) (evt_of st1 p pr v) a1 = Some (st4, r2) ->
    r2 <> RUb ->
    fire n c st4 (c_any c p) (evt_of st1 p pr v) (match r2 with RDone a => a | _ => a1 end) = Some (st5, r3) ->
    (r3 = RUb \/ r3 = RFail) ->
    Ended n c p pr v st1 st5 (match r3 with RUb => OUb | _ => OErr EListener end) (nv_of v)
| En_failed : forall st3 a1 st4 st5 a3 st6 b,
    class_step n c (noted st1 (NEvent p v)) p pr (evt_of st1 p pr v) (VInt (shown_of pr v)) = Some (st3, RDone a1) ->
    fire n c st3 (c_named c p) (evt_of st1 p pr v) a1 = Some (st4, RFail) ->
    fire n c st4 (c_any c p) (evt_of st1 p pr v) a1 = Some (st5, RDone a3) ->
    unregister st5 p = (st6, b) ->
    Ended n c p pr v st1 st6 (OErr EListener) (nv_of v)
| En_lost : forall st3 a1 st4 a2 st5 a3 st6,
    class_step n c (noted st1 (NEvent p v)) p pr (evt_of st1 p pr v) (VInt (shown_of pr v)) = Some (st3, RDone a1) ->
    fire n c st3 (c_named c p) (evt_of st1 p pr v) a1 = Some (st4, RDone a2) ->
    fire n c st4 (c_any c p) (evt_of st1 p pr v) a2 = Some (st5, RDone a3) ->
    unregister st5 p = (st6, false) ->
    Ended n c p pr v st1 st6 OIgn (nv_of v)
| En_same : forall st3 a1 st4 a2 st5 a3 st6,
    class_step n c (noted st1 (NEvent p v)) p pr (evt_of st1 p pr v) (VInt (shown_of pr v)) = Some (st3, RDone a1) ->
    fire n c st3 (c_named c p) (evt_of st1 p pr v) a1 = Some (st4, RDone a2) ->
    fire n c st4 (c_any c p) (evt_of st1 p pr v) a2 = Some (st5, RDone a3) ->
    unregister st5 p = (st6, true) ->
    arg_is a3 (shown_of pr v) = true ->
    Ended n c p pr v st1 st6 OOk (nv_of v)
| En_replaced : forall st3 a1 st4 a2 st5 a3 st6 st7 o,
    class_step n c (noted st1 (NEvent p v)) p pr (evt_of st1 p pr v) (VInt (shown_of pr v)) = Some (st3, RDone a1) ->
    fire n c st3 (c_named c p) (evt_of st1 p pr v) a1 = Some (st4, RDone a2) ->
    fire n c st4 (c_any c p) (evt_of st1 p pr v) a2 = Some (st5, RDone a3) ->
    unregister st5 p = (st6, true) ->
    arg_is a3 (shown_of pr v) = false ->
    set_direct st6 p pr a3 = (st7, o) ->
    Ended n c p pr v st1 st7 o (Some a3).

Lemma call_write_cases : forall n c st p pr v st' o nv,
  call_write (S n) c st p pr v = Some (st', o, nv) ->
  (register st p v = None /\ st' = st /\ o = OIgn /\ nv = nv_of v) \/
  (exists st1 z, register st p v = Some st1 /\ is_base st1 p = true /\ v = Some z /\
     local_or_default st1 p pr = z /\ st' = fst (unregister st1 p) /\ o = OIgn /\ nv = nv_of v) \/
  (exists st1, register st p v = Some st1 /\
     (is_base st1 p = true -> forall z, v = Some z -> local_or_default st1 p pr <> z) /\
     Ended n c p pr v st1 st' o nv).
Proof.
  intros n c st p pr v st' o nv H. rewrite call_write_S in H. cbv zeta in H.
  destruct (register st p v) as [st1|] eqn:R.
  2:{ left. injection H as <- <- <-. repeat split; reflexivity. }
  right.
  destruct (is_base st1 p && match v with Some z => negb (should_write st1 p pr z) | None => false end) eqn:B.
  { left. apply andb_true_iff in B. destruct B as [B1 B2]. destruct v as [z|]; [|discriminate].
    exists st1, z. unfold should_write in B2. rewrite negb_involutive in B2. apply Z.eqb_eq in B2.
    injection H as <- <- <-. repeat split; auto. }
  right. exists st1. split; [reflexivity|]. split.
  { intros B1 z Ev. rewrite B1, Ev in B. cbn [andb] in B. unfold should_write in B.
    rewrite negb_involutive in B. apply Z.eqb_neq in B. exact B. }
  change (match v with Some z => Some (VInt z) | None => None end) with (nv_of v) in H.
  change (match v with Some z => z | None => p_default pr end) with (shown_of pr v) in H.
  change {| e_new := shown_of pr v; e_old := local_or_default st1 p pr;
            e_clear := match v with Some _ => false | None => true end |} with (evt_of st1 p pr v) in H.
  change (if p_local pr then Some (noted st1 (NEvent p v), RDone (VInt (shown_of pr v)))
          else fire n c (noted st1 (NEvent p v)) (c_class c p) (evt_of st1 p pr v) (VInt (shown_of pr v)))
    with (class_step n c (noted st1 (NEvent p v)) p pr (evt_of st1 p pr v) (VInt (shown_of pr v))) in H.
  destruct (class_step n c (noted st1 (NEvent p v)) p pr (evt_of st1 p pr v) (VInt (shown_of pr v)))
    as [[st3 [a1| |]]|] eqn:C; try discriminate.
  2:{ injection H as <- <- <-. eapply En_fail_class. exact C. }
  2:{ injection H as <- <- <-. eapply En_ub_class. exact C. }
  destruct (fire n c st3 (c_named c p) (evt_of st1 p pr v) a1) as [[st4 r2]|] eqn:N; try discriminate.
  destruct r2 as [a2| |].
  3:{ injection H as <- <- <-. eapply En_ub_named; eassumption. }
  - destruct (fire n c st4 (c_any c p) (evt_of st1 p pr v) a2) as [[st5 r3]|] eqn:A; try discriminate.
    destruct r3 as [a3| |].
    2:{ injection H as <- <- <-. change (OErr EListener) with (match RFail with RUb => OUb | _ => OErr EListener end).
        eapply En_any; [exact C|exact N|discriminate|exact A|right; reflexivity]. }
    2:{ injection H as <- <- <-. change OUb with (match RUb with RUb => OUb | _ => OErr EListener end).
        eapply En_any; [exact C|exact N|discriminate|exact A|left; reflexivity]. }
    destruct (unregister st5 p) as [st6 b] eqn:U. destruct b.
    2:{ injection H as <- <- <-. eapply En_lost; eassumption. }
    replace (match v with Some z => arg_is a3 z | None => arg_is a3 (p_default pr) end)
      with (arg_is a3 (shown_of pr v)) in H by (destruct v; reflexivity).
    destruct (arg_is a3 (shown_of pr v)) eqn:G.
    + injection H as <- <- <-. eapply En_same; eassumption.
    + destruct (set_direct st6 p pr a3) as [st7 o7] eqn:D. injection H as <- <- <-.
      eapply En_replaced; eassumption.
  - destruct (fire n c st4 (c_any c p) (evt_of st1 p pr v) a1) as [[st5 r3]|] eqn:A; try discriminate.
    destruct r3 as [a3| |].
    2:{ injection H as <- <- <-. change (OErr EListener) with (match RFail with RUb => OUb | _ => OErr EListener end).
        eapply En_any; [exact C|exact N|discriminate|exact A|right; reflexivity]. }
    2:{ injection H as <- <- <-. change OUb with (match RUb with RUb => OUb | _ => OErr EListener end).
        eapply En_any; [exact C|exact N|discriminate|exact A|left; reflexivity]. }
    destruct (unregister st5 p) as [st6 b] eqn:U.
    injection H as <- <- <-. eapply En_failed; eassumption.
Qed.

(** * A relation that the elementary changes respect is respected by all *)

Record Prims (c : cfg) (R : state -> state -> Prop) : Prop := {
  pr_refl : forall st, R st st;
  pr_trans : forall a b d, R a b -> R b d -> R a d;
  pr_reg : forall st p v st1, register st p v = Some st1 -> R st st1;
  pr_unreg : forall st p, R st (fst (unregister st p));
  pr_note : forall st x, R st (noted st x);
  pr_write : forall st p pr x z, c_prop c p = Some pr -> takes pr x z ->
     R st (fst (write_local st p pr z));
  pr_erase : forall st p pr, c_prop c p = Some pr -> R st (with_vals st (put (s_vals st) p None)) }.

Lemma set_direct_prims : forall c R, Prims c R -> forall st p pr x st' o,
  c_prop c p = Some pr -> set_direct st p pr x = (st', o) -> R st st'.
Proof.
  intros c R P st p pr x st' o Hp H. unfold set_direct in H.
  destruct (s_frozen st). { injection H as <- <-. apply (pr_refl c R P). }
  destruct (check pr x) as [z|e] eqn:C.
  2:{ injection H as <- <-. apply (pr_refl c R P). }
  pose proof (pr_write c R P st p pr x z Hp (proj1 (check_spec pr x z) C)) as W.
  destruct (write_local st p pr z) as [s w]. injection H as <- <-. exact W.
Qed.

Theorem all_prims : forall c R, Prims c R -> forall n,
  (forall st p pr v st' o nv, c_prop c p = Some pr ->
     call_write n c st p pr v = Some (st', o, nv) -> R st st') /\
  (forall st l ev a st' r, fire n c st l ev a = Some (st', r) -> R st st') /\
  (forall st g a st' r, run n c st g a = Some (st', r) -> R st st') /\
  (forall st p x prot u st' o, set_in n c st p x prot u = Some (st', o) -> R st st') /\
  (forall st p prot u st' o, clear_in n c st p prot u = Some (st', o) -> R st st').
Proof.
  intros c R P.
  assert (Refl := pr_refl c R P). assert (Tr := pr_trans c R P).
  induction n as [|n (IHc & IHf & IHr & IHs & IHk)].
  { split; [|split; [|split; [|split]]]; intros; discriminate. }
  split; [|split; [|split; [|split]]].
  - intros st p pr v st' o nv Hp H. apply call_write_cases in H.
    destruct H as [(_ & -> & _)|[(st1 & z & Rg & _ & _ & _ & -> & _)|(st1 & Rg & _ & E)]].
    + apply Refl.
    + eapply Tr; [eapply (pr_reg c R P); exact Rg|apply (pr_unreg c R P)].
    + apply Tr with (noted st1 (NEvent p v)).
      { eapply Tr; [eapply (pr_reg c R P); exact Rg|apply (pr_note c R P)]. }
      assert (CS : forall s r, class_step n c (noted st1 (NEvent p v)) p pr (evt_of st1 p pr v) (VInt (shown_of pr v)) = Some (s, r) ->
               R (noted st1 (NEvent p v)) s).
      { intros s r Hc. unfold class_step in Hc. destruct (p_local pr).
        - injection Hc as <- <-. apply Refl.
        - eapply IHf. exact Hc. }
      assert (UN : forall s s' b, unregister s p = (s', b) -> R s s').
      { intros s s' b U. pose proof (pr_unreg c R P s p) as X. rewrite U in X. exact X. }
      destruct E as [st3 C|st3 C|st3 a1 st4 C N|st3 a1 st4 r2 st5 r3 C N _ A _|st3 a1 st4 st5 a3 st6 b C N A U
                    |st3 a1 st4 a2 st5 a3 st6 C N A U|st3 a1 st4 a2 st5 a3 st6 C N A U _
                    |st3 a1 st4 a2 st5 a3 st6 st7 o C N A U _ D].
      * eapply CS; exact C.
      * eapply CS; exact C.
      * eapply Tr; [eapply CS; exact C|eapply IHf; exact N].
      * eapply Tr; [eapply CS; exact C|]. eapply Tr; [eapply IHf; exact N|eapply IHf; exact A].
      * eapply Tr; [eapply CS; exact C|]. eapply Tr; [eapply IHf; exact N|].
        eapply Tr; [eapply IHf; exact A|eapply UN; exact U].
      * eapply Tr; [eapply CS; exact C|]. eapply Tr; [eapply IHf; exact N|].
        eapply Tr; [eapply IHf; exact A|eapply UN; exact U].
      * eapply Tr; [eapply CS; exact C|]. eapply Tr; [eapply IHf; exact N|].
        eapply Tr; [eapply IHf; exact A|eapply UN; exact U].
      * eapply Tr; [eapply CS; exact C|]. eapply Tr; [eapply IHf; exact N|].
        eapply Tr; [eapply IHf; exact A|]. eapply Tr; [eapply UN; exact U|].
        eapply set_direct_prims; eassumption.
  - intros st l ev a st' r H. rewrite fire_S in H. destruct l as [f|].
    + eapply IHr. exact H.
    + injection H as <- <-. apply Refl.
  - intros st g a st' r H. rewrite run_S in H. destruct g as [| |x k|p k|prot p x k|prot p k].
    + injection H as <- <-. apply Refl.
    + injection H as <- <-. apply Refl.
    + eapply IHr. exact H.
    + eapply IHr. exact H.
    + destruct (set_in n c st p x prot false) as [[st1 o]|] eqn:S; [|discriminate].
      pose proof (IHs _ _ _ _ _ _ _ S) as R1.
      destruct o; try (eapply Tr; [exact R1|eapply IHr; exact H]).
      injection H as <- <-. exact R1.
    + destruct (clear_in n c st p prot false) as [[st1 o]|] eqn:S; [|discriminate].
      pose proof (IHk _ _ _ _ _ _ S) as R1.
      destruct o; try (eapply Tr; [exact R1|eapply IHr; exact H]).
      injection H as <- <-. exact R1.
  - intros st p x prot u st' o H. rewrite set_in_S in H.
    destruct (s_frozen st). { injection H as <- <-. apply Refl. }
    destruct (c_prop c p) as [pr|] eqn:Hp. 2:{ injection H as <- <-. apply Refl. }
    destruct (negb prot && p_readonly pr). { injection H as <- <-. apply Refl. }
    destruct (check pr x) as [z|e] eqn:C. 2:{ injection H as <- <-. apply Refl. }
    destruct (call_write n c st p pr (Some z)) as [[[st1 o1] nv]|] eqn:W; [|discriminate].
    pose proof (IHc _ _ _ _ _ _ _ Hp W) as R1.
    destruct o1; try (injection H as <- <-; exact R1).
    injection H as <- <-. eapply Tr; [exact R1|].
    assert (R2 : R st1 match nv with
                       | Some (VInt y) => if y =? z then fst (write_local st1 p pr y) else st1
                       | _ => st1 end).
    { destruct nv as [[y|t]|]; try apply Refl. destruct (Z.eqb_spec y z) as [Q|Q]; [|apply Refl].
      eapply (pr_write c R P); [exact Hp|]. apply check_spec. rewrite Q. exact C. }
    destruct u; [exact R2|]. eapply Tr; [exact R2|apply (pr_note c R P)].
  - intros st p prot u st' o H. rewrite clear_in_S in H.
    destruct (s_frozen st). { injection H as <- <-. apply Refl. }
    destruct (c_prop c p) as [pr|] eqn:Hp. 2:{ injection H as <- <-. apply Refl. }
    destruct (negb prot && p_readonly pr). { injection H as <- <-. apply Refl. }
    destruct (s_vals st p) as [z|]. 2:{ injection H as <- <-. apply Refl. }
    destruct (call_write n c st p pr None) as [[[st1 o1] nv]|] eqn:W; [|discriminate].
    pose proof (IHc _ _ _ _ _ _ _ Hp W) as R1.
    destruct o1; try (injection H as <- <-; exact R1).
    destruct nv as [a|].
    + injection H as <- <-. destruct u; [exact R1|]. eapply Tr; [exact R1|apply (pr_note c R P)].
    + destruct (s_vals st1 p) as [z1|].
      * injection H as <- <-. eapply Tr; [exact R1|].
        pose proof (pr_erase c R P st1 p pr Hp) as R2.
        destruct u; [exact R2|]. eapply Tr; [exact R2|apply (pr_note c R P)].
      * injection H as <- <-. exact R1.
Qed.

(** The same for the calls of the interface that do not touch batches. *)
Lemma clear_each_prims : forall c R, Prims c R -> forall n prot l st st' o,
  s_count st = O -> (forall a b, R a b -> s_count a = s_count b) ->
  clear_each n c st prot l = Some (st', o) -> R st st'.
Proof.
  intros c R P n prot l. induction l as [|p l IH]; intros st st' o K RC H; cbn [clear_each] in H.
  { injection H as <- <-. apply (pr_refl c R P). }
  destruct (c_prop c p) as [pr|]; [|eapply IH; eassumption].
  destruct ((negb prot && p_readonly pr) || negb (p_local pr)); [eapply IH; eassumption|].
  unfold clear_value in H. rewrite K in H. cbn [Nat.eqb] in H.
  destruct (clear_in n c st p prot false) as [[st1 o1]|] eqn:E; [|discriminate].
  destruct (all_prims c R P n) as (_ & _ & _ & _ & IHk).
  pose proof (IHk _ _ _ _ _ _ E) as R1.
  assert (K1 : s_count st1 = O) by (rewrite <- (RC _ _ R1); exact K).
  destruct o1; try (injection H as <- <-; exact R1);
    (eapply (pr_trans c R P); [exact R1|eapply IH; eassumption]).
Qed.

Lemma apply_each_prims : forall c R, Prims c R -> forall n l acc st st' o,
  apply_each n c st l acc = Some (st', o) -> R st st'.
Proof.
  intros c R P n l. destruct (all_prims c R P n) as (_ & _ & _ & IHs & IHk).
  induction l as [|a l IH]; intros acc st st' o H; cbn [apply_each] in H.
  { injection H as <- <-. destruct acc; [apply (pr_refl c R P)|apply (pr_note c R P)]. }
  destruct (if a_set a then set_in n c st (a_name a) (a_value a) (a_prot a) true
            else clear_in n c st (a_name a) (a_prot a) true) as [[st1 o1]|] eqn:E; [|discriminate].
  assert (R1 : R st st1) by (destruct (a_set a); [eapply IHs|eapply IHk]; exact E).
  destruct o1; try (injection H as <- <-; exact R1);
    (eapply (pr_trans c R P); [exact R1|eapply IH; eassumption]).
Qed.

(** ** The frame: what no call below the interface changes *)

Definition Same (a b : state) : Prop :=
  s_frozen a = s_frozen b /\ s_count a = s_count b /\ s_pend a = s_pend b.

Lemma Same_prims : forall c, Prims c Same.
Proof.
  intro c. constructor.
  - intro st. repeat split.
  - intros a b d (A & B & C) (A' & B' & C'). repeat split; congruence.
  - intros st p v st1 H. apply register_frame in H. destruct H as (_ & F & K & Q & _).
    repeat split; congruence.
  - intros st p. destruct (unregister st p) as [s b] eqn:U. apply unregister_frame in U.
    destruct U as (_ & F & K & Q & _). cbn [fst]. repeat split; congruence.
  - intros. repeat split.
  - intros st p pr x z _ _. destruct (write_local st p pr z) as [s b] eqn:U.
    apply write_local_frame in U. destruct U as (F & K & Q & _). cbn [fst]. repeat split; congruence.
  - intros. repeat split.
Qed.

(** ** Stored values *)

(** Every stored value is one that the property takes. *)
Definition Stored (c : cfg) (st : state) : Prop :=
  forall p pr z, c_prop c p = Some pr -> s_vals st p = Some z -> exists x, takes pr x z.

Lemma Stored_prims : forall c, Prims c (fun a b => s_count a = s_count b /\ (Stored c a -> Stored c b)).
Proof.
  intro c. constructor.
  - auto.
  - intros a b d (A & B) (A' & B'). split; [congruence|auto].
  - intros st p v st1 H. apply register_frame in H. destruct H as (V & _ & K & _).
    split; [congruence|]. intros I q pr z Hq Hv. apply (I q pr z Hq). congruence.
  - intros st p. destruct (unregister st p) as [s b] eqn:U. apply unregister_frame in U.
    destruct U as (V & _ & K & _). cbn [fst]. split; [congruence|].
    intros I q pr z Hq Hv. apply (I q pr z Hq). congruence.
  - intros. split; [reflexivity|]. intros I q pr z Hq Hv. apply (I q pr z Hq). exact Hv.
  - intros st p pr x z Hp T. destruct (write_local st p pr z) as [s b] eqn:U.
    apply write_local_frame in U. destruct U as (_ & K & _ & _ & _ & O & M & _). cbn [fst].
    split; [congruence|]. intros I q pr' z' Hq Hv.
    destruct (Nat.eq_dec q p) as [Q|Q].
    + subst q. rewrite Hv in M. rewrite Hp in Hq. injection Hq as <-. subst z'. exists x. exact T.
    + rewrite (O q Q) in Hv. apply (I q pr' z' Hq Hv).
  - intros st p pr Hp. split; [reflexivity|]. intros I q pr' z Hq Hv.
    cbn [with_vals s_vals] in Hv. destruct (Nat.eq_dec q p) as [Q|Q].
    + subst q. rewrite put_same in Hv. discriminate.
    + rewrite put_other in Hv by exact Q. apply (I q pr' z Hq Hv).
Qed.

Lemma clear_each_batch : forall n c prot l st st' o, s_count st <> O ->
  clear_each n c st prot l = Some (st', o) ->
  s_vals st' = s_vals st /\ s_stk st' = s_stk st /\ s_frozen st' = s_frozen st /\
  s_count st' = s_count st /\ s_notes st' = s_notes st /\ o <> OUb.
Proof.
  intros n c prot l. induction l as [|p l IH]; intros st st' o K H; cbn [clear_each] in H.
  { injection H as <- <-. repeat split. discriminate. }
  destruct (c_prop c p) as [pr|]; [|eapply IH; eassumption].
  destruct ((negb prot && p_readonly pr) || negb (p_local pr)); [eapply IH; eassumption|].
  unfold clear_value in H. destruct (Nat.eqb_spec (s_count st) 0); [contradiction|].
  destruct (s_frozen st) eqn:F.
  { injection H as <- <-. rewrite F. repeat split. discriminate. }
  apply IH in H; [|exact K]. cbn [with_batch s_vals s_stk s_frozen s_count s_notes] in H.
  rewrite F in H. exact H.
Qed.

Theorem step_stored : forall n c st o st' r,
  Stored c st -> step n c st o = Some (st', r) -> Stored c st'.
Proof.
  intros n c st o st' r I H.
  assert (BV : forall s k l, Stored c s -> Stored c (with_batch s k l)).
  { intros s k l J q pr z Hq Hv. exact (J q pr z Hq Hv). }
  destruct (all_prims c _ (Stored_prims c) n) as (_ & _ & _ & IHs & IHk).
  destruct o as [prot p x|prot p|prot|p| | |]; cbn [step] in H.
  - destruct (set_value n c st prot p x) as [[s w]|] eqn:E; [|discriminate]. injection H as <- <-.
    unfold set_value in E. destruct (Nat.eqb (s_count st) 0).
    + apply (IHs _ _ _ _ _ _ _ E). exact I.
    + destruct (s_frozen st); injection E as <- <-; auto.
  - destruct (clear_value n c st prot p) as [[s w]|] eqn:E; [|discriminate]. injection H as <- <-.
    unfold clear_value in E. destruct (Nat.eqb (s_count st) 0).
    + apply (IHk _ _ _ _ _ _ E). exact I.
    + destruct (s_frozen st); injection E as <- <-; auto.
  - destruct (clear_all n c st prot) as [[s w]|] eqn:E; [|discriminate]. injection H as <- <-.
    unfold clear_all in E. destruct (s_frozen st); [injection E as <- <-; exact I|].
    destruct (Nat.eq_dec (s_count st) 0) as [K|K].
    + eapply (clear_each_prims c _ (Stored_prims c)); [exact K| |exact E|exact I].
      intros a b (A & _). exact A.
    + apply clear_each_batch in E; [|exact K]. destruct E as (V & _).
      intros q pr z Hq Hv. rewrite V in Hv. exact (I q pr z Hq Hv).
  - injection H as <- <-. exact I.
  - unfold begin_update in H. destruct (s_frozen st); injection H as <- <-; auto.
  - destruct (end_update n c st) as [[s w]|] eqn:E; [|discriminate]. injection H as <- <-.
    unfold end_update in E. destruct (s_count st) as [|[|k]].
    + injection E as <- <-. exact I.
    + eapply (apply_each_prims c _ (Stored_prims c)); [exact E|]. apply BV. exact I.
    + injection E as <- <-. auto.
  - unfold freeze in H. destruct (s_frozen st); injection H as <- <-; exact I.
Qed.

Theorem runs_stored : forall n c h st st' rs,
  Stored c st -> runs n c st h = Some (st', rs) -> Stored c st'.
Proof.
  intros n c h. induction h as [|o h IH]; intros st st' rs I H; cbn [runs] in H.
  { injection H as <- <-. exact I. }
  destruct (step n c st o) as [[s r]|] eqn:E; [|discriminate].
  pose proof (step_stored _ _ _ _ _ _ I E) as I1.
  assert (G : forall X, match runs n c s h with Some (st2, rs0) => Some (st2, r :: rs0) | None => None end = Some X -> Stored c (fst X)).
  { intros X HX. destruct (runs n c s h) as [[s2 rs2]|] eqn:E2; [|discriminate].
    injection HX as <-. eapply IH; eassumption. }
  destruct r as [[| | |]|]; try (apply G in H; exact H).
  injection H as <- <-. exact I1.
Qed.

Lemma init_stored : forall c, Stored c init.
Proof. intros c p pr z _ H. discriminate. Qed.
