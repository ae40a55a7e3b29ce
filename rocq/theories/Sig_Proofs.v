(** Proofs about signals. *)
From Coq Require Import List Bool Arith Lia.
From Verif Require Import Sig_Model Sig_Spec.
Import ListNotations.

(* ---------- equality tests ---------- *)
Lemma conn_eqb_iff a b : conn_eqb a b = true <-> a = b.
Proof.
  unfold conn_eqb. rewrite !andb_true_iff, !Nat.eqb_eq, eqb_true_iff.
  destruct a as [a1 a2 a3], b as [b1 b2 b3]; cbn [k_sig k_no k_remote]. split; [intros [[-> ->] ->]; reflexivity | intro E; inversion E; auto].
Qed.
Lemma conn_eqb_refl a : conn_eqb a a = true.
Proof. apply conn_eqb_iff; reflexivity. Qed.
Lemma conn_eqb_neq a b : a <> b -> conn_eqb a b = false.
Proof. intro H. destruct (conn_eqb a b) eqn:E; [|reflexivity]. apply conn_eqb_iff in E. contradiction. Qed.
Lemma conn_dec (a b : conn) : {a = b} + {a <> b}.
Proof. destruct (conn_eqb a b) eqn:E; [left; apply conn_eqb_iff; exact E|right; intros ->; rewrite conn_eqb_refl in E; discriminate]. Qed.
Lemma mem_iff k l : existsb (conn_eqb k) l = true <-> In k l.
Proof.
  rewrite existsb_exists. split.
  - intros (x & H & E). apply conn_eqb_iff in E. subst. exact H.
  - intro H. exists k. split; [exact H|apply conn_eqb_refl].
Qed.
Lemma mem_not k l : existsb (conn_eqb k) l = false <-> ~ In k l.
Proof. rewrite <- mem_iff. destruct (existsb (conn_eqb k) l); split; intros; congruence. Qed.
Lemma smem_iff s l : existsb (Nat.eqb s) l = true <-> In s l.
Proof.
  rewrite existsb_exists. split.
  - intros (x & H & E). apply Nat.eqb_eq in E. subst. exact H.
  - intro H. exists s. split; [exact H|apply Nat.eqb_refl].
Qed.

(* ---------- queues ---------- *)
Lemma enqueue_all_sig ks its : forall st, st_sig (enqueue_all st ks its) = st_sig st.
Proof. induction ks as [|k ks IH]; intro st; [reflexivity|]. unfold enqueue_all in *. cbn [fold_left]. rewrite IH. reflexivity. Qed.
Lemma enqueue_all_flight ks its : forall st, st_flight (enqueue_all st ks its) = st_flight st.
Proof. induction ks as [|k ks IH]; intro st; [reflexivity|]. unfold enqueue_all in *. cbn [fold_left]. rewrite IH. reflexivity. Qed.
Lemma enqueue_all_log ks its : NoDup ks -> forall st k,
  st_log (enqueue_all st ks its) k = st_log st k ++ (if existsb (conn_eqb k) ks then its else []).
Proof.
  induction ks as [|c ks IH]; intros N st k; cbn [existsb]; [rewrite app_nil_r; reflexivity|].
  inversion N as [|? ? N1 N2]; subst. unfold enqueue_all in *. cbn [fold_left]. rewrite (IH N2). unfold enqueue at 1; cbn [st_log].
  destruct (conn_eqb k c) eqn:E.
  - apply conn_eqb_iff in E. subst c. apply mem_not in N1. rewrite N1. cbn [orb]. rewrite app_nil_r. reflexivity.
  - cbn [orb]. reflexivity.
Qed.

(* ---------- well formed states ---------- *)
Record wf (st : state) : Prop := {
  wf_nd : forall s, NoDup (s_conns (st_sig st s));
  wf_sig : forall s k, In k (s_conns (st_sig st s)) -> k_sig k = s /\ k_remote k = false;
  wf_rnd : forall d, NoDup (s_refs (st_sig st d));
  wf_ref : forall s d, s_dom (st_sig st s) = Some d <-> In s (s_refs (st_sig st d));
  wf_fl : forall ks ps, In (ks, ps) (st_flight st) -> NoDup ks
}.

Lemma mem_own st s k : wf st -> existsb (conn_eqb k) (s_conns (st_sig st s)) = true -> k_sig k = s.
Proof. intros W H. apply mem_iff in H. apply (wf_sig st W) in H. tauto. Qed.

Lemma send_event_sig st s e : st_sig (fst (send_event st s e)) = st_sig st.
Proof. unfold send_event. destruct (s_active (st_sig st s)); cbn [fst]; [apply enqueue_all_sig|reflexivity]. Qed.

Lemma send_events_gen l e : forall st ok,
  st_sig (fst (fold_left (fun (acc : state * bool) s => let '(st, ok) := acc in
      match send_event st s e with (st', OK) => (st', ok) | (st', _) => (st', false) end) l (st, ok))) = st_sig st /\
  st_flight (fst (fold_left (fun (acc : state * bool) s => let '(st, ok) := acc in
      match send_event st s e with (st', OK) => (st', ok) | (st', _) => (st', false) end) l (st, ok))) = st_flight st /\
  (NoDup l -> (forall s, NoDup (s_conns (st_sig st s))) ->
   (forall s k, In k (s_conns (st_sig st s)) -> k_sig k = s) -> forall k,
   st_log (fst (fold_left (fun (acc : state * bool) s => let '(st, ok) := acc in
      match send_event st s e with (st', OK) => (st', ok) | (st', _) => (st', false) end) l (st, ok))) k
   = st_log st k ++ (if existsb (Nat.eqb (k_sig k)) l && existsb (conn_eqb k) (s_conns (st_sig st (k_sig k)))
                        && s_active (st_sig st (k_sig k)) then [e] else [])).
Proof.
  induction l as [|s l IH]; intros st ok; cbn [fold_left].
  - cbn [fst existsb andb]. repeat split; try reflexivity. intros. rewrite app_nil_r. reflexivity.
  - assert (E : exists ok', (let '(st0, ok0) := (st, ok) in match send_event st0 s e with (st', OK) => (st', ok0) | (st', _) => (st', false) end)
                 = (fst (send_event st s e), ok')).
    { destruct (send_event st s e) as [st' []]; cbn [fst]; eauto. }
    destruct E as (ok' & E). rewrite E. clear E.
    destruct (IH (fst (send_event st s e)) ok') as (A & B & C).
    rewrite A, B, send_event_sig. split; [reflexivity|]. split.
    + unfold send_event. destruct (s_active (st_sig st s)); cbn [fst]; [apply enqueue_all_flight|reflexivity].
    + intros N W1 W2 k. inversion N as [|? ? N1 N2]; subst. rewrite send_event_sig in C.
      rewrite (C N2 W1 W2 k). cbn [existsb]. clear C IH A B.
      unfold send_event at 1. destruct (Nat.eqb (k_sig k) s) eqn:Es.
      * apply Nat.eqb_eq in Es. subst s.
        assert (M : existsb (Nat.eqb (k_sig k)) l = false).
        { destruct (existsb (Nat.eqb (k_sig k)) l) eqn:X; [|reflexivity]. apply smem_iff in X. contradiction. }
        rewrite M. cbn [orb andb]. rewrite app_nil_r.
        destruct (s_active (st_sig st (k_sig k))) eqn:Ea; cbn [fst].
        -- rewrite enqueue_all_log by apply W1. rewrite andb_true_r. reflexivity.
        -- rewrite andb_false_r. rewrite app_nil_r. reflexivity.
      * cbn [orb]. apply Nat.eqb_neq in Es. destruct (s_active (st_sig st s)); cbn [fst]; [|reflexivity].
        rewrite enqueue_all_log by apply W1.
        assert (M : existsb (conn_eqb k) (s_conns (st_sig st s)) = false).
        { apply mem_not. intro H. apply W2 in H. congruence. }
        rewrite M, app_nil_r. reflexivity.
Qed.

(** What a call adds to the items of a connection. *)
Definition linked (st : state) (k : conn) : bool := existsb (conn_eqb k) (s_conns (st_sig st (k_sig k))).
Definition accepted (st : state) (s : sid) (d : option desc) (n : bool) : bool :=
  negb (match d with Some _ => n | None => false end) && negb (same_desc d (s_desc (st_sig st s))).
Definition added (st : state) (o : op) (k : conn) : list item :=
  match o with
  | Connect c => if conn_eqb k c && negb (k_remote k) && negb (linked st k)
                 then [IEv (Some (s_desc (st_sig st (k_sig k)))) (Some (domain_desc st (k_sig k)))] else []
  | SetDesc s d n =>
      if accepted st s d n then
        (if Nat.eqb (k_sig k) s && linked st k then [IEv (Some d) None] else []) ++
        (if same_sig (s_dom (st_sig st (k_sig k))) (Some s) && linked st k && s_active (st_sig st (k_sig k))
         then [IEv None (Some d)] else [])
      else []
  | Send s p | Copy s p =>
      match o with Copy _ _ => [] | _ =>
      if Nat.eqb (k_sig k) s && linked st k && s_active (st_sig st s) then [IPk p] else [] end
  | SendMany s ps => if Nat.eqb (k_sig k) s && linked st k && s_active (st_sig st s) then map IPk ps else []
  | Put n => match take_nth n (st_flight st) with
             | Some ((ks, ps), _) => if existsb (conn_eqb k) ks then map IPk ps else []
             | None => []
             end
  | _ => []
  end.

Lemma take_nth_in {A} : forall n (l : list A) x r, take_nth n l = Some (x, r) ->
  In x l /\ forall y, In y r -> In y l.
Proof.
  induction n as [|n IH]; intros [|a l] x r H; cbn [take_nth] in H; try discriminate.
  - inversion H; subst. split; [left; reflexivity|intros y Hy; right; exact Hy].
  - destruct (take_nth n l) as [[y r0]|] eqn:E; [|discriminate]. inversion H; subst.
    destruct (IH _ _ _ E) as [P Q]. split; [right; exact P|]. intros z [->|Hz]; [left; reflexivity|right; apply Q; exact Hz].
Qed.

Lemma mem_at st s k : wf st -> Nat.eqb (k_sig k) s && linked st k = existsb (conn_eqb k) (s_conns (st_sig st s)).
Proof.
  intro W. destruct (Nat.eqb (k_sig k) s) eqn:E.
  - apply Nat.eqb_eq in E. subst s. reflexivity.
  - cbn [andb]. symmetry. apply mem_not. intro H. apply (wf_sig st W) in H. apply Nat.eqb_neq in E. tauto.
Qed.

Lemma same_sig_iff a b : same_sig a b = true <-> a = b.
Proof.
  destruct a, b; cbn [same_sig]; try (split; congruence).
  rewrite Nat.eqb_eq. split; congruence.
Qed.
Lemma same_desc_iff a b : same_desc a b = true <-> a = b.
Proof.
  destruct a, b; cbn [same_desc]; try (split; congruence).
  rewrite Nat.eqb_eq. split; congruence.
Qed.

Lemma set_sig_at st s x t : st_sig (set_sig st s x) t = if Nat.eqb t s then x else st_sig st t.
Proof. reflexivity. Qed.

Lemma clear_doms l : forall st, st_log (fold_left clear_dom l st) = st_log st /\
  st_flight (fold_left clear_dom l st) = st_flight st /\
  forall t, st_sig (fold_left clear_dom l st) t =
            if existsb (Nat.eqb t) l then with_dom (st_sig st t) None else st_sig st t.
Proof.
  induction l as [|v l IH]; intro st; cbn [fold_left existsb]; [repeat split; reflexivity|].
  destruct (IH (clear_dom st v)) as (A & B & C). rewrite A, B. split; [reflexivity|]. split; [reflexivity|].
  intro t. rewrite C. unfold clear_dom. rewrite !set_sig_at. destruct (Nat.eqb t v) eqn:E; cbn [orb].
  - apply Nat.eqb_eq in E. subst v. destruct (existsb (Nat.eqb t) l); reflexivity.
  - destruct (existsb (Nat.eqb t) l); reflexivity.
Qed.

Lemma send_events_spec st l e : st_sig (fst (send_events st l e)) = st_sig st /\
  st_flight (fst (send_events st l e)) = st_flight st.
Proof. unfold send_events. destruct (send_events_gen l e st true) as (A & B & _). auto. Qed.

Lemma set_desc_sig st s d n : st_sig (fst (set_desc st s d n)) =
  if accepted st s d n then st_sig (set_sig st s (with_desc (st_sig st s) d)) else st_sig st.
Proof.
  unfold set_desc, accepted.
  destruct (match d with Some _ => n | None => false end); [reflexivity|].
  destruct (same_desc d (s_desc (st_sig st s))); [reflexivity|]. cbn [negb andb].
  set (st1 := set_sig st s (with_desc (st_sig st s) d)).
  set (st2 := enqueue_all st1 (s_conns (st_sig st1 s)) [IEv (Some d) None]).
  destruct (send_events st2 (s_refs (st_sig st2 s)) (IEv None (Some d))) as [st3 ok] eqn:E.
  cbn [fst]. pose proof (send_events_spec st2 (s_refs (st_sig st2 s)) (IEv None (Some d))) as [A _].
  rewrite E in A. cbn [fst] in A. rewrite A. unfold st2. apply enqueue_all_sig.
Qed.
Lemma set_desc_flight st s d n : st_flight (fst (set_desc st s d n)) = st_flight st.
Proof.
  unfold set_desc.
  destruct (match d with Some _ => n | None => false end); [reflexivity|].
  destruct (same_desc d (s_desc (st_sig st s))); [reflexivity|].
  set (st1 := set_sig st s (with_desc (st_sig st s) d)).
  set (st2 := enqueue_all st1 (s_conns (st_sig st1 s)) [IEv (Some d) None]).
  destruct (send_events st2 (s_refs (st_sig st2 s)) (IEv None (Some d))) as [st3 ok] eqn:E.
  cbn [fst]. pose proof (send_events_spec st2 (s_refs (st_sig st2 s)) (IEv None (Some d))) as [_ A].
  rewrite E in A. cbn [fst] in A. rewrite A. unfold st2. rewrite enqueue_all_flight. reflexivity.
Qed.

Lemma set_desc_log st s d n k : wf st ->
  st_log (fst (set_desc st s d n)) k = st_log st k ++ added st (SetDesc s d n) k.
Proof.
  intro W. unfold set_desc, added, accepted.
  destruct (match d with Some _ => n | None => false end); [cbn [fst negb andb]; rewrite app_nil_r; reflexivity|].
  destruct (same_desc d (s_desc (st_sig st s))); [cbn [fst negb andb]; rewrite app_nil_r; reflexivity|]. cbn [negb andb].
  set (st1 := set_sig st s (with_desc (st_sig st s) d)).
  set (st2 := enqueue_all st1 (s_conns (st_sig st1 s)) [IEv (Some d) None]).
  destruct (send_events st2 (s_refs (st_sig st2 s)) (IEv None (Some d))) as [st3 ok] eqn:E.
  cbn [fst].
  assert (S1 : forall t, s_conns (st_sig st1 t) = s_conns (st_sig st t) /\ s_refs (st_sig st1 t) = s_refs (st_sig st t) /\
                         s_active (st_sig st1 t) = s_active (st_sig st t)).
  { intro t. unfold st1. rewrite set_sig_at. destruct (Nat.eqb t s) eqn:X; [apply Nat.eqb_eq in X; subst t|]; repeat split. }
  assert (S2 : st_sig st2 = st_sig st1) by (unfold st2; apply enqueue_all_sig).
  destruct (send_events_gen (s_refs (st_sig st2 s)) (IEv None (Some d)) st2 true) as (_ & _ & L).
  change (fold_left _ (s_refs (st_sig st2 s)) (st2, true)) with (send_events st2 (s_refs (st_sig st2 s)) (IEv None (Some d))) in L.
  rewrite E in L. cbn [fst] in L. rewrite S2 in L.
  rewrite L.
  2:{ rewrite (proj1 (proj2 (S1 s))). apply (wf_rnd st W). }
  2:{ intro t. rewrite (proj1 (S1 t)). apply (wf_nd st W). }
  2:{ intros t c Hc. rewrite (proj1 (S1 t)) in Hc. apply (wf_sig st W) in Hc. tauto. }
  unfold st2 at 1. rewrite enqueue_all_log by (rewrite (proj1 (S1 s)); apply (wf_nd st W)).
  rewrite (proj1 (S1 s)), (proj1 (S1 (k_sig k))), (proj1 (proj2 (S1 s))), (proj2 (proj2 (S1 (k_sig k)))).
  rewrite <- app_assoc. rewrite (mem_at st s k W). unfold st1 at 1; cbn [set_sig st_log]. f_equal. f_equal.
  fold (linked st k).
  assert (R : existsb (Nat.eqb (k_sig k)) (s_refs (st_sig st s)) = same_sig (s_dom (st_sig st (k_sig k))) (Some s)).
  { apply eq_true_iff_eq. rewrite smem_iff, same_sig_iff. symmetry. apply (wf_ref st W). }
  rewrite R. reflexivity.
Qed.

Lemma log_step st o k : wf st -> st_log (fst (step st o)) k = st_log st k ++ added st o k.
Proof.
  intro W. destruct o as [c|c|s d n|s d|s b|s b|s p|s ps|s|s b|s b|s v|s p|n]; cbn [step].
  - (* Connect *) unfold connect, added. destruct (k_remote c) eqn:R.
    + assert (X : conn_eqb k c && negb (k_remote k) && negb (linked st k) = false).
      { destruct (conn_eqb k c) eqn:E; [|reflexivity]. apply conn_eqb_iff in E. subst c. rewrite R. reflexivity. }
      rewrite X, app_nil_r. destruct (existsb (conn_eqb c) (s_rconns (st_sig st (k_sig c)))); reflexivity.
    + destruct (existsb (conn_eqb c) (s_conns (st_sig st (k_sig c)))) eqn:M; cbn [fst].
      * assert (X : conn_eqb k c && negb (k_remote k) && negb (linked st k) = false).
        { destruct (conn_eqb k c) eqn:E; [|reflexivity]. apply conn_eqb_iff in E. subst c. unfold linked. rewrite M. apply andb_false_r. }
        rewrite X, app_nil_r. reflexivity.
      * cbn [enqueue st_log]. destruct (conn_eqb k c) eqn:E.
        -- apply conn_eqb_iff in E. subst c. unfold linked. rewrite R, M. reflexivity.
        -- cbn [andb set_sig st_log]. rewrite app_nil_r. reflexivity.
  - (* Disconnect *) cbn [added]. rewrite app_nil_r. unfold disconnect.
    destruct (k_remote c); [destruct (existsb (conn_eqb c) (s_rconns (st_sig st (k_sig c))))|destruct (existsb (conn_eqb c) (s_conns (st_sig st (k_sig c))))]; reflexivity.
  - apply set_desc_log. exact W.
  - (* SetDomain *) cbn [added]. rewrite app_nil_r. unfold set_domain.
    destruct (s_dlocked (st_sig st s)); [reflexivity|]. destruct (same_sig d (s_dom (st_sig st s))); [reflexivity|].
    destruct d as [n|]; [unfold add_ref; cbv zeta|];
      repeat match goal with |- context [if ?b then _ else _] => destruct b end; destruct (s_dom (st_sig st s)); reflexivity.
  - cbn [fst added]. rewrite app_nil_r. reflexivity.
  - cbn [fst added]. rewrite app_nil_r. reflexivity.
  - (* Send *) unfold send_one. cbn [added]. rewrite (mem_at st s k W).
    destruct (s_active (st_sig st s)); cbn [fst].
    + rewrite enqueue_all_log by apply (wf_nd st W). rewrite andb_true_r. reflexivity.
    + rewrite andb_false_r, app_nil_r. reflexivity.
  - (* SendMany *) unfold send_many. cbn [added]. rewrite (mem_at st s k W). destruct (rev ps) as [|p r] eqn:E; cbn [fst].
    + assert (ps = []) by (rewrite <- (rev_involutive ps), E; reflexivity). subst ps. cbn [map].
      destruct (existsb _ _ && _); rewrite app_nil_r; reflexivity.
    + destruct (s_active (st_sig st s)); cbn [fst].
      * rewrite enqueue_all_log by apply (wf_nd st W). rewrite andb_true_r. reflexivity.
      * rewrite andb_false_r, app_nil_r. reflexivity.
  - (* Remove *) cbn [added fst]. rewrite app_nil_r. unfold removed. cbn [set_sig st_log].
    rewrite (proj1 (clear_doms _ _)). reflexivity.
  - cbn [fst added]. rewrite app_nil_r. reflexivity.
  - cbn [fst added]. rewrite app_nil_r. reflexivity.
  - cbn [fst added]. rewrite app_nil_r. reflexivity.
  - (* Copy *) cbn [added]. rewrite app_nil_r. unfold send_one. destruct (s_active (st_sig st s)); reflexivity.
  - (* Put *) cbn [added]. destruct (take_nth n (st_flight st)) as [[[ks ps] r]|] eqn:E; cbn [fst].
    + rewrite enqueue_all_log; [reflexivity|]. apply take_nth_in in E. exact (wf_fl st W _ _ (proj1 E)).
    + rewrite app_nil_r. reflexivity.
Qed.

(* ---------- the state outside the queues ---------- *)
Lemma erase_in k l x : In x (erase k l) -> In x l.
Proof.
  induction l as [|c l IH]; cbn [erase]; [tauto|]. destruct (conn_eqb k c); [intro H; right; exact H|].
  intros [->|H]; [left; reflexivity|right; auto].
Qed.
Lemma erase_nd k l : NoDup l -> NoDup (erase k l) /\ ~ In k (erase k l).
Proof.
  induction l as [|c l IH]; cbn [erase]; intro N; [split; [constructor|auto]|].
  inversion N as [|? ? N1 N2]; subst. destruct (conn_eqb k c) eqn:E.
  - apply conn_eqb_iff in E. subst c. auto.
  - destruct (IH N2) as [A B]. split.
    + constructor; [|exact A]. intro H. apply erase_in in H. contradiction.
    + intros [->|H]; [rewrite conn_eqb_refl in E; discriminate|contradiction].
Qed.
Lemma erase_keep k l x : x <> k -> In x l -> In x (erase k l).
Proof.
  induction l as [|c l IH]; cbn [erase]; intros N H; [exact H|]. destruct (conn_eqb k c) eqn:E.
  - apply conn_eqb_iff in E. subst c. destruct H as [->|H]; [contradiction|exact H].
  - destruct H as [->|H]; [left; reflexivity|right; auto].
Qed.
Lemma remove_ref_in s l x : NoDup l -> (In x (remove_ref s l) <-> In x l /\ x <> s).
Proof.
  induction l as [|c l IH]; cbn [remove_ref]; intro N; [split; [intros []|tauto]|].
  inversion N as [|? ? N1 N2]; subst. destruct (Nat.eqb c s) eqn:E.
  - apply Nat.eqb_eq in E. subst c. split; [intro H; split; [right; exact H|intros ->; contradiction]|].
    intros [[->|H] D]; [contradiction|exact H].
  - apply Nat.eqb_neq in E. cbn [In]. rewrite (IH N2). split.
    + intros [->|[H D]]; [split; [left; reflexivity|congruence]|tauto].
    + intros [[->|H] D]; [left; reflexivity|right; tauto].
Qed.
Lemma remove_ref_nd s l : NoDup l -> NoDup (remove_ref s l).
Proof.
  induction l as [|c l IH]; cbn [remove_ref]; intro N; [constructor|]. inversion N as [|? ? N1 N2]; subst.
  destruct (Nat.eqb c s); [exact N2|]. constructor; [|auto]. intro H. apply (remove_ref_in s l c N2) in H. tauto.
Qed.
Lemma nd_snoc {A} (l : list A) x : NoDup l -> ~ In x l -> NoDup (l ++ [x]).
Proof.
  intros N H. induction l as [|a l IH]; cbn [app]; [constructor; [auto|constructor]|].
  inversion N as [|? ? N1 N2]; subst. constructor.
  - rewrite in_app_iff. intros [X|[X|[]]]; [contradiction|subst; apply H; left; reflexivity].
  - apply IH; [exact N2|]. intro X. apply H. right. exact X.
Qed.

(** Calls other than these keep connections, references and domain. *)
Definition core_eq (x y : signal) : Prop :=
  s_conns x = s_conns y /\ s_refs x = s_refs y /\ s_dom x = s_dom y.
Lemma wf_core st st' : wf st -> (forall t, core_eq (st_sig st' t) (st_sig st t)) -> st_flight st' = st_flight st -> wf st'.
Proof.
  intros W C F. constructor.
  - intro s. rewrite (proj1 (C s)). apply (wf_nd st W).
  - intros s k H. rewrite (proj1 (C s)) in H. apply (wf_sig st W) in H. exact H.
  - intro d. rewrite (proj1 (proj2 (C d))). apply (wf_rnd st W).
  - intros s d. rewrite (proj2 (proj2 (C s))), (proj1 (proj2 (C d))). apply (wf_ref st W).
  - intros ks ps H. rewrite F in H. exact (wf_fl st W _ _ H).
Qed.
Lemma core_refl x : core_eq x x.
Proof. repeat split. Qed.
Lemma core_set st s y : core_eq y (st_sig st s) -> forall t, core_eq (st_sig (set_sig st s y) t) (st_sig st t).
Proof. intros H t. rewrite set_sig_at. destruct (Nat.eqb t s) eqn:E; [apply Nat.eqb_eq in E; subst t; exact H|apply core_refl]. Qed.
Lemma core_check x p : core_eq (check_keep x p) x.
Proof. unfold check_keep. destruct (s_keepp x); [destruct (0 <? p_count p)|]; repeat split. Qed.

Definition new_refs (st : state) (s : sid) (d : option sid) (t : sid) : list sid :=
  let base := match s_dom (st_sig st s) with
              | Some o => if Nat.eqb t o then remove_ref s (s_refs (st_sig st t)) else s_refs (st_sig st t)
              | None => s_refs (st_sig st t)
              end in
  match d with Some n => if Nat.eqb t n then base ++ [s] else base | None => base end.
Lemma set_domain_sig st s d : wf st -> s_dlocked (st_sig st s) = false -> same_sig d (s_dom (st_sig st s)) = false ->
  snd (set_domain st s d) = OK /\ forall t,
  st_sig (fst (set_domain st s d)) t =
    with_refs (if Nat.eqb t s then with_dom (st_sig st t) d else st_sig st t) (new_refs st s d t).
Proof.
  intros W L D. unfold set_domain. rewrite L, D.
  set (st1 := match s_dom (st_sig st s) with Some o => _ | None => st end).
  assert (A1 : forall t, st_sig st1 t = with_refs (st_sig st t)
     (match s_dom (st_sig st s) with
      | Some o => if Nat.eqb t o then remove_ref s (s_refs (st_sig st t)) else s_refs (st_sig st t)
      | None => s_refs (st_sig st t) end)).
  { intro t. unfold st1. destruct (s_dom (st_sig st s)) as [o|]; [|destruct (st_sig st t); reflexivity].
    rewrite set_sig_at. destruct (Nat.eqb t o) eqn:E; [apply Nat.eqb_eq in E; subst t; reflexivity|destruct (st_sig st t); reflexivity]. }
  set (st2 := set_sig st1 s (with_dom (st_sig st1 s) d)).
  assert (A2 : forall t, st_sig st2 t = with_refs (if Nat.eqb t s then with_dom (st_sig st t) d else st_sig st t) (s_refs (st_sig st1 t))).
  { intro t. unfold st2. rewrite set_sig_at. destruct (Nat.eqb t s) eqn:E.
    - apply Nat.eqb_eq in E. subst t. rewrite A1. reflexivity.
    - rewrite A1. reflexivity. }
  destruct d as [n|].
  - unfold add_ref.
    assert (M : existsb (Nat.eqb s) (s_refs (st_sig st2 n)) = false).
    { destruct (existsb (Nat.eqb s) (s_refs (st_sig st2 n))) eqn:X; [|reflexivity]. exfalso.
      apply smem_iff in X. rewrite A2 in X. cbn [with_refs s_refs] in X. rewrite A1 in X. cbn [with_refs s_refs] in X.
      assert (Y : In s (s_refs (st_sig st n))).
      { destruct (s_dom (st_sig st s)) as [o|]; [|exact X]. destruct (Nat.eqb n o); [|exact X].
        apply (remove_ref_in s _ s (wf_rnd st W n)) in X. tauto. }
      apply (wf_ref st W) in Y. rewrite Y in D. cbn [same_sig] in D. rewrite Nat.eqb_refl in D. discriminate. }
    rewrite M. cbn [fst snd]. split; [reflexivity|]. intro t. rewrite set_sig_at. unfold new_refs.
    destruct (Nat.eqb t n) eqn:E.
    + apply Nat.eqb_eq in E. subst t. rewrite A2. cbn [with_refs s_refs]. rewrite A1. cbn [with_refs s_refs]. reflexivity.
    + rewrite A2, A1. cbn [with_refs s_refs]. reflexivity.
  - cbn [fst snd]. split; [reflexivity|]. intro t. rewrite A2, A1. cbn [with_refs s_refs]. unfold new_refs. reflexivity.
Qed.
Lemma set_domain_flight st s d : st_flight (fst (set_domain st s d)) = st_flight st.
Proof.
  unfold set_domain. destruct (s_dlocked (st_sig st s)); [reflexivity|]. destruct (same_sig d (s_dom (st_sig st s))); [reflexivity|].
  destruct d as [n|]; [unfold add_ref; cbv zeta|];
      repeat match goal with |- context [if ?b then _ else _] => destruct b end; destruct (s_dom (st_sig st s)); reflexivity.
Qed.
Lemma removed_sig st s t : st_sig (removed st s) t =
  (let x := if Nat.eqb t s then with_conns (st_sig st s) [] [] (s_told (st_sig st s)) else st_sig st t in
   let y := if existsb (Nat.eqb t) (s_refs (st_sig st s)) then with_dom x None else x in
   if Nat.eqb t s then with_refs y [] else y).
Proof.
  unfold removed. cbv zeta. rewrite set_sig_at. rewrite !(proj2 (proj2 (clear_doms _ _))). rewrite !set_sig_at, Nat.eqb_refl.
  destruct (Nat.eqb t s) eqn:E; [|reflexivity]. apply Nat.eqb_eq in E. subst t. reflexivity.
Qed.

Lemma wf_step st o : wf st -> wf (fst (step st o)).
Proof.
  intro W. destruct o as [c|c|s d n|s d|s b|s b|s p|s ps|s|s b|s b|s v|s p|n]; cbn [step].
  - (* Connect *) unfold connect. destruct (k_remote c) eqn:R.
    + destruct (existsb (conn_eqb c) (s_rconns (st_sig st (k_sig c)))); cbn [fst]; [exact W|].
      apply (wf_core st); [exact W| |reflexivity]. apply core_set. repeat split.
    + destruct (existsb (conn_eqb c) (s_conns (st_sig st (k_sig c)))) eqn:M; cbn [fst]; [exact W|]. apply mem_not in M.
      assert (Q : forall t, st_sig (set_sig st (k_sig c) (with_conns (st_sig st (k_sig c)) (s_conns (st_sig st (k_sig c)) ++ [c])
                  (s_rconns (st_sig st (k_sig c)))
                  match s_conns (st_sig st (k_sig c)) with [] => s_told (st_sig st (k_sig c)) ++ [true] | _ => s_told (st_sig st (k_sig c)) end)) t
             = if Nat.eqb t (k_sig c) then with_conns (st_sig st (k_sig c)) (s_conns (st_sig st (k_sig c)) ++ [c])
                  (s_rconns (st_sig st (k_sig c)))
                  match s_conns (st_sig st (k_sig c)) with [] => s_told (st_sig st (k_sig c)) ++ [true] | _ => s_told (st_sig st (k_sig c)) end
               else st_sig st t) by reflexivity.
      constructor; unfold enqueue; cbn [st_sig st_flight].
      * intro s. rewrite Q. destruct (Nat.eqb s (k_sig c)); [|apply (wf_nd st W)].
        cbn [with_conns s_conns]. apply nd_snoc; [apply (wf_nd st W)|exact M].
      * intros s k H. rewrite Q in H. destruct (Nat.eqb s (k_sig c)) eqn:E; [|exact (wf_sig st W _ _ H)].
        apply Nat.eqb_eq in E. subst s. cbn [with_conns s_conns] in H. apply in_app_iff in H. destruct H as [H|[<-|[]]]; [exact (wf_sig st W _ _ H)|auto].
      * intro d. rewrite Q. destruct (Nat.eqb d (k_sig c)); [cbn [with_conns s_refs]|]; apply (wf_rnd st W).
      * intros s d. rewrite !Q. destruct (Nat.eqb s (k_sig c)) eqn:E1; [apply Nat.eqb_eq in E1; subst s|];
          (destruct (Nat.eqb d (k_sig c)) eqn:E2; [apply Nat.eqb_eq in E2; subst d|]); cbn [with_conns s_dom s_refs]; apply (wf_ref st W).
      * intros ks ps H. exact (wf_fl st W _ _ H).
  - (* Disconnect *) unfold disconnect. destruct (k_remote c).
    + destruct (existsb (conn_eqb c) (s_rconns (st_sig st (k_sig c)))); cbn [fst]; [|exact W].
      apply (wf_core st); [exact W| |reflexivity]. apply core_set. repeat split.
    + destruct (existsb (conn_eqb c) (s_conns (st_sig st (k_sig c)))) eqn:M; cbn [fst]; [|exact W].
      constructor.
      * intro s. rewrite set_sig_at. destruct (Nat.eqb s (k_sig c)); [|apply (wf_nd st W)].
        cbn [with_conns s_conns]. apply erase_nd. apply (wf_nd st W).
      * intros s k H. rewrite set_sig_at in H. destruct (Nat.eqb s (k_sig c)) eqn:E; [|exact (wf_sig st W _ _ H)].
        apply Nat.eqb_eq in E. subst s. cbn [with_conns s_conns] in H. apply erase_in in H. exact (wf_sig st W _ _ H).
      * intro d. rewrite set_sig_at. destruct (Nat.eqb d (k_sig c)); [cbn [with_conns s_refs]|]; apply (wf_rnd st W).
      * intros s d. rewrite !set_sig_at. destruct (Nat.eqb s (k_sig c)) eqn:E1; [apply Nat.eqb_eq in E1; subst s|];
          (destruct (Nat.eqb d (k_sig c)) eqn:E2; [apply Nat.eqb_eq in E2; subst d|]); cbn [with_conns s_dom s_refs]; apply (wf_ref st W).
      * intros ks ps H. exact (wf_fl st W _ _ H).
  - (* SetDesc *) apply (wf_core st); [exact W| |apply set_desc_flight]. intro t. rewrite set_desc_sig.
    destruct (accepted st s d n); [|apply core_refl]. apply core_set. repeat split.
  - (* SetDomain *) destruct (s_dlocked (st_sig st s)) eqn:L; [unfold set_domain; rewrite L; exact W|].
    destruct (same_sig d (s_dom (st_sig st s))) eqn:D; [unfold set_domain; rewrite L, D; exact W|].
    destruct (set_domain_sig st s d W L D) as [_ Q].
    assert (C : forall t, s_conns (st_sig (fst (set_domain st s d)) t) = s_conns (st_sig st t)).
    { intro t. rewrite Q. cbn [with_refs s_conns]. destruct (Nat.eqb t s); reflexivity. }
    assert (Rf : forall t, s_refs (st_sig (fst (set_domain st s d)) t) = new_refs st s d t) by (intro t; rewrite Q; reflexivity).
    assert (Dm : forall t, s_dom (st_sig (fst (set_domain st s d)) t) = if Nat.eqb t s then d else s_dom (st_sig st t)).
    { intro t. rewrite Q. cbn [with_refs s_dom]. destruct (Nat.eqb t s); reflexivity. }
    assert (B : forall t x, In x (match s_dom (st_sig st s) with
              | Some o => if Nat.eqb t o then remove_ref s (s_refs (st_sig st t)) else s_refs (st_sig st t)
              | None => s_refs (st_sig st t) end) <-> In x (s_refs (st_sig st t)) /\ x <> s).
    { intros t x. destruct (s_dom (st_sig st s)) as [o|] eqn:Eo.
      - destruct (Nat.eqb t o) eqn:E; [apply (remove_ref_in s _ x (wf_rnd st W t))|].
        split; [|tauto]. intro H. split; [exact H|]. intros ->. apply (wf_ref st W) in H. rewrite Eo in H. inversion H; subst o.
        rewrite Nat.eqb_refl in E. discriminate.
      - split; [|tauto]. intro H. split; [exact H|]. intros ->. apply (wf_ref st W) in H. rewrite Eo in H. discriminate. }
    constructor.
    + intro t. rewrite C. apply (wf_nd st W).
    + intros t k H. rewrite C in H. exact (wf_sig st W _ _ H).
    + intro t. rewrite Rf. unfold new_refs.
      assert (N : NoDup (match s_dom (st_sig st s) with
              | Some o => if Nat.eqb t o then remove_ref s (s_refs (st_sig st t)) else s_refs (st_sig st t)
              | None => s_refs (st_sig st t) end)).
      { destruct (s_dom (st_sig st s)) as [o|]; [destruct (Nat.eqb t o); [apply remove_ref_nd|]|]; apply (wf_rnd st W). }
      destruct d as [n|]; [|exact N]. destruct (Nat.eqb t n); [|exact N].
      apply nd_snoc; [exact N|]. intro H. apply B in H. tauto.
    + intros t e. rewrite Dm, Rf. unfold new_refs.
      destruct (Nat.eqb t s) eqn:E.
      * apply Nat.eqb_eq in E. subst t. split.
        -- intros ->. rewrite Nat.eqb_refl. apply in_app_iff. right. left. reflexivity.
        -- intro H. destruct d as [n|]; [|apply B in H; tauto]. destruct (Nat.eqb e n) eqn:X; [apply Nat.eqb_eq in X; subst; reflexivity|].
           apply B in H. tauto.
      * apply Nat.eqb_neq in E. rewrite (wf_ref st W). split.
        -- intro H. assert (H' : In t (s_refs (st_sig st e)) /\ t <> s) by tauto. apply B in H'.
           destruct d as [n|]; [|exact H']. destruct (Nat.eqb e n); [apply in_app_iff; left|]; exact H'.
        -- intro H. destruct d as [n|]; [|apply B in H; tauto].
           destruct (Nat.eqb e n); [apply in_app_iff in H; destruct H as [H|[H|[]]]; [|congruence]|]; apply B in H; tauto.
    + intros ks ps H. rewrite set_domain_flight in H. exact (wf_fl st W _ _ H).
  - apply (wf_core st); [exact W| |reflexivity]. apply core_set. repeat split.
  - apply (wf_core st); [exact W| |reflexivity]. apply core_set. repeat split.
  - (* Send *) unfold send_one. destruct (s_active (st_sig st s)); cbn [fst]; [|exact W].
    apply (wf_core st); [exact W| |rewrite enqueue_all_flight; reflexivity]. intro t. rewrite enqueue_all_sig. apply core_set. apply core_check.
  - (* SendMany *) unfold send_many. destruct (rev ps) as [|p r]; [exact W|]. destruct (s_active (st_sig st s)); cbn [fst]; [|exact W].
    apply (wf_core st); [exact W| |rewrite enqueue_all_flight; reflexivity]. intro t. rewrite enqueue_all_sig. apply core_set. apply core_check.
  - (* Remove *) cbn [fst].
    assert (Fl : st_flight (removed st s) = st_flight st).
    { unfold removed. cbn [set_sig st_flight]. rewrite (proj1 (proj2 (clear_doms _ _))). reflexivity. }
    assert (C : forall t, s_conns (st_sig (removed st s) t) = if Nat.eqb t s then [] else s_conns (st_sig st t)).
    { intro t. rewrite removed_sig. cbv zeta. destruct (Nat.eqb t s); destruct (existsb _ _); reflexivity. }
    assert (Rf : forall t, s_refs (st_sig (removed st s) t) = if Nat.eqb t s then [] else s_refs (st_sig st t)).
    { intro t. rewrite removed_sig. cbv zeta. destruct (Nat.eqb t s); destruct (existsb _ _); reflexivity. }
    assert (Dm : forall t, s_dom (st_sig (removed st s) t) = if existsb (Nat.eqb t) (s_refs (st_sig st s)) then None else s_dom (st_sig st t)).
    { intro t. rewrite removed_sig. cbv zeta. destruct (Nat.eqb t s) eqn:E; [apply Nat.eqb_eq in E; subst t|]; destruct (existsb _ _); reflexivity. }
    constructor.
    + intro t. rewrite C. destruct (Nat.eqb t s); [constructor|apply (wf_nd st W)].
    + intros t k H. rewrite C in H. destruct (Nat.eqb t s); [destruct H|exact (wf_sig st W _ _ H)].
    + intro t. rewrite Rf. destruct (Nat.eqb t s); [constructor|apply (wf_rnd st W)].
    + intros t e. rewrite Dm, Rf. destruct (existsb (Nat.eqb t) (s_refs (st_sig st s))) eqn:X.
      * apply smem_iff in X. apply (wf_ref st W) in X. split; [discriminate|].
        destruct (Nat.eqb e s) eqn:E; [intros []|]. intro H. apply (wf_ref st W) in H. rewrite X in H. inversion H; subst e.
        rewrite Nat.eqb_refl in E. discriminate.
      * destruct (Nat.eqb e s) eqn:E.
        -- apply Nat.eqb_eq in E. subst e. split; [|intros []]. intro H. apply (wf_ref st W) in H. apply smem_iff in H. congruence.
        -- apply (wf_ref st W).
    + intros ks ps H. rewrite Fl in H. exact (wf_fl st W _ _ H).
  - apply (wf_core st); [exact W| |reflexivity]. apply core_set. repeat split.
  - apply (wf_core st); [exact W| |reflexivity]. apply core_set. repeat split.
  - apply (wf_core st); [exact W| |reflexivity]. apply core_set. repeat split.
  - (* Copy *) unfold send_one. destruct (s_active (st_sig st s)); cbn [fst]; [|exact W].
    assert (W1 : wf (set_sig st s (check_keep (st_sig st s) p))).
    { apply (wf_core st); [exact W| |reflexivity]. apply core_set. apply core_check. }
    constructor; [apply (wf_nd _ W1)|apply (wf_sig _ W1)|apply (wf_rnd _ W1)|apply (wf_ref _ W1)|].
    cbn [st_flight set_sig]. intros ks ps H. apply in_app_iff in H. destruct H as [H|[H|[]]]; [exact (wf_fl st W _ _ H)|].
    inversion H; subst. apply (wf_nd st W).
  - (* Put *) destruct (take_nth n (st_flight st)) as [[[ks ps] r]|] eqn:E; cbn [fst]; [|exact W].
    apply take_nth_in in E. destruct E as [E1 E2].
    assert (W1 : wf (mkSt (st_sig st) (st_log st) r)).
    { constructor; [apply (wf_nd _ W)|apply (wf_sig _ W)|apply (wf_rnd _ W)|apply (wf_ref _ W)|].
      cbn [st_flight]. intros ks' ps' H. exact (wf_fl st W _ _ (E2 _ H)). }
    apply (wf_core _ _ W1); [|rewrite enqueue_all_flight; reflexivity]. intro t. rewrite enqueue_all_sig. apply core_refl.
Qed.

Lemma wf_init d0 : wf (init d0).
Proof.
  constructor; cbn; intros; try constructor; try contradiction; try discriminate; try tauto.
Qed.
Lemma run_app st h o : run st (h ++ [o]) = fst (step (run st h) o).
Proof. unfold run. rewrite fold_left_app. reflexivity. Qed.
Lemma wf_run d0 h : wf (run (init d0) h).
Proof.
  induction h as [|o h IH] using rev_ind; [apply wf_init|]. rewrite run_app. apply wf_step. exact IH.
Qed.
