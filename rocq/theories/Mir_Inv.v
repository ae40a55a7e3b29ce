(** The invariant of mirrored signals and sources, kept by every call that
    succeeds. *)
From Coq Require Import List Bool Arith Lia.
Import ListNotations.
From Verif Require Import Mir_Model Mir_Spec Mir_Proofs.

Definition acts (st : state) (v s : nat) : bool :=
  match active_source st v with Some a => Nat.eqb a s | None => false end.
Definition subs (st : state) (v s : nat) : bool :=
  g_listened (st_sig st v) && g_streamed (st_sig st v) && acts st v s.
Definition hb (st : state) (s x v : nat) : bool :=
  subs st v s && need (r_skip (st_src st s)) v (domain_of st v) x.
Definition ne (l : list nat) : bool := match l with [] => false | _ => true end.

Section Waived.
(** Sources in [p] may have signals that no longer list them. *)
Variable p : nat -> bool.

Record Inv (st : state) : Prop := mkInv {
  i_listen : forall v, g_removed (st_sig st v) = false -> g_listened (st_sig st v) = ne (g_conns (st_sig st v));
  i_removed : forall v, g_removed (st_sig st v) = true ->
    g_active (st_sig st v) = None /\ g_sources (st_sig st v) = [] /\ g_conns (st_sig st v) = [];
  i_nodup : forall v, NoDup (g_sources (st_sig st v));
  i_src : forall v s, r_alive (st_src st s) = true -> In s (g_sources (st_sig st v)) -> items st s v <> None;
  i_has : forall v s, r_alive (st_src st s) = true -> p s = false -> items st s v <> None -> In s (g_sources (st_sig st v));
  i_act : forall v s, g_active (st_sig st v) = Some s -> r_alive (st_src st s) = true -> In s (g_sources (st_sig st v));
  i_bound : forall v s, items st s v <> None -> v < st_n st;
  i_dom : forall v s d, subs st v s = true -> domain_of st v = Some d ->
    d <> v /\ (r_skip (st_src st s) = false -> items st s d <> None);
  i_cnt : Cnt st (hb st);
  i_wire : forall s g, r_alive (st_src st s) = true -> g_removed (st_sig st g) = false -> wok st s g
}.

Lemma acts_iff st v s : acts st v s = true <-> active_source st v = Some s.
Proof.
  unfold acts. destruct (active_source st v) as [a|]; [|split; discriminate].
  rewrite Nat.eqb_eq. split; congruence.
Qed.

Lemma active_alive st v s : active_source st v = Some s ->
  g_active (st_sig st v) = Some s /\ r_alive (st_src st s) = true.
Proof.
  unfold active_source. destruct (g_active (st_sig st v)) as [a|]; [|discriminate].
  destruct (r_alive (st_src st a)) eqn:E; [|discriminate]. intros H. inversion H; subst. now split.
Qed.

Lemma active_item st v s : Inv st -> active_source st v = Some s -> items st s v <> None /\ v < st_n st.
Proof.
  intros IV H. apply active_alive in H. destruct H as [H A].
  assert (In s (g_sources (st_sig st v))) by (now apply (i_act st IV)).
  assert (items st s v <> None) by (now apply (i_src st IV)).
  split; [easy|]. now apply (i_bound st IV v s).
Qed.

(** *** The two internal calls *)
Definition Hclr (H : nat -> nat -> nat -> bool) (v : nat) : nat -> nat -> nat -> bool :=
  fun s x w => if Nat.eqb w v then false else H s x w.

Lemma unsub_int st v H :
  Cnt st H ->
  (forall s, active_source st v = Some s ->
     v < st_n st /\ (forall x, items st s x <> None -> H s x v = need (r_skip (st_src st s)) v (domain_of st v) x) /\
     domain_of st v <> Some v /\ items st s v <> None /\
     (r_skip (st_src st s) = false -> forall d, domain_of st v = Some d -> items st s d <> None)) ->
  (forall s x, active_source st v <> Some s -> H s x v = false) ->
  exists st' o, unsubscribe_internal st v = (st', o) /\ failed o = false /\ eff st st' /\ Cnt st' (Hclr H v).
Proof.
  intros C Hd Hn. unfold unsubscribe_internal. destruct (active_source st v) as [s|] eqn:A.
  - destruct (Hd s eq_refl) as (Hv&HF&D1&D2&D3).
    destruct (active_alive st v s A) as [_ Al].
    destruct (unsubscribe_ok st s v (domain_of st v) H Hv Al C HF D1 D2 D3) as (st'&E&F&C').
    exists st', OK. split; [exact E|]. split; [reflexivity|]. split; [exact F|].
    refine (Cnt_ext _ _ _ _ C'). intros s' x w _ _ _. unfold Hset, Hclr.
    destruct (Nat.eqb_spec w v) as [ ->|]; [|now rewrite andb_false_r].
    destruct (Nat.eqb_spec s' s) as [ ->|Hs]; [reflexivity|]. cbn [andb]. apply Hn. congruence.
  - exists st, Ignored. split; [reflexivity|]. split; [reflexivity|]. split; [apply eff_refl|].
    refine (Cnt_ext _ _ _ _ C). intros s x w _ _ _. unfold Hclr.
    destruct (Nat.eqb_spec w v) as [ ->|]; [|reflexivity]. apply Hn. discriminate.
Qed.

Definition Hadd (st : state) (H : nat -> nat -> nat -> bool) (v : nat) : nat -> nat -> nat -> bool :=
  fun s x w => if Nat.eqb w v then acts st v s && need (r_skip (st_src st s)) v (domain_of st v) x else H s x w.

Lemma sub_int st v H st' o :
  Cnt st H -> (forall s x, H s x v = false) -> (active_source st v <> None -> v < st_n st) ->
  subscribe_internal st v = (st', o) -> failed o = false ->
  eff st st' /\ Cnt st' (Hadd st H v) /\
  (forall s d, acts st v s = true -> domain_of st v = Some d ->
     d <> v /\ (r_skip (st_src st s) = false -> items st s d <> None)).
Proof.
  intros C HF Hv E F. unfold subscribe_internal in E. unfold Hadd. unfold acts.
  destruct (active_source st v) as [s|] eqn:A.
  - destruct (subscribe_inv _ _ _ _ _ _ E F) as (D1&D2&D3).
    destruct (subscribe_ok st s v (domain_of st v) H (Hv ltac:(discriminate)) C (HF s) D1 D2 D3) as (st2&E2&F2&C2).
    rewrite E in E2. inversion E2; subst st2 o. split; [exact F2|]. split.
    + refine (Cnt_ext _ _ _ _ C2). intros s' x w _ _ _. unfold Hset.
      destruct (Nat.eqb_spec w v) as [ ->|]; [|now rewrite andb_false_r].
      destruct (Nat.eqb_spec s' s) as [ ->|Hs]; cbn [andb].
      * now rewrite Nat.eqb_refl.
      * rewrite HF. now rewrite (proj2 (Nat.eqb_neq s s')) by congruence.
    + intros s' d Hs Hdm. apply Nat.eqb_eq in Hs. subst s'. split; [congruence|].
      intros Sk. now apply D3.
  - inversion E; subst. split; [apply eff_refl|]. split.
    + refine (Cnt_ext _ _ _ _ C). intros s x w _ _ _.
      destruct (Nat.eqb_spec w v) as [ ->|]; [|reflexivity]. cbn [andb]. now rewrite HF.
    + intros s d Hs. discriminate.
Qed.

(** Facts of [hb] in a state with the invariant. *)
Lemma hb_off st s x v : subs st v s = false -> hb st s x v = false.
Proof. intros E. unfold hb. now rewrite E. Qed.

Lemma held st v : Inv st -> g_listened (st_sig st v) = true -> g_streamed (st_sig st v) = true ->
  forall s, active_source st v = Some s ->
     v < st_n st /\ (forall x, items st s x <> None -> hb st s x v = need (r_skip (st_src st s)) v (domain_of st v) x) /\
     domain_of st v <> Some v /\ items st s v <> None /\
     (r_skip (st_src st s) = false -> forall d, domain_of st v = Some d -> items st s d <> None).
Proof.
  intros IV L T s A. destruct (active_item st v s IV A) as [I1 I2].
  assert (SB : subs st v s = true) by (unfold subs; rewrite L, T; now apply acts_iff).
  split; [exact I2|]. split; [intros x _; unfold hb; now rewrite SB|].
  split.
  - intros E. now destruct (i_dom st IV v s v SB E).
  - split; [exact I1|]. intros Sk d Ed. now apply (i_dom st IV v s d SB Ed).
Qed.

Lemma subs_nact st v s : active_source st v <> Some s -> subs st v s = false.
Proof.
  intros H. unfold subs. destruct (acts st v s) eqn:E; [apply acts_iff in E; easy|]. now rewrite andb_false_r.
Qed.

Lemma let_go_ok st v : Inv st ->
  exists st' o, let_go st v = (st', o) /\ failed o = false /\ eff st st' /\ Cnt st' (Hclr (hb st) v).
Proof.
  intros IV. unfold let_go.
  destruct (g_listened (st_sig st v) && g_streamed (st_sig st v)) eqn:E.
  - apply andb_true_iff in E. destruct E as [L T].
    apply unsub_int; [exact (i_cnt st IV)|now apply held|].
    intros s x H. apply hb_off. now apply subs_nact.
  - exists st, OK. split; [reflexivity|]. split; [reflexivity|]. split; [apply eff_refl|].
    refine (Cnt_ext _ _ _ _ (i_cnt st IV)). intros s x w _ _ _. unfold Hclr.
    destruct (Nat.eqb_spec w v) as [ ->|]; [|reflexivity]. apply hb_off. unfold subs. now rewrite E.
Qed.

(** *** Changing one signal after the counts were adjusted *)
Lemma sig_put_same st v m : st_sig (put_sig st v m) v = m.
Proof. apply upd_same. Qed.
Lemma sig_put_other st v m w : w <> v -> st_sig (put_sig st v m) w = st_sig st w.
Proof. apply upd_other. Qed.


(** What stays in the sources. *)
Record effs (st st' : state) : Prop := mkF {
  f_n : st_n st' = st_n st;
  f_alive : forall s, r_alive (st_src st' s) = r_alive (st_src st s);
  f_skip : forall s, r_skip (st_src st' s) = r_skip (st_src st s);
  f_avail : forall s, r_avail (st_src st' s) = r_avail (st_src st s);
  f_items : forall s g, items st' s g = None <-> items st s g = None;
  f_wok : forall s g, wok st s g -> wok st' s g
}.
Lemma eff_effs st st' : eff st st' -> effs st st'.
Proof. intros [? ? ? ? ? ? ? ? ?]. now constructor. Qed.
Lemma effs_put st v m : effs st (put_sig st v m).
Proof. constructor; try reflexivity; auto. Qed.
Lemma effs_trans a b c : effs a b -> effs b c -> effs a c.
Proof.
  intros H1 H2. constructor.
  - now rewrite (f_n _ _ H2), (f_n _ _ H1).
  - intros s. now rewrite (f_alive _ _ H2), (f_alive _ _ H1).
  - intros s. now rewrite (f_skip _ _ H2), (f_skip _ _ H1).
  - intros s. now rewrite (f_avail _ _ H2), (f_avail _ _ H1).
  - intros s g. now rewrite (f_items _ _ H2), (f_items _ _ H1).
  - intros s g H. now apply (f_wok _ _ H2), (f_wok _ _ H1).
Qed.

(** Only signal [v] is another, with the same domain signal and removal. *)
Definition only (st st' : state) (v : nat) : Prop :=
  (forall w, w <> v -> st_sig st' w = st_sig st w) /\
  g_removed (st_sig st' v) = g_removed (st_sig st v) /\ g_domain (st_sig st' v) = g_domain (st_sig st v).

Lemma only_eff st st' v : eff st st' -> only st st' v.
Proof. intros E. unfold only. rewrite (e_sig _ _ E). auto. Qed.
Lemma only_trans a b c v : only a b v -> only b c v -> only a c v.
Proof.
  intros (A1&A2&A3) (B1&B2&B3). split; [|split; congruence].
  intros w N. rewrite B1 by exact N. now apply A1.
Qed.
Lemma only_put st v m : g_removed m = g_removed (st_sig st v) -> g_domain m = g_domain (st_sig st v) ->
  only st (put_sig st v m) v.
Proof.
  intros R D. split; [intros w N; now apply sig_put_other|]. now rewrite sig_put_same.
Qed.

Lemma only_domain st st' v w : only st st' v -> domain_of st' w = domain_of st w.
Proof.
  intros (A1&A2&A3). unfold domain_of.
  assert (E : g_domain (st_sig st' w) = g_domain (st_sig st w)).
  { destruct (Nat.eq_dec w v) as [ ->|N]; [exact A3|now rewrite A1]. }
  rewrite E. destruct (g_domain (st_sig st w)) as [d|]; [|reflexivity].
  destruct (Nat.eq_dec d v) as [ ->|N]; [now rewrite A2|now rewrite A1].
Qed.

Lemma acts_alive st st' v s : (forall x, r_alive (st_src st' x) = r_alive (st_src st x)) ->
  g_active (st_sig st' v) = g_active (st_sig st v) -> acts st' v s = acts st v s.
Proof.
  intros A E. unfold acts, active_source. rewrite E.
  destruct (g_active (st_sig st v)) as [a|]; [|reflexivity]. now rewrite A.
Qed.

Lemma only_subs st st' v w s : effs st st' -> only st st' v -> w <> v -> subs st' w s = subs st w s.
Proof.
  intros F (A1&_&_) N. unfold subs. rewrite (A1 w N).
  now rewrite (acts_alive st st' w s (f_alive _ _ F)) by now rewrite (A1 w N).
Qed.

Lemma keep0 st st' v Hx :
  Inv st -> effs st st' -> only st st' v ->
  NoDup (g_sources (st_sig st' v)) ->
  (forall s, In s (g_sources (st_sig st' v)) ->
     In s (g_sources (st_sig st v)) \/ g_removed (st_sig st v) = false /\ items st s v <> None) ->
  (forall s, r_alive (st_src st s) = true -> p s = false -> In s (g_sources (st_sig st v)) -> In s (g_sources (st_sig st' v))) ->
  (g_removed (st_sig st v) = false -> g_listened (st_sig st' v) = ne (g_conns (st_sig st' v))) ->
  (g_removed (st_sig st v) = true -> g_active (st_sig st' v) = None /\ g_conns (st_sig st' v) = []) ->
  (forall s, g_active (st_sig st' v) = Some s -> r_alive (st_src st s) = true -> In s (g_sources (st_sig st' v))) ->
  (forall s d, subs st' v s = true -> domain_of st v = Some d ->
     d <> v /\ (r_skip (st_src st s) = false -> items st s d <> None)) ->
  Cnt st' Hx ->
  (forall s x w, w <> v -> Hx s x w = hb st s x w) ->
  (forall s x, r_alive (st_src st s) = true -> Hx s x v = subs st' v s && need (r_skip (st_src st s)) v (domain_of st v) x) ->
  Inv st'.
Proof.
  intros IV E O ND SR SR2 L RM AC DM C H1 H2. pose proof O as (O1&O2&O3).
  constructor.
  - intros w. destruct (Nat.eq_dec w v) as [ ->|N]; [now rewrite O2|].
    rewrite O1 by exact N. apply (i_listen st IV).
  - intros w. destruct (Nat.eq_dec w v) as [ ->|N].
    + rewrite O2. intros RT. destruct (RM RT) as [A1 A2].
      destruct (i_removed st IV v RT) as (_&B&_). split; [exact A1|]. split; [|exact A2].
      destruct (g_sources (st_sig st' v)) as [|q l] eqn:Q; [reflexivity|].
      destruct (SR q (or_introl eq_refl)) as [Z|[Z _]]; [now rewrite B in Z|congruence].
    + rewrite O1 by exact N. apply (i_removed st IV).
  - intros w. destruct (Nat.eq_dec w v) as [ ->|N]; [exact ND|].
    rewrite O1 by exact N. apply (i_nodup st IV).
  - intros w s A. rewrite (f_alive _ _ E) in A. rewrite (f_items _ _ E).
    destruct (Nat.eq_dec w v) as [ ->|N].
    + intros HI. destruct (SR s HI) as [Z|[_ Z]]; [now apply (i_src st IV)|exact Z].
    + rewrite O1 by exact N. now apply (i_src st IV).
  - intros w s A P. rewrite (f_alive _ _ E) in A. rewrite (f_items _ _ E).
    destruct (Nat.eq_dec w v) as [ ->|N].
    + intros HI. apply SR2; [exact A|exact P|]. now apply (i_has st IV).
    + rewrite O1 by exact N. now apply (i_has st IV).
  - intros w s HA A. rewrite (f_alive _ _ E) in A.
    destruct (Nat.eq_dec w v) as [ ->|N]; [now apply AC|].
    rewrite O1 in * by exact N. now apply (i_act st IV).
  - intros w s. rewrite (f_items _ _ E), (f_n _ _ E). apply (i_bound st IV).
  - intros w s d SB HD. rewrite (only_domain st st' v w O) in HD. rewrite (f_skip _ _ E), (f_items _ _ E).
    destruct (Nat.eq_dec w v) as [ ->|N]; [now apply DM|].
    rewrite (only_subs st st' v w s E O N) in SB. now apply (i_dom st IV w s d).
  - intros s x k A I. rewrite (C s x k A I). apply cntl_ext. intros w _.
    unfold hb. rewrite (only_domain st st' v w O), (f_skip _ _ E).
    rewrite (f_alive _ _ E) in A.
    destruct (Nat.eq_dec w v) as [ ->|N]; [now apply H2|].
    rewrite (only_subs st st' v w s E O N). now apply H1.
  - intros s g A RG. rewrite (f_alive _ _ E) in A.
    apply (f_wok _ _ E). apply (i_wire st IV); [exact A|].
    destruct (Nat.eq_dec g v) as [ ->|N]; [congruence|]. now rewrite O1 in RG by exact N.
Qed.

Lemma keep st st' v Hx :
  Inv st -> effs st st' -> only st st' v ->
  g_sources (st_sig st' v) = g_sources (st_sig st v) ->
  (g_removed (st_sig st v) = false -> g_listened (st_sig st' v) = ne (g_conns (st_sig st' v))) ->
  (g_removed (st_sig st v) = true -> g_active (st_sig st' v) = None /\ g_conns (st_sig st' v) = []) ->
  (forall s, g_active (st_sig st' v) = Some s -> r_alive (st_src st s) = true -> In s (g_sources (st_sig st v))) ->
  (forall s d, subs st' v s = true -> domain_of st v = Some d ->
     d <> v /\ (r_skip (st_src st s) = false -> items st s d <> None)) ->
  Cnt st' Hx ->
  (forall s x w, w <> v -> Hx s x w = hb st s x w) ->
  (forall s x, r_alive (st_src st s) = true -> Hx s x v = subs st' v s && need (r_skip (st_src st s)) v (domain_of st v) x) ->
  Inv st'.
Proof.
  intros IV E O SR L RM AC DM C H1 H2.
  apply (keep0 st st' v Hx); try assumption; rewrite ?SR; auto. apply (i_nodup st IV).
Qed.

(** *** The calls on one signal *)
Lemma acts_off st v s : g_active (st_sig st v) = None -> acts st v s = false.
Proof. intros E. unfold acts, active_source. now rewrite E. Qed.

Lemma domain_eff st st1 w : eff st st1 -> domain_of st1 w = domain_of st w.
Proof. intros E. apply (only_domain st st1 w w). now apply only_eff. Qed.

(** Turning the subscription of [v] on: [st1] differs from [st] in [v] only and
    [v] was not subscribed in [st]. *)
Lemma turn_on st st1 v st2 o :
  Inv st -> effs st st1 -> only st st1 v -> Cnt st1 (hb st) ->
  (forall s, active_source st1 v = Some s -> items st s v <> None) ->
  (forall s, subs st v s = false) ->
  subscribe_internal st1 v = (st2, o) -> failed o = false ->
  eff st1 st2 /\
  Cnt st2 (fun s x w => if Nat.eqb w v then acts st1 v s && need (r_skip (st_src st s)) v (domain_of st v) x else hb st s x w) /\
  (forall s d, acts st1 v s = true -> domain_of st v = Some d ->
     d <> v /\ (r_skip (st_src st s) = false -> items st s d <> None)).
Proof.
  intros IV F O C IT SB E FL.
  assert (B : active_source st1 v <> None -> v < st_n st1).
  { intros H. destruct (active_source st1 v) as [s|] eqn:A; [|easy].
    rewrite (f_n _ _ F). apply (i_bound st IV v s). now apply IT. }
  destruct (sub_int st1 v (hb st) st2 o C (fun s x => hb_off _ _ _ _ (SB s)) B E FL) as (E2&C2&D2).
  split; [exact E2|]. split.
  - refine (Cnt_ext _ _ _ _ C2). intros s x w _ _ _. unfold Hadd.
    now rewrite (only_domain st st1 v v O), (f_skip _ _ F).
  - intros s d A D. rewrite <- (only_domain st st1 v v O) in D. destruct (D2 s d A D) as [D3 D4].
    split; [exact D3|]. intros Sk. rewrite <- (f_items _ _ F). apply D4. now rewrite (f_skip _ _ F).
Qed.

Lemma turn_off st st1 v :
  Inv st -> effs st st1 -> only st st1 v -> Cnt st1 (hb st) ->
  g_active (st_sig st1 v) = g_active (st_sig st v) ->
  g_listened (st_sig st v) = true -> g_streamed (st_sig st v) = true ->
  exists st2 o, unsubscribe_internal st1 v = (st2, o) /\ failed o = false /\ eff st1 st2 /\ Cnt st2 (Hclr (hb st) v).
Proof.
  intros IV F O C A L T.
  assert (AS : active_source st1 v = active_source st v).
  { unfold active_source. rewrite A. destruct (g_active (st_sig st v)) as [a|]; [|reflexivity].
    now rewrite (f_alive _ _ F). }
  apply unsub_int; [exact C| |].
  - intros s Hs. rewrite AS in Hs. destruct (held st v IV L T s Hs) as (D1&D2&D3&D4&D5).
    rewrite (only_domain st st1 v v O), (f_skip _ _ F), (f_n _ _ F), (f_items _ _ F).
    split; [exact D1|]. split.
    + intros x Hx. rewrite (f_items _ _ F) in Hx. now apply D2.
    + split; [exact D3|]. split; [exact D4|]. intros Sk d Hd. rewrite (f_items _ _ F). now apply D5.
  - intros s x Hs. rewrite AS in Hs. apply hb_off. now apply subs_nact.
Qed.

Lemma not_listened st v s : g_listened (st_sig st v) = false -> subs st v s = false.
Proof. intros E. unfold subs. now rewrite E. Qed.

Lemma inv_connect st v c st' o : Inv st -> v < st_n st -> connect st v c = (st', o) -> failed o = false -> Inv st'.
Proof.
  intros IV Hv E F. unfold connect in E.
  destruct (g_removed (st_sig st v)) eqn:R; [inversion E; subst; discriminate|].
  destruct (memb c (g_conns (st_sig st v))) eqn:M; [inversion E; subst; discriminate|].
  destruct (g_conns (st_sig st v)) as [|c0 cs] eqn:CN.
  - (* the first listener *)
    assert (L : g_listened (st_sig st v) = false) by (rewrite (i_listen st IV v R), CN; reflexivity).
    unfold on_listened in E. rewrite L in E. cbn [Bool.eqb] in E.
    set (st1 := put_sig st v (set_listened (st_sig st v) true)) in *.
    assert (F1 : effs st st1) by apply effs_put.
    assert (O1 : only st st1 v) by (now apply only_put).
    destruct (g_streamed (st_sig st v)) eqn:T.
    + destruct (subscribe_internal st1 v) as [st2 o2] eqn:SI.
      destruct (failed o2) eqn:F2; [inversion E; subst; congruence|]. inversion E; subst st' o. clear E.
      destruct (turn_on st st1 v st2 o2 IV F1 O1 (i_cnt st IV)) as (E2&C2&D2); [| |exact SI|exact F2|].
      { intros s A. apply (active_item st v s IV). unfold active_source in *.
        replace (st_sig st1 v) with (set_listened (st_sig st v) true) in A; [exact A|].
        symmetry. apply sig_put_same. }
      { intros s. now apply not_listened. }
      set (st' := put_sig st2 v _).
      assert (V2 : st_sig st2 v = set_listened (st_sig st v) true).
      { rewrite (e_sig _ _ E2). apply sig_put_same. }
      assert (V' : st_sig st' v = set_conns (set_listened (st_sig st v) true) ([] ++ [c])).
      { unfold st'. rewrite sig_put_same, V2. cbn [g_conns set_listened]. now rewrite CN. }
      assert (F' : effs st st').
      { apply (effs_trans _ st1 _ F1). apply (effs_trans _ st2 _ (eff_effs _ _ E2)). apply effs_put. }
      assert (O' : only st st' v).
      { apply (only_trans _ st1 _ _ O1). apply (only_trans _ st2 _ _ (only_eff _ _ _ E2)). now apply only_put. }
      assert (A1 : forall s, acts st' v s = acts st1 v s).
      { intros s. apply acts_alive; [intros x; now rewrite (f_alive _ _ F')|].
        rewrite V'. replace (st_sig st1 v) with (set_listened (st_sig st v) true); [reflexivity|].
        symmetry. apply sig_put_same. }
      refine (keep st st' v _ IV F' O' _ _ _ _ _ C2 _ _); rewrite ?V'; try reflexivity.
      * congruence.
      * intros s. cbn [g_active set_conns set_listened]. apply (i_act st IV).
      * intros s d SB. unfold subs in SB. rewrite V', A1 in SB. cbn [g_listened set_conns set_listened] in SB.
        rewrite !andb_true_iff in SB. now apply D2.
      * intros s x w N. now rewrite (proj2 (Nat.eqb_neq w v) N).
      * intros s x _. rewrite Nat.eqb_refl. unfold subs. rewrite V', A1.
        cbn [g_listened g_streamed set_conns set_listened]. now rewrite T.
    + cbn [failed] in E. inversion E; subst st' o. clear E.
      set (st' := put_sig st1 v _).
      assert (V' : st_sig st' v = set_conns (set_listened (st_sig st v) true) ([] ++ [c])).
      { unfold st', st1. rewrite sig_put_same, ?upd_same. cbn [g_conns set_listened]. now rewrite CN. }
      assert (F' : effs st st') by (apply (effs_trans _ st1 _ F1); apply effs_put).
      assert (O' : only st st' v) by (apply (only_trans _ st1 _ _ O1); now apply only_put).
      assert (SB : forall s, subs st' v s = false) by (intros s; unfold subs; rewrite V'; cbn [g_streamed set_conns set_listened]; now rewrite T).
      refine (keep st st' v (hb st) IV F' O' _ _ _ _ _ (i_cnt st IV) _ _); rewrite ?V'; try reflexivity.
      * congruence.
      * intros s. cbn [g_active set_conns set_listened]. apply (i_act st IV).
      * intros s d. rewrite SB. discriminate.
      * intros s x _. rewrite SB. apply hb_off. now apply not_listened.
  - cbn [failed] in E. inversion E; subst st' o. clear E. rewrite CN.
    set (st' := put_sig st v _).
    assert (V' : st_sig st' v = set_conns (st_sig st v) ((c0 :: cs) ++ [c])) by apply sig_put_same.
    assert (F' : effs st st') by apply effs_put.
    assert (O' : only st st' v) by now apply only_put.
    assert (SB : forall s, subs st' v s = subs st v s).
    { intros s. unfold subs. rewrite V'. cbn [g_listened g_streamed set_conns].
      now rewrite (acts_alive st st' v s (f_alive _ _ F')) by now rewrite V'. }
    refine (keep st st' v (hb st) IV F' O' _ _ _ _ _ (i_cnt st IV) _ _); rewrite ?V'; try reflexivity.
    + intros _. cbn [g_listened set_conns g_conns ne app]. rewrite (i_listen st IV v R), CN. reflexivity.
    + congruence.
    + intros s. cbn [g_active set_conns]. apply (i_act st IV).
    + intros s d. rewrite SB. apply (i_dom st IV).
    + intros s x _. now rewrite SB.
Qed.

Lemma inv_disconnect st v c st' o : Inv st -> disconnect st v c = (st', o) -> Inv st' /\ (memb c (g_conns (st_sig st v)) = true -> failed o = false).
Proof.
  intros IV E. unfold disconnect in E.
  destruct (memb c (g_conns (st_sig st v))) eqn:M; [|inversion E; subst; now split].
  assert (NE : g_conns (st_sig st v) <> []) by (intros Z; rewrite Z in M; discriminate).
  assert (R : g_removed (st_sig st v) = false).
  { destruct (g_removed (st_sig st v)) eqn:R; [|reflexivity]. now destruct (i_removed st IV v R) as (_&_&Z). }
  assert (L : g_listened (st_sig st v) = true).
  { rewrite (i_listen st IV v R). now destruct (g_conns (st_sig st v)). }
  set (st1 := put_sig st v (set_conns (st_sig st v) (erase c (g_conns (st_sig st v))))) in *.
  assert (V1 : st_sig st1 v = set_conns (st_sig st v) (erase c (g_conns (st_sig st v)))) by apply sig_put_same.
  assert (F1 : effs st st1) by apply effs_put.
  assert (O1 : only st st1 v) by now apply only_put.
  rewrite V1 in E. cbn [g_conns set_conns] in E.
  destruct (erase c (g_conns (st_sig st v))) as [|c1 cs] eqn:CN.
  - unfold on_listened in E. rewrite V1 in E. cbn [g_listened g_streamed set_conns] in E. rewrite L in E. cbn [Bool.eqb] in E.
    set (st2 := put_sig st1 v (set_listened (set_conns (st_sig st v) []) false)) in *.
    assert (V2 : st_sig st2 v = set_listened (set_conns (st_sig st v) []) false) by apply sig_put_same.
    assert (F2 : effs st st2) by (apply (effs_trans _ st1 _ F1); apply effs_put).
    assert (O2 : only st st2 v) by (apply (only_trans _ st1 _ _ O1); apply only_put; now rewrite V1).
    destruct (g_streamed (st_sig st v)) eqn:T.
    + destruct (turn_off st st2 v IV F2 O2 (i_cnt st IV)) as (st3&o3&E3&FL&EF&C3); [now rewrite V2|exact L|exact T|].
      rewrite E3, FL in E. inversion E; subst st' o. split; [|reflexivity].
      assert (V3 : st_sig st3 v = set_listened (set_conns (st_sig st v) []) false) by now rewrite (e_sig _ _ EF).
      assert (F3 : effs st st3) by (apply (effs_trans _ st2 _ F2); now apply eff_effs).
      assert (O3 : only st st3 v) by (apply (only_trans _ st2 _ _ O2); now apply only_eff).
      assert (SB : forall s, subs st3 v s = false) by (intros s; apply not_listened; now rewrite V3).
      refine (keep st st3 v _ IV F3 O3 _ _ _ _ _ C3 _ _); rewrite ?V3; try reflexivity.
      * congruence.
      * intros s. cbn [g_active set_conns set_listened]. apply (i_act st IV).
      * intros s d. rewrite SB. discriminate.
      * intros s x w N. unfold Hclr. now rewrite (proj2 (Nat.eqb_neq w v) N).
      * intros s x _. unfold Hclr. now rewrite Nat.eqb_refl, SB.
    + inversion E; subst st' o. split; [|reflexivity].
      assert (SB : forall s, subs st2 v s = false) by (intros s; apply not_listened; now rewrite V2).
      refine (keep st st2 v (hb st) IV F2 O2 _ _ _ _ _ (i_cnt st IV) _ _); rewrite ?V2; try reflexivity.
      * congruence.
      * intros s. cbn [g_active set_conns set_listened]. apply (i_act st IV).
      * intros s d. rewrite SB. discriminate.
      * intros s x _. rewrite SB. apply hb_off. unfold subs. now rewrite L, T.
  - inversion E; subst st' o. split; [|reflexivity].
    assert (SB : forall s, subs st1 v s = subs st v s).
    { intros s. unfold subs. rewrite V1. cbn [g_listened g_streamed set_conns].
      now rewrite (acts_alive st st1 v s (f_alive _ _ F1)) by now rewrite V1. }
    refine (keep st st1 v (hb st) IV F1 O1 _ _ _ _ _ (i_cnt st IV) _ _); rewrite ?V1; try reflexivity.
    + intros _. cbn [g_listened set_conns g_conns ne]. exact L.
    + congruence.
    + intros s. cbn [g_active set_conns]. apply (i_act st IV).
    + intros s d. rewrite SB. apply (i_dom st IV).
    + intros s x _. now rewrite SB.
Qed.

Lemma inv_deactivate st v : Inv st ->
  Inv (fst (deactivate st v)) /\ failed (snd (deactivate st v)) = false /\
  effs st (fst (deactivate st v)) /\ only st (fst (deactivate st v)) v /\
  g_active (st_sig (fst (deactivate st v)) v) = None.
Proof.
  intros IV. unfold deactivate. destruct (let_go_ok st v IV) as (st1&o&E&F&EF&C).
  rewrite E, F. cbn [fst snd].
  set (st' := put_sig st1 v _).
  assert (V' : st_sig st' v = set_act (st_sig st v) None) by (unfold st'; now rewrite sig_put_same, (e_sig _ _ EF)).
  assert (F' : effs st st') by (apply (effs_trans _ st1 _ (eff_effs _ _ EF)); apply effs_put).
  assert (O' : only st st' v) by (apply (only_trans _ st1 _ _ (only_eff _ _ _ EF)); now apply only_put).
  assert (SB : forall s, subs st' v s = false).
  { intros s. unfold subs. rewrite acts_off; [now rewrite andb_false_r|now rewrite V']. }
  split; [|split; [reflexivity|split; [exact F'|split; [exact O'|now rewrite V']]]].
  refine (keep st st' v _ IV F' O' _ _ _ _ _ C _ _); rewrite ?V'; try reflexivity.
  - cbn [g_listened g_conns set_act]. apply (i_listen st IV).
  - cbn [g_active g_conns set_act]. intros R. split; [reflexivity|]. apply (i_removed st IV v R).
  - discriminate.
  - intros s d. rewrite SB. discriminate.
  - intros s x w N. unfold Hclr. now rewrite (proj2 (Nat.eqb_neq w v) N).
  - intros s x _. unfold Hclr. now rewrite Nat.eqb_refl, SB.
Qed.

Lemma inv_set_streamed st v b st' o : Inv st -> v < st_n st -> set_streamed st v b = (st', o) -> failed o = false -> Inv st'.
Proof.
  intros IV Hv E F. unfold set_streamed in E.
  destruct (Bool.eqb b (g_streamed (st_sig st v))) eqn:B; [now inversion E; subst|].
  set (st1 := put_sig st v (set_str (st_sig st v) b)) in *.
  assert (V1 : st_sig st1 v = set_str (st_sig st v) b) by apply sig_put_same.
  assert (F1 : effs st st1) by apply effs_put.
  assert (O1 : only st st1 v) by now apply only_put.
  assert (B' : g_streamed (st_sig st v) = negb b) by (destruct b, (g_streamed (st_sig st v)); cbn in *; congruence).
  assert (A1 : forall s, acts st1 v s = acts st v s).
  { intros s. apply acts_alive; [apply (f_alive _ _ F1)|now rewrite V1]. }
  destruct (g_listened (st_sig st v)) eqn:L.
  - destruct b.
    + destruct (subscribe_internal st1 v) as [st2 o2] eqn:SI.
      destruct (failed o2) eqn:F2; [inversion E; subst; congruence|]. inversion E; subst st' o. clear E.
      destruct (turn_on st st1 v st2 o2 IV F1 O1 (i_cnt st IV)) as (E2&C2&D2); [| |exact SI|exact F2|].
      { intros s A. unfold active_source in A. rewrite V1 in A. now apply (active_item st v s IV). }
      { intros s. unfold subs. now rewrite B', andb_false_r. }
      assert (V2 : st_sig st2 v = set_str (st_sig st v) true) by now rewrite (e_sig _ _ E2).
      assert (FF : effs st st2) by (apply (effs_trans _ st1 _ F1); now apply eff_effs).
      assert (OO : only st st2 v) by (apply (only_trans _ st1 _ _ O1); now apply only_eff).
      assert (A2 : forall s, acts st2 v s = acts st1 v s).
      { intros s. apply acts_alive; [apply (e_alive _ _ E2)|now rewrite V1, V2]. }
      refine (keep st st2 v _ IV FF OO _ _ _ _ _ C2 _ _); rewrite ?V2; try reflexivity.
      * apply (i_listen st IV).
      * cbn [g_active g_conns set_str]. intros R. destruct (i_removed st IV v R) as (Q1&_&Q2). now split.
      * intros s. cbn [g_active set_str]. apply (i_act st IV).
      * intros s d SB. unfold subs in SB. rewrite V2, A2, !andb_true_iff in SB. now apply D2.
      * intros s x w N. now rewrite (proj2 (Nat.eqb_neq w v) N).
      * intros s x _. rewrite Nat.eqb_refl. unfold subs. rewrite V2, A2.
        cbn [g_listened g_streamed set_str]. now rewrite L.
    + destruct (turn_off st st1 v IV F1 O1 (i_cnt st IV)) as (st2&o2&E2&FL&EF&C2); [now rewrite V1|exact L|exact B'|].
      rewrite E2, FL in E. inversion E; subst st' o. clear E.
      assert (V2 : st_sig st2 v = set_str (st_sig st v) false) by now rewrite (e_sig _ _ EF).
      assert (FF : effs st st2) by (apply (effs_trans _ st1 _ F1); now apply eff_effs).
      assert (OO : only st st2 v) by (apply (only_trans _ st1 _ _ O1); now apply only_eff).
      assert (SB : forall s, subs st2 v s = false) by (intros s; unfold subs; rewrite V2; cbn [g_streamed set_str]; now rewrite andb_false_r).
      refine (keep st st2 v _ IV FF OO _ _ _ _ _ C2 _ _); rewrite ?V2; try reflexivity.
      * apply (i_listen st IV).
      * cbn [g_active g_conns set_str]. intros R. destruct (i_removed st IV v R) as (Q1&_&Q2). now split.
      * intros s. cbn [g_active set_str]. apply (i_act st IV).
      * intros s d. rewrite SB. discriminate.
      * intros s x w N. unfold Hclr. now rewrite (proj2 (Nat.eqb_neq w v) N).
      * intros s x _. unfold Hclr. now rewrite Nat.eqb_refl, SB.
  - inversion E; subst st' o. clear E.
    assert (SB : forall s, subs st1 v s = false) by (intros s; apply not_listened; now rewrite V1).
    refine (keep st st1 v (hb st) IV F1 O1 _ _ _ _ _ (i_cnt st IV) _ _); rewrite ?V1; try reflexivity.
    + apply (i_listen st IV).
    + cbn [g_active g_conns set_str]. intros R. destruct (i_removed st IV v R) as (Q1&_&Q2). now split.
    + intros s. cbn [g_active set_str]. apply (i_act st IV).
    + intros s d. rewrite SB. discriminate.
    + intros s x _. rewrite SB. apply hb_off. now apply not_listened.
Qed.

Lemma inv_set_active st v s0 st' o : Inv st -> v < st_n st -> set_active st v s0 = (st', o) -> failed o = false -> Inv st'.
Proof.
  intros IV Hv E F. unfold set_active in E.
  destruct (match active_source st v with Some a => Nat.eqb a s0 | None => false end); [now inversion E; subst|].
  destruct (memb s0 (g_sources (st_sig st v))) eqn:M; cbn [negb] in E; [|inversion E; subst; discriminate].
  destruct (r_alive (st_src st s0)) eqn:Al; cbn [negb] in E; [|inversion E; subst; discriminate].
  apply memb_In in M.
  assert (R : g_removed (st_sig st v) = false).
  { destruct (g_removed (st_sig st v)) eqn:R; [|reflexivity].
    destruct (i_removed st IV v R) as (_&Z&_). now rewrite Z in M. }
  destruct (let_go_ok st v IV) as (st1&o1&E1&FL&EF&C). rewrite E1, FL in E.
  set (st2 := put_sig st1 v (set_act (st_sig st1 v) (Some s0))) in *.
  assert (V2 : st_sig st2 v = set_act (st_sig st v) (Some s0)) by (unfold st2; now rewrite sig_put_same, (e_sig _ _ EF)).
  assert (F2 : effs st st2) by (apply (effs_trans _ st1 _ (eff_effs _ _ EF)); apply effs_put).
  assert (O2 : only st st2 v) by (apply (only_trans _ st1 _ _ (only_eff _ _ _ EF)); now apply only_put).
  assert (AS : active_source st2 v = Some s0).
  { unfold active_source. rewrite V2. cbn [g_active set_act]. now rewrite (f_alive _ _ F2), Al. }
  destruct (g_listened (st_sig st v) && g_streamed (st_sig st v)) eqn:LT.
  - destruct (subscribe_internal st2 v) as [st3 o3] eqn:SI.
    destruct (failed o3) eqn:F3; [inversion E; subst; congruence|]. inversion E; subst st' o. clear E.
    assert (B2 : active_source st2 v <> None -> v < st_n st2) by (intros _; now rewrite (f_n _ _ F2)).
    assert (HZ : forall s x, Hclr (hb st) v s x v = false) by (intros; unfold Hclr; now rewrite Nat.eqb_refl).
    destruct (sub_int st2 v (Hclr (hb st) v) st3 o3 C HZ B2 SI F3) as (E3&C3&D3).
    assert (V3 : st_sig st3 v = set_act (st_sig st v) (Some s0)) by now rewrite (e_sig _ _ E3).
    assert (FF : effs st st3) by (apply (effs_trans _ st2 _ F2); now apply eff_effs).
    assert (OO : only st st3 v) by (apply (only_trans _ st2 _ _ O2); now apply only_eff).
    assert (A3 : forall s, acts st3 v s = acts st2 v s).
    { intros s. apply acts_alive; [apply (e_alive _ _ E3)|now rewrite V2, V3]. }
    refine (keep st st3 v _ IV FF OO _ _ _ _ _ C3 _ _); rewrite ?V3; try reflexivity.
    + intros _. apply (i_listen st IV v R).
    + congruence.
    + intros s. cbn [g_active set_act]. intros H _. inversion H; subst. exact M.
    + intros s d SB HD. unfold subs in SB. rewrite A3, !andb_true_iff in SB.
      rewrite <- (only_domain st st2 v v O2) in HD. destruct (D3 s d (proj2 SB) HD) as [Q1 Q2].
      split; [exact Q1|]. intros Sk. rewrite <- (f_items _ _ F2). apply Q2. now rewrite (f_skip _ _ F2).
    + intros s x w N. unfold Hadd, Hclr. now rewrite (proj2 (Nat.eqb_neq w v) N).
    + intros s x _. unfold Hadd. rewrite Nat.eqb_refl. unfold subs. rewrite A3, V3.
      cbn [g_listened g_streamed set_act]. rewrite LT. cbn [andb].
      now rewrite (only_domain st st2 v v O2), (f_skip _ _ F2).
  - inversion E; subst st' o. clear E.
    assert (SB : forall s, subs st2 v s = false) by (intros s; unfold subs; rewrite V2; cbn [g_listened g_streamed set_act]; now rewrite LT).
    refine (keep st st2 v _ IV F2 O2 _ _ _ _ _ C _ _); rewrite ?V2; try reflexivity.
    + intros _. apply (i_listen st IV v R).
    + congruence.
    + intros s. cbn [g_active set_act]. intros H _. inversion H; subst. exact M.
    + intros s d. rewrite SB. discriminate.
    + intros s x w N. unfold Hclr. now rewrite (proj2 (Nat.eqb_neq w v) N).
    + intros s x _. unfold Hclr. now rewrite Nat.eqb_refl, SB.
Qed.

(** *** A signal lets go of a source *)
Lemma remove_source_ok st v s0 st' o :
  Inv st -> (r_alive (st_src st s0) = true -> p s0 = true) -> remove_source st v s0 = (st', o) ->
  Inv st' /\ effs st st' /\ only st st' v /\ (In s0 (g_sources (st_sig st v)) -> failed o = false) /\
  (failed o = false -> ~ In s0 (g_sources (st_sig st' v))) /\
  (forall s w, In s (g_sources (st_sig st' w)) -> In s (g_sources (st_sig st w))).
Proof.
  intros IV P E. unfold remove_source in E.
  destruct (memb s0 (g_sources (st_sig st v))) eqn:M.
  2:{ inversion E; subst. split; [exact IV|]. split; [constructor; try reflexivity; auto|].
      split; [split; auto|]. split; [|split; [discriminate|auto]].
      intros H. apply memb_In in H. congruence. }
  set (st1 := put_sig st v (set_sources (st_sig st v) (erase s0 (g_sources (st_sig st v))))) in *.
  pose proof (i_nodup st IV v) as ND.
  assert (V1 : st_sig st1 v = set_sources (st_sig st v) (erase s0 (g_sources (st_sig st v)))) by apply sig_put_same.
  assert (F1 : effs st st1) by apply effs_put.
  assert (O1 : only st st1 v) by now apply only_put.
  assert (R : g_removed (st_sig st v) = false).
  { destruct (g_removed (st_sig st v)) eqn:R; [|reflexivity].
    destruct (i_removed st IV v R) as (_&Z&_). rewrite Z in M. discriminate. }
  assert (K : forall st2 Hx a, effs st st2 -> only st st2 v ->
     st_sig st2 v = set_act (set_sources (st_sig st v) (erase s0 (g_sources (st_sig st v)))) a ->
     (forall s, a = Some s -> r_alive (st_src st s) = true -> g_active (st_sig st v) = Some s /\ s <> s0) ->
     Cnt st2 Hx ->
     (forall s x w, w <> v -> Hx s x w = hb st s x w) ->
     (forall s x, r_alive (st_src st s) = true -> Hx s x v = subs st2 v s && need (r_skip (st_src st s)) v (domain_of st v) x) ->
     Inv st2 /\ effs st st2 /\ only st st2 v /\ (In s0 (g_sources (st_sig st v)) -> failed OK = false) /\
     (failed OK = false -> ~ In s0 (g_sources (st_sig st2 v))) /\
     (forall s w, In s (g_sources (st_sig st2 w)) -> In s (g_sources (st_sig st w)))).
  { intros st2 Hx a F2 O2 V2 HA C2 H1 H2.
    assert (SRC : forall s, In s (g_sources (st_sig st2 v)) <-> In s (g_sources (st_sig st v)) /\ s <> s0).
    { intros s. rewrite V2. cbn [g_sources set_act set_sources]. now apply erase_In. }
    assert (ACT : forall s, subs st2 v s = true -> subs st v s = true).
    { intros s SB. unfold subs in *. rewrite V2 in SB. cbn [g_listened g_streamed set_act set_sources] in SB.
      apply andb_true_iff in SB. destruct SB as [SB1 SB2]. rewrite SB1. cbn [andb].
      apply acts_iff in SB2. apply active_alive in SB2. destruct SB2 as [SB2 SB3].
      rewrite V2 in SB2. cbn [g_active set_act] in SB2. rewrite (f_alive _ _ F2) in SB3.
      destruct (HA s SB2 SB3) as [Q _]. apply acts_iff. unfold active_source. now rewrite Q, SB3. }
    split; [|split; [exact F2|split; [exact O2|split; [reflexivity|]]]].
    - apply (keep0 st st2 v Hx); try assumption.
      + rewrite V2. cbn [g_sources set_act set_sources]. now apply erase_NoDup.
      + intros s Hs. left. now apply SRC.
      + intros s A Ps Hs. apply SRC. split; [exact Hs|]. intros ->. rewrite (P A) in Ps. discriminate.
      + intros _. rewrite V2. cbn [g_listened g_conns set_act set_sources]. now apply (i_listen st IV).
      + congruence.
      + intros s Hs A. rewrite V2 in Hs. cbn [g_active set_act] in Hs. destruct (HA s Hs A) as [Q1 Q2].
        apply SRC. split; [|exact Q2]. now apply (i_act st IV).
      + intros s d SB. apply (i_dom st IV). now apply ACT.
    - split.
      + intros _ Hs. apply SRC in Hs. easy.
      + intros s w Hs. destruct (Nat.eq_dec w v) as [ ->|N]; [now apply SRC in Hs|].
        destruct O2 as (O2&_). now rewrite (O2 w N) in Hs. }
  unfold drop_active in E. rewrite V1 in E. cbn [g_active set_sources] in E.
  assert (SAME : forall s x a, a = g_active (st_sig st v) -> st_sig st1 v = set_act (set_sources (st_sig st v) (erase s0 (g_sources (st_sig st v)))) a -> hb st s x v = subs st1 v s && need (r_skip (st_src st s)) v (domain_of st v) x).
  { intros s x a -> V. unfold hb. f_equal. unfold subs. rewrite V1. cbn [g_listened g_streamed set_sources].
    rewrite (acts_alive st st1 v s (f_alive _ _ F1)); [reflexivity|]. now rewrite V1. }
  destruct (g_active (st_sig st v)) as [a|] eqn:A.
  - change (st_src st1) with (st_src st) in E.
    destruct (r_alive (st_src st a)) eqn:Al; cbn [negb] in E.
    + destruct (Nat.eqb_spec a s0) as [ ->|Na].
      * (* the active source is the one that goes *)
        assert (AS : active_source st v = Some s0) by (unfold active_source; now rewrite A, Al).
        unfold let_go in E. rewrite V1 in E. cbn [g_listened g_streamed set_sources] in E.
        destruct (g_listened (st_sig st v) && g_streamed (st_sig st v)) eqn:LT.
        -- pose proof LT as LT'. apply andb_true_iff in LT'. destruct LT' as [L T].
           destruct (turn_off st st1 v IV F1 O1 (i_cnt st IV)) as (st2&o2&E2&FL&EF&C2); [now rewrite V1|exact L|exact T|].
           rewrite E2, FL in E. inversion E; subst st' o. clear E.
           apply (K _ (Hclr (hb st) v) None).
           ++ apply (effs_trans _ st1 _ F1). apply (effs_trans _ st2 _ (eff_effs _ _ EF)). apply effs_put.
           ++ apply (only_trans _ st1 _ _ O1). apply (only_trans _ st2 _ _ (only_eff _ _ _ EF)). now apply only_put.
           ++ rewrite sig_put_same, (e_sig _ _ EF), V1. reflexivity.
           ++ discriminate.
           ++ exact C2.
           ++ intros s x w N. unfold Hclr. now rewrite (proj2 (Nat.eqb_neq w v) N).
           ++ intros s x _. unfold Hclr. rewrite Nat.eqb_refl. unfold subs. rewrite acts_off; [now rewrite andb_false_r|].
              now rewrite sig_put_same.
        -- cbn [failed] in E. inversion E; subst st' o. clear E.
           apply (K _ (hb st) None).
           ++ apply (effs_trans _ st1 _ F1). apply effs_put.
           ++ apply (only_trans _ st1 _ _ O1). now apply only_put.
           ++ rewrite sig_put_same, ?upd_same, ?V1. reflexivity.
           ++ discriminate.
           ++ exact (i_cnt st IV).
           ++ reflexivity.
           ++ intros s x _. rewrite hb_off; [|unfold subs; now rewrite LT].
              unfold subs. rewrite acts_off; [now rewrite andb_false_r|]. now rewrite sig_put_same.
      * inversion E; subst st' o. clear E.
        apply (K st1 (hb st) (Some a) F1 O1).
        -- rewrite V1. unfold set_act, set_sources. cbn [g_conns g_listened g_streamed g_active g_sources g_domain g_removed]. now rewrite A.
        -- intros s Hs _. inversion Hs; subst. now split.
        -- exact (i_cnt st IV).
        -- reflexivity.
        -- intros s x _. apply (SAME s x (Some a) eq_refl).
           rewrite V1. unfold set_act, set_sources. cbn [g_conns g_listened g_streamed g_active g_sources g_domain g_removed]. now rewrite A.
    + inversion E; subst st' o. clear E.
      apply (K _ (hb st) None).
      * apply (effs_trans _ st1 _ F1). apply effs_put.
      * apply (only_trans _ st1 _ _ O1). apply only_put; rewrite ?V1; reflexivity.
      * rewrite sig_put_same, ?upd_same, ?V1. reflexivity.
      * discriminate.
      * exact (i_cnt st IV).
      * reflexivity.
      * intros s x _. rewrite hb_off.
        -- unfold subs. rewrite acts_off; [now rewrite andb_false_r|]. now rewrite sig_put_same.
        -- apply subs_nact. unfold active_source. rewrite A, Al. discriminate.
  - inversion E; subst st' o. clear E.
    apply (K st1 (hb st) None F1 O1).
    + rewrite V1. unfold set_act, set_sources. cbn [g_conns g_listened g_streamed g_active g_sources g_domain g_removed]. now rewrite A.
    + discriminate.
    + exact (i_cnt st IV).
    + reflexivity.
    + intros s x _. apply (SAME s x None eq_refl).
      rewrite V1. unfold set_act, set_sources. cbn [g_conns g_listened g_streamed g_active g_sources g_domain g_removed]. now rewrite A.
Qed.

Lemma remove_sources_ok s0 l : forall st st' o,
  Inv st -> (r_alive (st_src st s0) = true -> p s0 = true) -> remove_sources st s0 l = (st', o) ->
  Inv st' /\ effs st st' /\
  (forall w, g_removed (st_sig st' w) = g_removed (st_sig st w)) /\
  (failed o = false -> forall w, In w l -> ~ In s0 (g_sources (st_sig st' w))) /\
  (forall s w, In s (g_sources (st_sig st' w)) -> In s (g_sources (st_sig st w))).
Proof.
  induction l as [|v l IH]; intros st st' o IV P E; cbn [remove_sources] in E.
  - inversion E; subst. split; [exact IV|]. split; [constructor; try reflexivity; auto|].
    split; [reflexivity|]. split; [intros _ w []|auto].
  - destruct (remove_source st v s0) as [st1 o1] eqn:E1.
    destruct (remove_source_ok st v s0 st1 o1 IV P E1) as (IV1&F1&(O1&O2&_)&_&N1&S1).
    assert (RM : forall w, g_removed (st_sig st1 w) = g_removed (st_sig st w)).
    { intros w. destruct (Nat.eq_dec w v) as [ ->|N]; [exact O2|now rewrite O1]. }
    destruct (failed o1) eqn:FL.
    + inversion E; subst. split; [exact IV1|]. split; [exact F1|]. split; [exact RM|]. split; [congruence|exact S1].
    + assert (P1 : r_alive (st_src st1 s0) = true -> p s0 = true) by (rewrite (f_alive _ _ F1); exact P).
      destruct (IH st1 st' o IV1 P1 E) as (IV2&F2&R2&N2&S2).
      split; [exact IV2|]. split; [now apply (effs_trans _ st1)|].
      split; [intros w; now rewrite R2|].
      split; [|intros s w Hs; apply S1; now apply S2].
      intros FO w [ <-|Hw]; [|now apply N2].
      intros Hs. apply S2 in Hs. now apply (N1 eq_refl).
Qed.
End Waived.
