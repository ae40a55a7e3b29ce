(** Subscriptions are counted exactly: invariant over the calls. *)
From Coq Require Import List Bool Arith Lia.
Import ListNotations.
From Verif Require Import Mir_Model Mir_Spec.

(** *** Counting *)
Definition b2n (b : bool) : nat := if b then 1 else 0.
Definition cntl (f : nat -> bool) (l : list nat) : nat := length (filter f l).

Lemma cntl_ext f f' l : (forall w, In w l -> f w = f' w) -> cntl f l = cntl f' l.
Proof. intros H. unfold cntl. now rewrite (filter_ext_in f f' l H). Qed.

Lemma cntl_one f f' v l : NoDup l -> In v l -> (forall w, In w l -> w <> v -> f w = f' w) ->
  cntl f' l + b2n (f v) = cntl f l + b2n (f' v).
Proof.
  induction l as [|a l IH]; intros ND Hin Hext; [easy|].
  inversion ND as [|? ? NI ND']; subst.
  unfold cntl in *; cbn [filter].
  destruct (Nat.eq_dec a v) as [ ->|Hne].
  - assert (E : filter f l = filter f' l).
    { apply filter_ext_in. intros w Hw. apply Hext; [now right|]. intros ->. now apply NI. }
    rewrite E. destruct (f v), (f' v); cbn [length b2n]; lia.
  - destruct Hin as [ ->|Hin]; [easy|].
    rewrite <- (Hext a (or_introl eq_refl) Hne).
    specialize (IH ND' Hin (fun w Hw => Hext w (or_intror Hw))).
    destruct (f a); cbn [length]; lia.
Qed.

Lemma cntl_pos f l v : In v l -> f v = true -> 0 < cntl f l.
Proof.
  intros Hin Hf. unfold cntl. destruct (filter f l) eqn:E; cbn [length]; [|lia].
  assert (In v (filter f l)) by (apply filter_In; auto). rewrite E in H. easy.
Qed.

Lemma cntl_ex f l : 0 < cntl f l -> exists v, In v l /\ f v = true.
Proof.
  unfold cntl. destruct (filter f l) as [|v r] eqn:E; cbn [length]; [lia|].
  intros _. exists v. apply filter_In. rewrite E. now left.
Qed.

(** *** Maps *)
Lemma upd_same {A} (f : nat -> A) k a : upd f k a k = a.
Proof. unfold upd. now rewrite Nat.eqb_refl. Qed.
Lemma upd_other {A} (f : nat -> A) k a x : x <> k -> upd f k a x = f x.
Proof. intros H. unfold upd. now rewrite (proj2 (Nat.eqb_neq x k) H). Qed.

Lemma items_put st s g i s' g' :
  items (put_item st s g i) s' g' = if Nat.eqb s' s && Nat.eqb g' g then i else items st s' g'.
Proof.
  unfold items, put_item, put_src; cbn [st_src]. unfold upd.
  destruct (Nat.eqb_spec s' s) as [ ->|H]; cbn [andb]; [|reflexivity].
  cbn [r_items set_items]. now destruct (Nat.eqb g' g).
Qed.

Lemma memb_In c l : memb c l = true <-> In c l.
Proof.
  unfold memb. rewrite existsb_exists. split.
  - intros [x [Hx E]]. apply Nat.eqb_eq in E. now subst.
  - intros H. exists c. split; [easy|apply Nat.eqb_refl].
Qed.

Lemma erase_In c x l : NoDup l -> (In x (erase c l) <-> In x l /\ x <> c).
Proof.
  induction l as [|a l IH]; intros ND; cbn [erase]; [cbn [In]; tauto|].
  inversion ND as [|? ? NI ND']; subst. specialize (IH ND').
  destruct (Nat.eqb_spec a c) as [ ->|Hne]; cbn [In].
  - split; [intros H; split; [now right|intros ->; easy]|intros [[ ->|H] Hn]; easy].
  - rewrite IH. split.
    + intros [ ->|[H1 H2]]; [split; [now left|easy]|split; [now right|easy]].
    + intros [[ ->|H1] H2]; [now left|right; easy].
Qed.

Lemma erase_NoDup c l : NoDup l -> NoDup (erase c l).
Proof.
  induction l as [|a l IH]; intros ND; cbn [erase]; [constructor|].
  inversion ND as [|? ? NI ND']; subst.
  destruct (Nat.eqb_spec a c) as [ ->|Hne]; [easy|].
  constructor; [|now apply IH]. rewrite (erase_In c a l ND'). tauto.
Qed.

(** *** What a subscription does to the counts *)
Definition wok (st : state) (s g : nat) : Prop :=
  asked_rev s g (rev (st_wire st)) =
  r_avail (st_src st s) g && match items st s g with Some (S _) => true | _ => false end.

(** Everything but the counts and the wire stays, the same signals are added,
    and the wire stays in accord with the counts. *)
Record eff (st st' : state) : Prop := mkE {
  e_n : st_n st' = st_n st;
  e_sig : st_sig st' = st_sig st;
  e_out : st_out st' = st_out st;
  e_alive : forall s, r_alive (st_src st' s) = r_alive (st_src st s);
  e_on : forall s, r_on (st_src st' s) = r_on (st_src st s);
  e_skip : forall s, r_skip (st_src st' s) = r_skip (st_src st s);
  e_avail : forall s, r_avail (st_src st' s) = r_avail (st_src st s);
  e_items : forall s g, items st' s g = None <-> items st s g = None;
  e_wok : forall s g, wok st s g -> wok st' s g
}.

Lemma eff_refl st : eff st st.
Proof. constructor; auto. intros; tauto. Qed.
Lemma eff_trans a b c : eff a b -> eff b c -> eff a c.
Proof.
  intros H1 H2. constructor.
  - now rewrite (e_n _ _ H2), (e_n _ _ H1).
  - now rewrite (e_sig _ _ H2), (e_sig _ _ H1).
  - now rewrite (e_out _ _ H2), (e_out _ _ H1).
  - intros s. now rewrite (e_alive _ _ H2), (e_alive _ _ H1).
  - intros s. now rewrite (e_on _ _ H2), (e_on _ _ H1).
  - intros s. now rewrite (e_skip _ _ H2), (e_skip _ _ H1).
  - intros s. now rewrite (e_avail _ _ H2), (e_avail _ _ H1).
  - intros s g. now rewrite (e_items _ _ H2), (e_items _ _ H1).
  - intros s g H. now apply (e_wok _ _ H2), (e_wok _ _ H1).
Qed.

Definition bump (st st' : state) (s g : nat) (f : nat -> nat) : Prop :=
  forall s' x k, items st s' x = Some k ->
    items st' s' x = Some (if Nat.eqb s' s && Nat.eqb x g then f k else k).

Lemma asked_app s g w x :
  asked_rev s g (rev (w ++ [x])) =
  match x with
  | Ask s' g' => if Nat.eqb s s' && Nat.eqb g g' then true else asked_rev s g (rev w)
  | Cancel s' g' | Gone s' g' => if Nat.eqb s s' && Nat.eqb g g' then false else asked_rev s g (rev w)
  end.
Proof. rewrite rev_app_distr. cbn [rev app]. destruct x; reflexivity. Qed.

Lemma put_item_fields st s g i s' :
  r_alive (st_src (put_item st s g i) s') = r_alive (st_src st s') /\
  r_on (st_src (put_item st s g i) s') = r_on (st_src st s') /\
  r_skip (st_src (put_item st s g i) s') = r_skip (st_src st s') /\
  r_avail (st_src (put_item st s g i) s') = r_avail (st_src st s').
Proof.
  unfold put_item, put_src; cbn [st_src]. unfold upd.
  destruct (Nat.eqb_spec s' s) as [ ->|H]; auto.
Qed.

Lemma items_say st x s g : items (say st x) s g = items st s g.
Proof. reflexivity. Qed.

Lemma do_subscribe_spec st s g :
  match items st s g with
  | None => do_subscribe st s g = (st, NotFound)
  | Some k => exists st', do_subscribe st s g = (st', OK) /\ eff st st' /\ bump st st' s g S
  end.
Proof.
  unfold do_subscribe. destruct (items st s g) as [k|] eqn:E; [|reflexivity].
  set (st1 := put_item st s g (Some (S k))).
  exists (if r_avail (st_src st s) g && Nat.eqb k 0 then say st1 (Ask s g) else st1).
  assert (I1 : forall s' x, items st1 s' x = if Nat.eqb s' s && Nat.eqb x g then Some (S k) else items st s' x)
    by (intros; apply items_put).
  split; [now destruct (r_avail (st_src st s) g && Nat.eqb k 0)|].
  split.
  - constructor; try (intros s'; destruct (put_item_fields st s g (Some (S k)) s') as (A1&A2&A3&A4);
      fold st1 in A1, A2, A3, A4; destruct (r_avail (st_src st s) g && Nat.eqb k 0); assumption).
    + now destruct (r_avail (st_src st s) g && Nat.eqb k 0).
    + now destruct (r_avail (st_src st s) g && Nat.eqb k 0).
    + now destruct (r_avail (st_src st s) g && Nat.eqb k 0).
    + intros s' x. transitivity (items st1 s' x = None);
        [destruct (r_avail (st_src st s) g && Nat.eqb k 0); reflexivity|].
      rewrite I1. destruct (Nat.eqb_spec s' s) as [ ->|]; cbn [andb]; [|tauto].
      destruct (Nat.eqb_spec x g) as [ ->|]; [|tauto]. rewrite E. split; discriminate.
    + intros s' x W. unfold wok in *.
      destruct (put_item_fields st s g (Some (S k)) s') as (_&_&_&A4). fold st1 in A4.
      destruct (r_avail (st_src st s) g && Nat.eqb k 0) eqn:C.
      * change (st_wire (say st1 (Ask s g))) with (st_wire st ++ [Ask s g]).
        rewrite asked_app, items_say, I1. change (st_src (say st1 (Ask s g))) with (st_src st1).
        rewrite A4. destruct (Nat.eqb_spec s' s) as [ ->|]; cbn [andb]; [|exact W].
        destruct (Nat.eqb_spec x g) as [ ->|]; [|exact W].
        apply andb_true_iff in C. destruct C as [C _]. now rewrite C.
      * change (st_wire st1) with (st_wire st). rewrite I1, A4.
        destruct (Nat.eqb_spec s' s) as [ ->|]; cbn [andb]; [|exact W].
        destruct (Nat.eqb_spec x g) as [ ->|]; [|exact W].
        rewrite W, E. destruct (r_avail (st_src st s) g); [|reflexivity].
        cbn [andb] in *. destruct k; [discriminate|reflexivity].
  - intros s' x k' H. transitivity (items st1 s' x);
      [destruct (r_avail (st_src st s) g && Nat.eqb k 0); reflexivity|].
    rewrite I1. destruct (Nat.eqb_spec s' s) as [ ->|]; cbn [andb]; [|exact H].
    destruct (Nat.eqb_spec x g) as [ ->|]; [|exact H]. rewrite E in H. now inversion H.
Qed.

Lemma do_unsubscribe_spec st s g :
  match items st s g with
  | None => do_unsubscribe st s g = (st, NotFound)
  | Some 0 => do_unsubscribe st s g = (st, BadState)
  | Some (S k) => exists st', do_unsubscribe st s g = (st', OK) /\ eff st st' /\ bump st st' s g pred
  end.
Proof.
  unfold do_unsubscribe. destruct (items st s g) as [[|k]|] eqn:E; [reflexivity| |reflexivity].
  set (st1 := put_item st s g (Some k)).
  exists (if r_avail (st_src st s) g && Nat.eqb k 0 then say st1 (Cancel s g) else st1).
  assert (I1 : forall s' x, items st1 s' x = if Nat.eqb s' s && Nat.eqb x g then Some k else items st s' x)
    by (intros; apply items_put).
  split; [now destruct (r_avail (st_src st s) g && Nat.eqb k 0)|].
  split.
  - constructor; try (intros s'; destruct (put_item_fields st s g (Some k) s') as (A1&A2&A3&A4);
      fold st1 in A1, A2, A3, A4; destruct (r_avail (st_src st s) g && Nat.eqb k 0); assumption).
    + now destruct (r_avail (st_src st s) g && Nat.eqb k 0).
    + now destruct (r_avail (st_src st s) g && Nat.eqb k 0).
    + now destruct (r_avail (st_src st s) g && Nat.eqb k 0).
    + intros s' x. transitivity (items st1 s' x = None);
        [destruct (r_avail (st_src st s) g && Nat.eqb k 0); reflexivity|].
      rewrite I1. destruct (Nat.eqb_spec s' s) as [ ->|]; cbn [andb]; [|tauto].
      destruct (Nat.eqb_spec x g) as [ ->|]; [|tauto]. rewrite E. split; discriminate.
    + intros s' x W. unfold wok in *.
      destruct (put_item_fields st s g (Some k) s') as (_&_&_&A4). fold st1 in A4.
      destruct (r_avail (st_src st s) g && Nat.eqb k 0) eqn:C.
      * change (st_wire (say st1 (Cancel s g))) with (st_wire st ++ [Cancel s g]).
        rewrite asked_app, items_say, I1. change (st_src (say st1 (Cancel s g))) with (st_src st1).
        rewrite A4. destruct (Nat.eqb_spec s' s) as [ ->|]; cbn [andb]; [|exact W].
        destruct (Nat.eqb_spec x g) as [ ->|]; [|exact W].
        apply andb_true_iff in C. destruct C as [_ C]. apply Nat.eqb_eq in C. subst k.
        now rewrite andb_false_r.
      * change (st_wire st1) with (st_wire st). rewrite I1, A4.
        destruct (Nat.eqb_spec s' s) as [ ->|]; cbn [andb]; [|exact W].
        destruct (Nat.eqb_spec x g) as [ ->|]; [|exact W].
        rewrite W, E. destruct (r_avail (st_src st s) g); [|reflexivity].
        cbn [andb] in *. destruct k; [discriminate|reflexivity].
  - intros s' x k' H. transitivity (items st1 s' x);
      [destruct (r_avail (st_src st s) g && Nat.eqb k 0); reflexivity|].
    rewrite I1. destruct (Nat.eqb_spec s' s) as [ ->|]; cbn [andb]; [|exact H].
    destruct (Nat.eqb_spec x g) as [ ->|]; [|exact H]. rewrite E in H. now inversion H.
Qed.

(** *** Counts agree with a set of holders *)
Definition Cnt (st : state) (H : nat -> nat -> nat -> bool) : Prop :=
  forall s g k, r_alive (st_src st s) = true -> items st s g = Some k ->
  k = cntl (H s g) (seq 0 (st_n st)).

Lemma Cnt_ext st H H' : (forall s g w, r_alive (st_src st s) = true -> items st s g <> None -> w < st_n st -> H s g w = H' s g w) ->
  Cnt st H -> Cnt st H'.
Proof.
  intros E C s g k A I. rewrite (C s g k A I). apply cntl_ext.
  intros w Hw. apply in_seq in Hw. apply E; [easy|congruence|lia].
Qed.

(** The holder [v] needs [x], when its domain signal is [d]. *)
Definition need (skip : bool) (v : nat) (d : option nat) (x : nat) : bool :=
  Nat.eqb x v || (negb skip && match d with Some d => Nat.eqb x d | None => false end).

Definition Hset (H : nat -> nat -> nat -> bool) (s v : nat) (f : nat -> bool) : nat -> nat -> nat -> bool :=
  fun s' x w => if Nat.eqb s' s && Nat.eqb w v then f x else H s' x w.

Lemma Hset_cnt H s v f s' x n : v < n ->
  cntl (Hset H s v f s' x) (seq 0 n) + (if Nat.eqb s' s then b2n (H s x v) else 0) =
  cntl (H s' x) (seq 0 n) + (if Nat.eqb s' s then b2n (f x) else 0).
Proof.
  intros Hv. destruct (Nat.eqb_spec s' s) as [ ->|Hs].
  - pose proof (cntl_one (H s x) (Hset H s v f s x) v (seq 0 n) (seq_NoDup n 0)) as L.
    rewrite L.
    + unfold Hset. now rewrite !Nat.eqb_refl.
    + apply in_seq. lia.
    + intros w _ Hw. unfold Hset. rewrite (proj2 (Nat.eqb_neq w v) Hw), andb_false_r. reflexivity.
  - rewrite !Nat.add_0_r. apply cntl_ext. intros w _. unfold Hset.
    now rewrite (proj2 (Nat.eqb_neq s' s) Hs).
Qed.

Definition dneed (skip : bool) (d : option nat) (x : nat) : nat :=
  if skip then 0 else match d with Some d => b2n (Nat.eqb x d) | None => 0 end.

Lemma need_sum skip v d x : d <> Some v -> b2n (need skip v d x) = b2n (Nat.eqb x v) + dneed skip d x.
Proof.
  intros Hd. unfold need, dneed. destruct (Nat.eqb_spec x v) as [ ->|]; cbn [orb b2n].
  - destruct skip; [reflexivity|]. destruct d as [d|]; [|reflexivity].
    destruct (Nat.eqb_spec v d) as [ ->|]; [congruence|reflexivity].
  - destruct skip; [reflexivity|]. destruct d as [d|]; reflexivity.
Qed.

Lemma subscribe_ok st s v d H :
  v < st_n st -> Cnt st H -> (forall x, H s x v = false) -> d <> Some v -> items st s v <> None ->
  (r_skip (st_src st s) = false -> forall d', d = Some d' -> items st s d' <> None) ->
  exists st', subscribe st s v d = (st', OK) /\ eff st st' /\
    Cnt st' (Hset H s v (need (r_skip (st_src st s)) v d)).
Proof.
  intros Hv C HF Hd Iv Id.
  assert (K : exists st', subscribe st s v d = (st', OK) /\ eff st st' /\
     forall s' x k, items st s' x = Some k ->
       items st' s' x = Some (k + (if Nat.eqb s' s then b2n (Nat.eqb x v) + dneed (r_skip (st_src st s)) d x else 0))).
  { unfold subscribe. destruct d as [d|].
    - destruct (Nat.eqb_spec v d) as [ ->|Hne]; [congruence|].
      destruct (r_skip (st_src st s)) eqn:Sk.
      + pose proof (do_subscribe_spec st s v) as D. destruct (items st s v) as [k0|] eqn:Ev; [|easy].
        destruct D as (st'&D&E&B). exists st'. split; [exact D|]. split; [exact E|].
        intros s' x k Hk. rewrite (B s' x k Hk). f_equal. unfold dneed.
        destruct (Nat.eqb s' s), (Nat.eqb x v); cbn [andb b2n]; lia.
      + pose proof (do_subscribe_spec st s d) as D.
        destruct (items st s d) as [k0|] eqn:Ed; [|now apply Id in Ed].
        destruct D as (st1&D&E1&B1). rewrite D.
        pose proof (do_subscribe_spec st1 s v) as D2.
        destruct (items st1 s v) as [k1|] eqn:Ev; [|now apply (e_items _ _ E1) in Ev].
        destruct D2 as (st'&D2&E2&B2). exists st'. split; [exact D2|].
        split; [now apply (eff_trans _ st1)|].
        intros s' x k Hk. rewrite (B2 s' x _ (B1 s' x k Hk)). f_equal. unfold dneed.
        destruct (Nat.eqb s' s), (Nat.eqb x v), (Nat.eqb x d); cbn [andb b2n]; lia.
    - pose proof (do_subscribe_spec st s v) as D. destruct (items st s v) as [k0|] eqn:Ev; [|easy].
      destruct D as (st'&D&E&B). exists st'. split; [exact D|]. split; [exact E|].
      intros s' x k Hk. rewrite (B s' x k Hk). f_equal. unfold dneed.
      destruct (r_skip (st_src st s)), (Nat.eqb s' s), (Nat.eqb x v); cbn [andb b2n]; lia. }
  destruct K as (st'&D&E&K). exists st'. split; [exact D|]. split; [exact E|].
  intros s' x k' A Hk'. rewrite (e_alive _ _ E) in A.
  destruct (items st s' x) as [k|] eqn:Hk.
  2:{ apply (e_items _ _ E) in Hk. congruence. }
  rewrite (K s' x k Hk) in Hk'. inversion Hk' as [Hk2]. rewrite (e_n _ _ E).
  pose proof (Hset_cnt H s v (need (r_skip (st_src st s)) v d) s' x (st_n st) Hv) as L.
  rewrite (need_sum _ _ _ _ Hd) in L. rewrite <- (C s' x k A Hk) in L. rewrite HF in L. cbn [b2n] in L.
  destruct (Nat.eqb s' s); lia.
Qed.

(** A successful subscription had what it needs. *)
Lemma subscribe_inv st s v d st' o :
  subscribe st s v d = (st', o) -> failed o = false ->
  d <> Some v /\ items st s v <> None /\
  (r_skip (st_src st s) = false -> forall d', d = Some d' -> items st s d' <> None).
Proof.
  unfold subscribe. destruct d as [d|].
  - destruct (Nat.eqb_spec v d) as [ ->|Hne]; [intros E F; inversion E; subst; discriminate|].
    destruct (r_skip (st_src st s)) eqn:Sk.
    + pose proof (do_subscribe_spec st s v) as D. destruct (items st s v) as [k|] eqn:Ev.
      * intros _ _. split; [congruence|]. split; [discriminate|discriminate].
      * rewrite D. intros E F. inversion E; subst. discriminate.
    + pose proof (do_subscribe_spec st s d) as D. destruct (items st s d) as [k|] eqn:Ed.
      2:{ rewrite D. intros E F. inversion E; subst. discriminate. }
      destruct D as (st1&D&E1&B1). rewrite D.
      pose proof (do_subscribe_spec st1 s v) as D2. destruct (items st1 s v) as [k1|] eqn:Ev.
      * intros _ _. split; [congruence|]. split.
        -- intros Hn. apply (e_items _ _ E1) in Hn. congruence.
        -- intros _ d' Hd'. inversion Hd'; subst. congruence.
      * rewrite D2. intros E F. inversion E; subst. discriminate.
  - pose proof (do_subscribe_spec st s v) as D. destruct (items st s v) as [k|] eqn:Ev.
    + intros _ _. split; [discriminate|]. split; [discriminate|discriminate].
    + rewrite D. intros E F. inversion E; subst. discriminate.
Qed.

Lemma unsubscribe_ok st s v d H :
  v < st_n st -> r_alive (st_src st s) = true -> Cnt st H ->
  (forall x, items st s x <> None -> H s x v = need (r_skip (st_src st s)) v d x) -> d <> Some v -> items st s v <> None ->
  (r_skip (st_src st s) = false -> forall d', d = Some d' -> items st s d' <> None) ->
  exists st', unsubscribe st s v d = (st', OK) /\ eff st st' /\ Cnt st' (Hset H s v (fun _ => false)).
Proof.
  intros Hv Al C HF Hd Iv Id.
  assert (Inv : In v (seq 0 (st_n st))) by (apply in_seq; lia).
  assert (Pos : forall x, items st s x <> None -> need (r_skip (st_src st s)) v d x = true ->
            exists k, items st s x = Some (S k)).
  { intros x Hx Hn. destruct (items st s x) as [[|k]|] eqn:E; [|now exists k|easy].
    pose proof (C s x 0 Al E) as Z. rewrite <- HF in Hn by congruence.
    pose proof (cntl_pos (H s x) _ v Inv Hn). lia. }
  assert (K : exists st', unsubscribe st s v d = (st', OK) /\ eff st st' /\
     forall s' x k, items st s' x = Some k ->
       items st' s' x = Some (k - (if Nat.eqb s' s then b2n (Nat.eqb x v) + dneed (r_skip (st_src st s)) d x else 0))).
  { assert (Pv : exists k, items st s v = Some (S k)).
    { apply (Pos v Iv). unfold need. now rewrite Nat.eqb_refl. }
    destruct Pv as [kv Ev].
    unfold unsubscribe. destruct d as [d|].
    - destruct (Nat.eqb_spec v d) as [ ->|Hne]; [congruence|].
      destruct (r_skip (st_src st s)) eqn:Sk.
      + pose proof (do_unsubscribe_spec st s v) as D. rewrite Ev in D.
        destruct D as (st'&D&E&B). exists st'. split; [exact D|]. split; [exact E|].
        intros s' x k Hk. rewrite (B s' x k Hk). f_equal. unfold dneed.
        destruct (Nat.eqb s' s), (Nat.eqb x v); cbn [andb b2n]; lia.
      + assert (Pd : exists k, items st s d = Some (S k)).
        { apply Pos; [now apply Id|]. unfold need. rewrite Nat.eqb_refl. now rewrite orb_true_r. }
        destruct Pd as [kd Ed].
        pose proof (do_unsubscribe_spec st s d) as D. rewrite Ed in D.
        destruct D as (st1&D&E1&B1). rewrite D.
        pose proof (do_unsubscribe_spec st1 s v) as D2.
        pose proof (B1 s v _ Ev) as Ev1. rewrite Nat.eqb_refl, (proj2 (Nat.eqb_neq v d) Hne) in Ev1.
        cbn [andb] in Ev1. rewrite Ev1 in D2.
        destruct D2 as (st'&D2&E2&B2). exists st'. split; [exact D2|].
        split; [now apply (eff_trans _ st1)|].
        intros s' x k Hk. rewrite (B2 s' x _ (B1 s' x k Hk)). f_equal. unfold dneed.
        destruct (Nat.eqb s' s), (Nat.eqb x v), (Nat.eqb x d); cbn [andb b2n]; lia.
    - pose proof (do_unsubscribe_spec st s v) as D. rewrite Ev in D.
      destruct D as (st'&D&E&B). exists st'. split; [exact D|]. split; [exact E|].
      intros s' x k Hk. rewrite (B s' x k Hk). f_equal. unfold dneed.
      destruct (r_skip (st_src st s)), (Nat.eqb s' s), (Nat.eqb x v); cbn [andb b2n]; lia. }
  destruct K as (st'&D&E&K). exists st'. split; [exact D|]. split; [exact E|].
  intros s' x k' A Hk'. rewrite (e_alive _ _ E) in A.
  destruct (items st s' x) as [k|] eqn:Hk.
  2:{ apply (e_items _ _ E) in Hk. congruence. }
  rewrite (K s' x k Hk) in Hk'. inversion Hk' as [Hk2]. rewrite (e_n _ _ E).
  pose proof (Hset_cnt H s v (fun _ => false) s' x (st_n st) Hv) as L.
  cbn [b2n] in L. rewrite <- (C s' x k A Hk) in L.
  destruct (Nat.eqb_spec s' s) as [ ->|Hs]; [|lia].
  rewrite HF, (need_sum _ _ _ _ Hd) in L by congruence. lia.
Qed.
