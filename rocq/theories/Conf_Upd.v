(** The first half of loading: the tree and the connections that are noted. *)
From Coq Require Import List Bool Arith Lia.
From Verif Require Import Conf_Model Conf_Core.
Import ListNotations.

Section Upd.
Variable w : world.
Definition keep (n : node) : list node := filter (fun k => negb (w_avail w (nty n) (nty k))) (nsubs n).
Fixpoint fixedf (n : node) (q : path) : option node :=
  match q with
  | [] => Some n
  | i :: q => match child i (keep n) with Some k => fixedf k q | None => None end
  end.
Definition fresh (k : node) : node := Node (nid k) (nty k) [] [].
(** the component that the saved [k], a child of [tn], is loaded into *)
Definition base (n tn k : node) : option node :=
  if w_avail w (nty tn) (nty k) then Some (fresh k) else child (nid k) (keep n).
Fixpoint keptf (n tn : node) (q : path) : option node :=
  match q with
  | [] => Some tn
  | i :: q =>
      match child i (nsubs tn) with
      | Some k => match base n tn k with Some b => keptf b k q | None => None end
      | None => None
      end
  end.
Definition ported (m : node) : conns :=
  flat_map (fun q => match aget q (ncn m) with Some s => [(q, s)] | None => [] end) (w_ports w (nty m) (ncn m)).
Definition nonempty (c : conns) : option conns := match c with [] => None | _ => Some c end.
Definition tidyf (n : node) : Prop := forall q m, find n q = Some m -> NoDup (map nid (nsubs m)).
Definition fitsf (n tn : node) : Prop := forall q m, fixedf n q = Some m -> exists m', fixedf tn q = Some m' /\ nty m' = nty m.

Record outcome (p : path) (n tn n' : node) (x' : ctx) (g : list path) : Prop := {
  O_id : nid n' = nid n /\ nty n' = nty n /\ ncn n' = ncn n;
  O_find : forall q, match find n' q, keptf n tn q with Some m', Some m => nty m' = nty m | None, None => True | _, _ => False end;
  O_conns : forall q m', find n' q = Some m' -> ncn m' = match fixedf n q with Some m0 => ncn m0 | None => [] end;
  O_ent : forall q, pget (p ++ q) (x_conns x') = match keptf n tn q with Some m => nonempty (ported m) | None => None end;
  O_dep : forall q m j, keptf n tn q = Some m -> In j (w_sigs w (nty m) (ncn m)) -> In (p ++ q, j) (x_deps x');
  O_gone : forall q m k, fixedf n q = Some m -> In k (nsubs m) -> w_avail w (nty m) (nty k) = true -> In (p ++ q ++ [nid k]) g;
  O_tidy : tidyf n' }.
Definition frame (p : path) (x x' : ctx) : Prop :=
  (forall r, (forall q, r <> p ++ q) -> pget r (x_conns x') = pget r (x_conns x))
  /\ (forall s, In s (x_deps x) -> In s (x_deps x')).

Lemma frame_trans : forall p a b c, frame p a b -> frame p b c -> frame p a c.
Proof. intros p a b c (A1 & A2) (B1 & B2). split; [intros r Hr; rewrite (B1 r Hr); exact (A1 r Hr)|auto]. Qed.
Lemma frame_sub : forall p i a b, frame (p ++ [i]) a b -> frame p a b.
Proof.
  intros p i a b (A1 & A2). split; [|exact A2]. intros r Hr. apply A1. intros q ->. apply (Hr (i :: q)). rewrite <- app_assoc. reflexivity.
Qed.
Lemma path_split : forall (p : path) i j q q', p ++ i :: q = (p ++ [j]) ++ q' -> i = j.
Proof. intros p i j q q' H. rewrite <- app_assoc in H. apply app_inv_head in H. cbn [app] in H. congruence. Qed.

Lemma note_ports_cons : forall p q r l x, note_ports p ((q, r) :: l) x =
  note_ports p l (match r with Some s => set_conn p q s x | None => x end).
Proof. reflexivity. Qed.
Lemma pget_set_conn : forall p q s x r, pget r (x_conns (set_conn p q s x)) =
  if path_eqb p r then Some (aset q s (match pget p (x_conns x) with Some c => c | None => [] end)) else pget r (x_conns x).
Proof. intros. unfold set_conn. cbn [x_conns]. apply pget_pset. Qed.
Lemma note_ports_ok : forall p (c : conns) P x, NoDup P ->
  (forall q c0, In q P -> pget p (x_conns x) = Some c0 -> aget q c0 = None) ->
  let x' := note_ports p (map (fun q => (q, aget q c)) P) x in
  x_deps x' = x_deps x
  /\ (forall r, r <> p -> pget r (x_conns x') = pget r (x_conns x))
  /\ pget p (x_conns x') = match flat_map (fun q => match aget q c with Some s => [(q, s)] | None => [] end) P with
                           | [] => pget p (x_conns x)
                           | l => Some (match pget p (x_conns x) with Some c0 => c0 | None => [] end ++ l)
                           end.
Proof.
  intros p c. induction P as [|q P IH]; intros x Hd Hn x'.
  - split; [reflexivity|]. split; reflexivity.
  - inversion Hd as [|? ? Nq Hd']; subst. unfold x'. cbn [map flat_map]. rewrite note_ports_cons.
    destruct (aget q c) as [s|] eqn:K.
    + assert (New : aset q s (match pget p (x_conns x) with Some c0 => c0 | None => [] end) = (match pget p (x_conns x) with Some c0 => c0 | None => [] end) ++ [(q, s)]).
      { destruct (pget p (x_conns x)) as [c0|] eqn:Kp; [|reflexivity]. apply aset_new. exact (Hn q c0 (or_introl eq_refl) eq_refl). }
      destruct (IH (set_conn p q s x) Hd') as (I1 & I2 & I3).
      { intros q' c0 Hq'. rewrite pget_set_conn, path_eqb_refl, New. intros E0. injection E0 as <-.
        assert (A0 : aget q' (match pget p (x_conns x) with Some c0 => c0 | None => [] end) = None).
        { destruct (pget p (x_conns x)) as [c0|] eqn:Kp; [|reflexivity]. exact (Hn q' c0 (or_intror Hq') eq_refl). }
        rewrite <- New, aget_aset. destruct (Nat.eqb q q') eqn:Eq; [apply Nat.eqb_eq in Eq; congruence|exact A0]. }
      split; [rewrite I1; reflexivity|]. split.
      * intros r Hr. rewrite (I2 r Hr), pget_set_conn. destruct (path_eqb p r) eqn:Er; [apply path_eqb_eq in Er; congruence|reflexivity].
      * rewrite I3, pget_set_conn, path_eqb_refl, New. cbn [app].
        destruct (flat_map _ P) as [|y l]; [reflexivity|]. rewrite <- app_assoc. reflexivity.
    + destruct (IH x Hd' ltac:(intros q' c0 Hq'; apply Hn; right; exact Hq')) as (I1 & I2 & I3). split; [exact I1|]. split; [exact I2|exact I3].
Qed.
Lemma note_sigs_ok : forall p sigs x, x_conns (note_sigs p sigs x) = x_conns x
  /\ (forall s, In s (x_deps x) -> In s (x_deps (note_sigs p sigs x))) /\ (forall j, In j sigs -> In (p, j) (x_deps (note_sigs p sigs x))).
Proof.
  intros p. induction sigs as [|j sigs IH]; intros x; [split; [reflexivity|]; split; [auto|intros j []]|].
  change (note_sigs p (j :: sigs) x) with (note_sigs p sigs (set_dep (p, j) x)). destruct (IH (set_dep (p, j) x)) as (I1 & I2 & I3).
  split; [rewrite I1; reflexivity|]. split; [intros s H; apply I2; right; exact H|]. intros j' [<-|H]; [apply I2; left; reflexivity|exact (I3 j' H)].
Qed.

Lemma child_app : forall i a b, child i (a ++ b) = match child i a with Some k => Some k | None => child i b end.
Proof. intros i. induction a as [|n a IH]; intros b; cbn [app child]; [reflexivity|]. destruct (Nat.eqb (nid n) i); [reflexivity|apply IH]. Qed.
Lemma child_none : forall i l, child i l = None <-> ~ In i (map nid l).
Proof.
  intros i. induction l as [|n l IH]; cbn [child map]; [split; [intros _ []|reflexivity]|].
  destruct (Nat.eqb (nid n) i) eqn:K.
  - apply Nat.eqb_eq in K. split; [discriminate|]. intros H. exfalso. apply H. left. exact K.
  - apply Nat.eqb_neq in K. rewrite IH. split; [intros H [A|A]; [congruence|exact (H A)]|intros H A; apply H; right; exact A].
Qed.
Lemma child_nodup : forall l k, NoDup (map nid l) -> In k l -> child (nid k) l = Some k.
Proof.
  induction l as [|n l IH]; intros k D; [intros []|]. cbn [child map] in *. inversion D as [|? ? N D']; subst. intros [->|K]; [rewrite Nat.eqb_refl; reflexivity|].
  destruct (Nat.eqb (nid n) (nid k)) eqn:E0; [|exact (IH k D' K)]. apply Nat.eqb_eq in E0. exfalso. apply N. rewrite E0. apply in_map. exact K.
Qed.
Lemma replace_ids : forall n l, map nid (replace n l) = map nid l.
Proof.
  intros n. induction l as [|k l IH]; cbn [replace map]; [reflexivity|]. destruct (Nat.eqb (nid k) (nid n)) eqn:K; cbn [map]; [apply Nat.eqb_eq in K; congruence|congruence].
Qed.
Lemma child_replace : forall i n l, child i (replace n l) = match child i l with Some k => if Nat.eqb (nid n) i then Some n else Some k | None => None end.
Proof.
  intros i n. induction l as [|k l IH]; cbn [replace child]; [reflexivity|].
  destruct (Nat.eqb (nid k) (nid n)) eqn:K; cbn [child].
  - apply Nat.eqb_eq in K. rewrite <- K. destruct (Nat.eqb (nid k) i); [reflexivity|]. destruct (child i l); reflexivity.
  - destruct (Nat.eqb (nid k) i) eqn:K2; [|exact IH]. apply Nat.eqb_eq in K2. apply Nat.eqb_neq in K.
    destruct (Nat.eqb (nid n) i) eqn:K3; [apply Nat.eqb_eq in K3; congruence|reflexivity].
Qed.
Lemma nodup_filter_ids : forall f l, NoDup (map nid l) -> NoDup (map nid (filter f l)).
Proof.
  intros f. induction l as [|k l IH]; cbn [map filter]; [auto|]. intros D. inversion D as [|? ? N D']; subst. destruct (f k); [|exact (IH D')].
  cbn [map]. constructor; [|exact (IH D')]. intros K. apply N. apply in_map_iff in K. destruct K as (k' & E0 & K). apply filter_In in K.
  apply in_map_iff. exists k'. tauto.
Qed.
Lemma nodup_app_id : forall l k, NoDup (map nid l) -> child (nid k) l = None -> NoDup (map nid (l ++ [k])).
Proof.
  intros l k D H. apply child_none in H. rewrite map_app. cbn [map]. clear -D H. induction (map nid l) as [|a m IH]; [constructor; [intros []|constructor]|].
  inversion D as [|? ? N D']; subst. cbn [app]. constructor; [|apply IH; [exact D'|intros K; apply H; right; exact K]].
  rewrite in_app_iff. intros [K|[K|[]]]; [exact (N K)|]. apply H. left. congruence.
Qed.

Lemma tidyf_child : forall n i k, tidyf n -> child i (nsubs n) = Some k -> tidyf k.
Proof. intros n i k H K q m Hm. apply (H (i :: q) m). cbn [find]. rewrite K. exact Hm. Qed.
Lemma tidyf_ids : forall n, tidyf n -> NoDup (map nid (nsubs n)).
Proof. intros n H. exact (H [] n eq_refl). Qed.
Lemma keep_child : forall n i k, NoDup (map nid (nsubs n)) -> child i (keep n) = Some k -> child i (nsubs n) = Some k /\ w_avail w (nty n) (nty k) = false.
Proof.
  intros n i k D H. destruct (child_in _ _ _ H) as (K1 & K2). apply filter_In in K1. destruct K1 as (K1 & K3). split; [|destruct (w_avail _ _ _); [discriminate|reflexivity]].
  rewrite <- K2. exact (child_nodup _ _ D K1).
Qed.
Lemma fits_child : forall n tn i k0, tidyf tn -> fitsf n tn -> child i (keep n) = Some k0 ->
  exists k, child i (nsubs tn) = Some k /\ w_avail w (nty tn) (nty k) = false /\ nty k = nty k0 /\ fitsf k0 k.
Proof.
  intros n tn i k0 T F H. destruct (F [i] k0) as (m' & F1 & F2); [cbn [fixedf]; rewrite H; reflexivity|].
  cbn [fixedf] in F1. destruct (child i (keep tn)) as [k|] eqn:K; [|discriminate]. injection F1 as ->.
  destruct (keep_child tn i m' (tidyf_ids tn T) K) as (K1 & K2). exists m'. split; [exact K1|]. split; [exact K2|]. split; [exact F2|].
  intros q m Hm. destruct (F (i :: q) m) as (m2 & G1 & G2); [cbn [fixedf]; rewrite H; exact Hm|]. cbn [fixedf] in G1. rewrite K in G1. eauto.
Qed.
Lemma fits_fresh : forall k, fitsf (fresh k) k.
Proof.
  intros k q m. destruct q as [|i q]; cbn [fixedf fresh keep nsubs filter child]; [|discriminate].
  intros H. injection H as <-. exists k. split; reflexivity.
Qed.
Lemma tidy_fresh : forall k, tidyf (fresh k).
Proof. intros k q m. destruct q; cbn [find fresh nsubs child]; [|discriminate]. intros H. injection H as <-. constructor. Qed.

(** the body of the loop over the saved children *)
Definition stepw (t : nat) (p : path) (a : acc) (c' : cfg) : acc :=
  match c' with
  | Cfg ci ct _ _ _ =>
      if a_ok a then
        if w_avail w t ct then
          if match child ci (a_subs a) with Some _ => true | None => false end then
            Acc (a_subs a) (a_ctx a) (a_gone a) false
          else if w_ok w (p ++ [ci]) ct then
            let '(k, x', g, ok) := upd w (p ++ [ci]) (Node ci ct [] []) c' (a_ctx a) in
            Acc (a_subs a ++ [k]) x' (a_gone a ++ g) ok
          else Acc (a_subs a) (a_ctx a) (a_gone a) false
        else
          match child ci (a_subs a) with
          | Some k =>
              let '(k', x', g, ok) := upd w (p ++ [ci]) k c' (a_ctx a) in
              Acc (replace k' (a_subs a)) x' (a_gone a ++ g) (ok || w_dev w (nty k))
          | None => a
          end
      else a
  end.
Lemma upd_eq : forall p n ci ct ports sigs csubs x, upd w p n (Cfg ci ct ports sigs csubs) x =
  let a := fold_left (stepw (nty n) p) csubs
     (Acc (keep n) (note_ports p ports x) (map (fun k => p ++ [nid k]) (filter (fun k => w_avail w (nty n) (nty k)) (nsubs n))) true) in
  (Node (nid n) (nty n) (ncn n) (a_subs a), if a_ok a then note_sigs p sigs (a_ctx a) else a_ctx a, a_gone a, a_ok a).
Proof. intros p [i t cn subs] ci ct ports sigs csubs x. reflexivity. Qed.

(** the loop after the saved children [dn] *)
Record after (p : path) (n tn : node) (x : ctx) (dn : list node) (a : acc) : Prop := {
  A_ok : a_ok a = true;
  A_ids : NoDup (map nid (a_subs a));
  A_sub : forall i, match child i dn with
          | None => child i (a_subs a) = child i (keep n) /\ (forall q, pget (p ++ i :: q) (x_conns (a_ctx a)) = None)
          | Some k => match base n tn k with
                      | Some b => exists k', child i (a_subs a) = Some k' /\ outcome (p ++ [i]) b k k' (a_ctx a) (a_gone a)
                      | None => child i (a_subs a) = None /\ (forall q, pget (p ++ i :: q) (x_conns (a_ctx a)) = None)
                      end
          end;
  A_own : pget p (x_conns (a_ctx a)) = nonempty (ported tn);
  A_frame : frame p x (a_ctx a);
  A_gone : forall k, In k (nsubs n) -> w_avail w (nty n) (nty k) = true -> In (p ++ [nid k]) (a_gone a) }.

Lemma outcome_mono : forall p i j b k k' x x' g g', i <> j -> outcome (p ++ [i]) b k k' x g -> frame (p ++ [j]) x x' ->
  (forall r, In r g -> In r g') -> outcome (p ++ [i]) b k k' x' g'.
Proof.
  intros p i j b k k' x x' g g' N [O1 O2 O3 O4 O5 O6 O7] (F1 & F2) G. split; auto.
  - intros q. rewrite F1; [exact (O4 q)|]. intros q' E0. rewrite <- app_assoc in E0. cbn [app] in E0. apply N. exact (path_split p i j _ _ E0).
  - intros q m j' A B. apply F2. eauto.
  - intros q m k0 A B C. apply G. eauto.
Qed.

Lemma child_id : forall i l k, child i l = Some k -> nid k = i.
Proof. intros i l k H. exact (proj2 (child_in _ _ _ H)). Qed.

Theorem upd_ok : forall tn p n x, tidyf tn -> tidyf n -> fitsf n tn ->
  (forall q m k, find tn q = Some m -> In k (nsubs m) -> w_avail w (nty m) (nty k) = true -> w_ok w (p ++ q ++ [nid k]) (nty k) = true) ->
  (forall q m, find tn q = Some m -> NoDup (w_ports w (nty m) (ncn m))) ->
  (forall q, pget (p ++ q) (x_conns x) = None) ->
  exists n' x' g, upd w p n (save w tn) x = (n', x', g, true) /\ outcome p n tn n' x' g /\ frame p x x'.
Proof.
  induction tn as [ti tt tc tsubs IH] using node_rec'. intros p n x Tt Tn Fi Cr Po Hx.
  set (tn := Node ti tt tc tsubs) in *.
  assert (Ety : nty n = tt) by (destruct (Fi [] n eq_refl) as (m' & F1 & F2); cbn in F1; injection F1 as <-; cbn in F2; congruence).
  cbn [save tn]. rewrite upd_eq. cbv zeta.
  set (x0 := note_ports p (map (fun q => (q, aget q tc)) (w_ports w tt tc)) x).
  set (a0 := Acc (keep n) x0 (map (fun k => p ++ [nid k]) (filter (fun k => w_avail w (nty n) (nty k)) (nsubs n))) true).
  destruct (note_ports_ok p tc (w_ports w tt tc) x (Po [] tn eq_refl)) as (N1 & N2 & N3).
  { intros q c0 _ K. specialize (Hx []). rewrite app_nil_r in Hx. congruence. }
  fold x0 in N1, N2, N3.
  assert (Hx0 : pget p (x_conns x) = None) by (specialize (Hx []); rewrite app_nil_r in Hx; exact Hx).
  assert (A0 : after p n tn x [] a0).
  { split.
    - reflexivity.
    - apply nodup_filter_ids. exact (tidyf_ids n Tn).
    - intros i. cbn [child]. split; [reflexivity|]. intros q. cbn [a0 a_ctx]. rewrite N2; [apply Hx|].
      intros E0. apply (f_equal (@length _)) in E0. rewrite app_length in E0. cbn [length] in E0. lia.
    - cbn [a0 a_ctx]. rewrite N3, Hx0. unfold nonempty, ported. cbn [tn nty ncn]. cbn [app]. destruct (flat_map _ _); reflexivity.
    - split; cbn [a0 a_ctx]; [|rewrite N1; auto]. intros r Hr. apply N2. intros ->. apply (Hr []). rewrite app_nil_r. reflexivity.
    - intros k K1 K2. cbn [a0 a_gone]. apply in_map_iff. exists k. split; [reflexivity|]. apply filter_In. auto. }
  assert (Loop : forall td dn a, tsubs = dn ++ td -> after p n tn x dn a -> after p n tn x tsubs (fold_left (stepw (nty n) p) (map (save w) td) a)).
  { induction td as [|k td IHt]; intros dn a Ed A; [rewrite app_nil_r in Ed; subst dn; exact A|].
    cbn [map fold_left]. apply (IHt (dn ++ [k])); [rewrite <- app_assoc; exact Ed|].
    assert (Ink : In k tsubs) by (rewrite Ed; apply in_or_app; right; left; reflexivity).
    pose proof (tidyf_ids tn Tt) as Dt. cbn [tn nsubs] in Dt.
    assert (Ck : child (nid k) tsubs = Some k) by exact (child_nodup _ _ Dt Ink).
    assert (Nk : child (nid k) dn = None).
    { apply child_none. intros K. rewrite Ed, map_app in Dt. cbn [map] in Dt. apply NoDup_remove_2 in Dt. apply Dt. apply in_or_app. left. exact K. }
    rewrite Forall_forall in IH. specialize (IH k Ink).
    destruct A as [A1 A2 A3 A4 A5 A6].
    pose proof (A3 (nid k)) as A3k. rewrite Nk in A3k. destruct A3k as (B1 & B2).
    assert (Hx' : forall q, pget ((p ++ [nid k]) ++ q) (x_conns (a_ctx a)) = None) by (intros q; rewrite <- app_assoc; exact (B2 q)).
    assert (Tk : tidyf k) by exact (tidyf_child tn (nid k) k Tt Ck).
    assert (Cr' : forall q m k0, find k q = Some m -> In k0 (nsubs m) -> w_avail w (nty m) (nty k0) = true -> w_ok w ((p ++ [nid k]) ++ q ++ [nid k0]) (nty k0) = true).
    { intros q m k0 X1 X2 X3. rewrite <- app_assoc. cbn [app]. apply (Cr (nid k :: q) m k0); [cbn [find tn nsubs]; rewrite Ck; exact X1|exact X2|exact X3]. }
    assert (Po' : forall q m, find k q = Some m -> NoDup (w_ports w (nty m) (ncn m))).
    { intros q m X1. apply (Po (nid k :: q) m). cbn [find tn nsubs]. rewrite Ck. exact X1. }
    (* what the step leaves of the children done before *)
    assert (Old : forall a' k1, frame (p ++ [nid k]) (a_ctx a) (a_ctx a') -> (forall r, In r (a_gone a) -> In r (a_gone a')) ->
       (forall i, i <> nid k -> child i (a_subs a') = child i (a_subs a)) -> a_ok a' = true -> NoDup (map nid (a_subs a')) ->
       match base n tn k with
       | Some b => child (nid k) (a_subs a') = Some k1 /\ outcome (p ++ [nid k]) b k k1 (a_ctx a') (a_gone a')
       | None => child (nid k) (a_subs a') = None /\ (forall q, pget (p ++ nid k :: q) (x_conns (a_ctx a')) = None)
       end -> after p n tn x (dn ++ [k]) a').
    { intros a' k1 Fr Gr Sm Ok Nd Hk. split.
      - exact Ok.
      - exact Nd.
      - intros i. rewrite child_app. cbn [child]. specialize (A3 i).
        destruct (Nat.eq_dec i (nid k)) as [->|Ni].
        + rewrite Nk, Nat.eqb_refl. destruct (base n tn k) as [b|]; [exists k1; exact Hk|exact Hk].
        + replace (Nat.eqb (nid k) i) with false by (symmetry; apply Nat.eqb_neq; congruence).
          assert (Fx : (forall q, pget (p ++ i :: q) (x_conns (a_ctx a)) = None) -> forall q, pget (p ++ i :: q) (x_conns (a_ctx a')) = None).
          { intros H q. rewrite (proj1 Fr); [apply H|]. intros q' E0. apply Ni. exact (path_split p i (nid k) _ _ E0). }
          destruct (child i dn) as [k2|] eqn:Kd.
          * destruct (base n tn k2) as [b|].
            -- destruct A3 as (k' & C1 & C2). exists k'. rewrite (Sm i Ni). split; [exact C1|]. exact (outcome_mono p i (nid k) b k2 k' _ _ _ _ Ni C2 Fr Gr).
            -- rewrite (Sm i Ni). split; [exact (proj1 A3)|exact (Fx (proj2 A3))].
          * rewrite (Sm i Ni). split; [exact (proj1 A3)|exact (Fx (proj2 A3))].
      - rewrite (proj1 Fr); [exact A4|]. intros q E0. apply (f_equal (@length _)) in E0. rewrite !app_length in E0. cbn [length] in E0. lia.
      - exact (frame_trans _ _ _ _ A5 (frame_sub _ _ _ _ Fr)).
      - intros k2 X1 X2. apply Gr. exact (A6 k2 X1 X2). }
    assert (Es : exists po si su, save w k = Cfg (nid k) (nty k) po si su) by (destruct k; cbn [save nid nty]; eauto).
    destruct Es as (po & si & su & Es). unfold stepw. rewrite Es. cbv iota beta. rewrite A1. rewrite Ety.
    destruct (w_avail w tt (nty k)) eqn:Av.
    - (* created *)
      assert (Nc : child (nid k) (keep n) = None).
      { destruct (child (nid k) (keep n)) as [k0|] eqn:K0; [|reflexivity]. exfalso.
        destruct (fits_child n tn (nid k) k0 Tt Fi K0) as (k2 & C1 & C2 & _). cbn [tn nsubs nty] in C1, C2. congruence. }
      rewrite B1, Nc.
      assert (Wk : w_ok w (p ++ [nid k]) (nty k) = true) by exact (Cr [] tn k eq_refl Ink Av). rewrite Wk.
      destruct (IH (p ++ [nid k]) (fresh k) (a_ctx a) Tk (tidy_fresh k) (fits_fresh k) Cr' Po' Hx') as (k1 & x1 & g1 & U & Ou & Fr).
      rewrite Es in U. fold (fresh k). rewrite U.
      assert (Ik : nid k1 = nid k) by (destruct Ou as [(O1 & _) _ _ _ _ _ _]; exact O1).
      apply (Old _ k1); cbn [a_ctx a_gone a_subs a_ok].
      + exact Fr.
      + intros r Hr. apply in_or_app. left. exact Hr.
      + intros i Ni. rewrite child_app. cbn [child]. replace (Nat.eqb (nid k1) i) with false by (symmetry; apply Nat.eqb_neq; congruence).
        destruct (child i (a_subs a)); reflexivity.
      + reflexivity.
      + apply nodup_app_id; [exact A2|]. rewrite Ik, B1. exact Nc.
      + unfold base. cbn [tn nty]. rewrite Av. split.
        * rewrite child_app, B1, Nc. cbn [child]. rewrite Ik, Nat.eqb_refl. reflexivity.
        * destruct Ou as [O1 O2 O3 O4 O5 O6 O7]. split; auto. intros q m k0 X1 X2 X3. apply in_or_app. right. eauto.
    - (* fixed *)
      rewrite B1. destruct (child (nid k) (keep n)) as [k0|] eqn:K0.
      + destruct (fits_child n tn (nid k) k0 Tt Fi K0) as (k2 & C1 & C2 & C3 & C4). cbn [tn nsubs nty] in C1, C2. assert (k2 = k) as -> by congruence.
        destruct (keep_child n _ _ (tidyf_ids n Tn) K0) as (K1 & K2).
        destruct (IH (p ++ [nid k]) k0 (a_ctx a) Tk (tidyf_child n _ _ Tn K1) C4 Cr' Po' Hx') as (k1 & x1 & g1 & U & Ou & Fr).
        rewrite Es in U. rewrite U.
        assert (Ik : nid k1 = nid k) by (destruct Ou as [(O1 & _) _ _ _ _ _ _]; rewrite O1; exact (child_id _ _ _ K0)).
        apply (Old _ k1); cbn [a_ctx a_gone a_subs a_ok].
        * exact Fr.
        * intros r Hr. apply in_or_app. left. exact Hr.
        * intros i Ni. rewrite child_replace, Ik. replace (Nat.eqb (nid k) i) with false by (symmetry; apply Nat.eqb_neq; congruence).
          destruct (child i (a_subs a)); reflexivity.
        * reflexivity.
        * rewrite replace_ids. exact A2.
        * unfold base. cbn [tn nty]. rewrite Av, K0. split.
          -- rewrite child_replace, B1, Ik, Nat.eqb_refl. reflexivity.
          -- destruct Ou as [O1 O2 O3 O4 O5 O6 O7]. split; auto. intros q m k3 X1 X2 X3. apply in_or_app. right. eauto.
      + apply (Old a k); [split; auto|auto|auto|exact A1|exact A2|]. unfold base. cbn [tn nty]. rewrite Av, K0. split; [rewrite B1; reflexivity|exact B2]. }
  specialize (Loop tsubs [] a0 eq_refl A0).
  set (a := fold_left (stepw (nty n) p) (map (save w) tsubs) a0) in *.
  destruct Loop as [L1 L2 L3 L4 L5 L6].
  destruct (note_sigs_ok p (w_sigs w tt tc) (a_ctx a)) as (G1 & G2 & G3).
  do 3 eexists. split; [rewrite L1; reflexivity|]. split.
  - split.
    + split; [reflexivity|]. split; reflexivity.
    + intros q. destruct q as [|i q]; cbn [find keptf nty]; [rewrite Ety; reflexivity|]. cbn [nsubs tn].
      specialize (L3 i). fold tn. destruct (child i tsubs) as [k|] eqn:K.
      * destruct (base n tn k) as [b|].
        -- destruct L3 as (k' & -> & Ou). exact (O_find _ _ _ _ _ _ Ou q).
        -- rewrite (proj1 L3). exact Logic.I.
      * rewrite (proj1 L3). destruct (child i (keep n)) as [k0|] eqn:K0; [|exact Logic.I].
        exfalso. destruct (fits_child n tn i k0 Tt Fi K0) as (k2 & C1 & _). cbn [tn nsubs] in C1. congruence.
    + intros q m'. destruct q as [|i q]; cbn [find fixedf]; [intros H; injection H as <-; reflexivity|]. cbn [nsubs].
      specialize (L3 i). destruct (child i tsubs) as [k|] eqn:K.
      * destruct (base n tn k) as [b|] eqn:Eb.
        -- destruct L3 as (k' & -> & Ou). intros Hm. rewrite (O_conns _ _ _ _ _ _ Ou q m' Hm). pose proof (child_id _ _ _ K) as Ik. unfold base in Eb. cbn [tn nty] in Eb.
           destruct (w_avail w tt (nty k)) eqn:Av.
           ++ injection Eb as <-. destruct (child i (keep n)) as [k0|] eqn:K0.
              { exfalso. destruct (fits_child n tn i k0 Tt Fi K0) as (k2 & C1 & C2 & _). cbn [tn nsubs nty] in C1, C2. congruence. }
              destruct q as [|j q]; reflexivity.
           ++ rewrite Ik in Eb. rewrite Eb. reflexivity.
        -- rewrite (proj1 L3). discriminate.
      * rewrite (proj1 L3). destruct (child i (keep n)) as [k0|] eqn:K0; [|discriminate].
        exfalso. destruct (fits_child n tn i k0 Tt Fi K0) as (k2 & C1 & _). cbn [tn nsubs] in C1. congruence.
    + intros q. rewrite G1. destruct q as [|i q]; cbn [keptf]; [rewrite app_nil_r; exact L4|]. cbn [nsubs tn]. fold tn.
      specialize (L3 i). destruct (child i tsubs) as [k|] eqn:K.
      * destruct (base n tn k) as [b|]; [|exact (proj2 L3 q)]. destruct L3 as (k' & _ & Ou). pose proof (O_ent _ _ _ _ _ _ Ou q) as X.
        rewrite <- app_assoc in X. exact X.
      * exact (proj2 L3 q).
    + intros q m j. destruct q as [|i q]; cbn [keptf]; [intros H; injection H as <-; rewrite app_nil_r; apply G3|]. cbn [nsubs tn]. fold tn.
      intros H Hj. apply G2. specialize (L3 i). destruct (child i tsubs) as [k|] eqn:K; [|discriminate].
      destruct (base n tn k) as [b|]; [|discriminate]. destruct L3 as (k' & _ & Ou). pose proof (O_dep _ _ _ _ _ _ Ou q m j H Hj) as X.
      rewrite <- app_assoc in X. exact X.
    + intros q m k. destruct q as [|i q]; cbn [fixedf]; [intros H; injection H as <-; cbn [app]; apply L6|].
      intros H X1 X2. destruct (child i (keep n)) as [k0|] eqn:K0; [|discriminate].
      destruct (fits_child n tn i k0 Tt Fi K0) as (k2 & C1 & C2 & _). cbn [tn nsubs nty] in C1, C2. specialize (L3 i). rewrite C1 in L3.
      unfold base in L3. cbn [tn nty] in L3. rewrite C2, (child_id _ _ _ C1), K0 in L3. destruct L3 as (k' & _ & Ou).
      pose proof (O_gone _ _ _ _ _ _ Ou q m k H X1 X2) as X. rewrite <- app_assoc in X. exact X.
    + intros q m. destruct q as [|i q]; cbn [find]; [intros H; injection H as <-; exact L2|]. cbn [nsubs]. intros H.
      specialize (L3 i). destruct (child i tsubs) as [k|] eqn:K.
      * destruct (base n tn k) as [b|]; [|rewrite (proj1 L3) in H; discriminate]. destruct L3 as (k' & K' & Ou). rewrite K' in H. exact (O_tidy _ _ _ _ _ _ Ou q m H).
      * rewrite (proj1 L3) in H. destruct (child i (keep n)) as [k0|] eqn:K0; [|discriminate].
        exfalso. destruct (fits_child n tn i k0 Tt Fi K0) as (k2 & C1 & _). cbn [tn nsubs] in C1. congruence.
  - destruct L5 as (F1 & F2). split; [rewrite G1; exact F1|]. intros s Hs. apply G2. exact (F2 s Hs).
Qed.
End Upd.
