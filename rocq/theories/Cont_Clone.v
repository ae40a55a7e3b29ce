(** A clone carries the same data; what a property stores. *)
From Verif Require Import Base Cont_Model Cont_Spec Cont_Proofs Cont_Eq Cont_Data.
From Coq Require Import SpecFloat.
Local Open Scope Z_scope.

(** what cloning x with new addresses from nx on must give *)
Definition good_clone (nx : Z) (x : obj) (r : obj * Z) : Prop :=
  nx <= snd r /\ clean (fst r) /\ same (fst r) x /\ (forall u, part u (fst r) -> nx <= addr u \/ part u x).

Lemma clone_items_ok : forall cl us nx,
  (forall u nx, In u us -> good_clone nx u (cl nx u)) ->
  exists ws, fst (clone_items cl nx (map Some us)) = map Some ws /\
    nx <= snd (clone_items cl nx (map Some us)) /\ Forall clean ws /\ Forall2 same ws us /\
    (forall w, In w ws -> forall u, part u w -> nx <= addr u \/ exists x, In x us /\ part u x).
Proof.
  intros cl us. induction us as [|x us IH]; intros nx H.
  - exists []. cbn [map clone_items fst snd]. split; [reflexivity|]. split; [lia|]. split; [constructor|]. split; [constructor|]. intros w [].
  - cbn [map clone_items clone_item]. cbv zeta. cbn [fst snd].
    destruct (H x nx (or_introl eq_refl)) as (A & B & C & D).
    destruct (IH (snd (cl nx x)) (fun u nx' I0 => H u nx' (or_intror I0))) as (ws & E & F & G & K & L).
    exists (fst (cl nx x) :: ws). rewrite E. cbn [map]. split; [reflexivity|]. split; [lia|].
    split; [now constructor|]. split; [now constructor|].
    intros w [<-|Iw] u P.
    + destruct (D u P) as [X|X]; [now left|right; exists x; split; [now left|exact X]].
    + destruct (L w Iw u P) as [X|(y & Iy & Py)]; [left; lia|right; exists y; split; [now right|exact Py]].
Qed.

Lemma clone_entries_ok : forall cl us ds nx,
  (forall a s nx, cl nx (OScal a s) = (OScal a s, nx)) ->
  Forall2 key_is (map fst us) ds ->
  (forall k u nx, In (k, u) us -> good_clone nx u (cl nx u)) ->
  exists ws, fst (clone_entries cl nx (filled us)) = filled ws /\ map fst ws = map fst us /\
    nx <= snd (clone_entries cl nx (filled us)) /\ Forall clean (map snd ws) /\ Forall2 same (map snd ws) (map snd us) /\
    (forall w, In w (map snd ws) -> forall u, part u w -> nx <= addr u \/ exists x, In x (map snd us) /\ part u x).
Proof.
  intros cl us. induction us as [|[k x] us IH]; intros ds nx Hs K H.
  - exists []. cbn [filled map clone_entries fst snd]. do 2 (split; [reflexivity|]). split; [lia|]. split; [constructor|]. split; [constructor|]. intros w [].
  - inversion K as [|? d ? ds' K1 K2]; subst. cbn [fst] in K1.
    assert (X : exists a s, k = OScal a s) by (destruct K1; eauto). destruct X as (a & s & ->).
    cbn [filled map clone_entries fst snd]. fold (filled us). cbv zeta. rewrite Hs. cbn [fst snd clone_item]. cbv zeta. cbn [fst snd].
    destruct (H (OScal a s) x nx (or_introl eq_refl)) as (A & B & C & D).
    destruct (IH ds' (snd (cl nx x)) Hs K2 (fun k' u nx' I0 => H k' u nx' (or_intror I0))) as (ws & E & M & F & G & L & N).
    exists ((OScal a s, fst (cl nx x)) :: ws). rewrite E. cbn [filled map fst snd]. split; [reflexivity|].
    split; [now rewrite M|]. split; [lia|]. split; [now constructor|]. split; [now constructor|].
    intros w [<-|Iw] u P.
    + destruct (D u P) as [X|X]; [now left|right; exists x; split; [now left|exact X]].
    + destruct (N w Iw u P) as [X|(y & Iy & Py)]; [left; lia|right; exists y; split; [now right|exact Py]].
Qed.

Lemma pair_of : forall (us : list (obj * obj)) ws, map fst ws = map fst us -> Forall2 same (map snd ws) (map snd us) ->
  Forall2 (fun w u => fst w = fst u /\ same (snd w) (snd u)) ws us.
Proof.
  induction us as [|[k u] us IH]; intros [|[k' w] ws] E F; try discriminate; constructor.
  - cbn [map fst snd] in *. injection E as -> E. inversion F; subst. now split.
  - cbn [map fst snd] in *. injection E as -> E. inversion F; subst. now apply IH.
Qed.
Lemma Forall2_in_l : forall A B (P : A -> B -> Prop) l m x, Forall2 P l m -> In x l -> exists y, In y m /\ P x y.
Proof.
  intros A B P l m x F. induction F; intros []; subst.
  - eexists. split; [now left|assumption].
  - destruct IHF as (y0 & I0 & P0); [assumption|]. exists y0. split; [now right|exact P0].
Qed.
Lemma Forall2_in_r : forall A B (P : A -> B -> Prop) l m y, Forall2 P l m -> In y m -> exists x, In x l /\ P x y.
Proof.
  intros A B P l m y F. induction F; intros []; subst.
  - eexists. split; [now left|assumption].
  - destruct IHF as (x0 & I0 & P0); [assumption|]. exists x0. split; [now right|exact P0].
Qed.

Lemma clonen_ok : forall n x nx, (depth x <= n)%nat -> clean x -> good_clone nx x (clonen n nx x).
Proof.
  induction n as [|n IH]; intros x nx D C; [pose proof (depth_pos x); lia|].
  destruct x as [a s|a xs|a es]; cbn [clonen].
  - split; [cbn [snd]; lia|]. cbn [fst]. split; [exact C|]. split; [now apply same_refl|]. intros u P. now right.
  - destruct (clean_list_inv _ _ C) as (us & -> & Fu). rewrite Forall_forall in Fu. cbv zeta.
    destruct (clone_items_ok (clonen n) us (nx + 1)) as (ws & E & A & B & F & G).
    { intros u nx' Iu. apply IH; [pose proof (depth_item a us u Iu); lia|now apply Fu]. }
    split; [cbn [snd]; lia|]. cbn [fst]. rewrite E. split; [now constructor|]. split; [now constructor|].
    intros u P. inversion P as [x0 E1|u' a' xs' w I0 Pw E1 E2| |]; subst.
    + left. cbn [addr]. lia.
    + apply in_map_iff in I0. destruct I0 as (w' & Ew & Iw). injection Ew as ->.
      destruct (G w Iw u Pw) as [X|(x & Ix & Px)]; [left; lia|right].
      apply (part_item u a _ x); [now apply in_map|exact Px].
  - destruct (clean_dict_inv _ _ C) as (us & ds & -> & Ku & Nu & Fu). rewrite Forall_forall in Fu. cbv zeta.
    assert (N1 : n <> O -> forall a s nx, clonen n nx (OScal a s) = (OScal a s, nx)).
    { intros N0 b t q. destruct n; [contradiction|]. reflexivity. }
    destruct (clone_entries_ok (clonen n) us ds (nx + 1)) as (ws & E & M & A & B & F & G).
    { destruct n; [|now apply N1]. intros b t q. reflexivity. }
    { exact Ku. }
    { intros k u nx' Iu. apply IH; [pose proof (depth_val a us k u Iu); lia|].
      apply Fu. now apply (in_map snd) in Iu. }
    split; [cbn [snd]; lia|]. cbn [fst]. rewrite E.
    assert (Pr := pair_of us ws M F).
    split; [apply (clean_dict nx ws ds); [now rewrite M|exact Nu|exact B]|].
    split.
    + constructor.
      * intros k v d I0 K. destruct (Forall2_in_l _ _ _ _ _ _ Pr I0) as ([k' v'] & I1 & E1 & S1). cbn [fst snd] in *. subst k'.
        exists k, v'. now repeat split.
      * intros k v d I0 K. destruct (Forall2_in_r _ _ _ _ _ _ Pr I0) as ([k' v'] & I1 & E1 & S1). cbn [fst snd] in *. subst k'.
        exists k, v'. now repeat split.
    + intros u P. inversion P as [x0 E1| |u' a' es' k v I0 Pk E1 E2|u' a' es' k v I0 Pv E1 E2]; subst.
      * left. cbn [addr]. lia.
      * right. apply (in_map fst) in I0. rewrite map_fst_filled, M in I0. apply in_map_iff in I0. destruct I0 as ([k' v'] & Ek & I1).
        cbn [fst] in Ek. subst k'. apply (part_key u a _ k (Some v')); [|exact Pk].
        unfold filled. now apply (in_map (fun e => (fst e, Some (snd e)))) in I1.
      * unfold filled in I0. apply in_map_iff in I0. destruct I0 as ([k' v'] & Ek & I1). cbn [fst snd] in Ek. injection Ek as -> ->.
        apply (in_map snd) in I1. destruct (G v I1 u Pv) as [X|(x & Ix & Px)]; [left; lia|right].
        apply in_map_iff in Ix. destruct Ix as ([k2 v2] & Ek & I2). cbn [snd] in Ek. subst v2.
        apply (part_val u a _ k2 x); [|exact Px]. unfold filled. now apply (in_map (fun e => (fst e, Some (snd e)))) in I2.
Qed.

Lemma clone_equal : forall nx x, clean x -> one_heap x x -> (forall u, part u x -> addr u < nx) ->
  clean (clone nx x) /\ same (clone nx x) x /\ equals (clone nx x) (Some x) = Yes /\ equals x (Some (clone nx x)) = Yes /\
  (forall u, part u (clone nx x) -> nx <= addr u \/ part u x).
Proof.
  intros nx x C H L. destruct (clonen_ok (depth x) x nx (le_n _) C) as (_ & A & B & D).
  change (fst (clonen (depth x) nx x)) with (clone nx x) in *.
  assert (O : one_heap (clone nx x) x).
  { intros u v Pu Pv E. destruct (D u Pu) as [X|X]; [specialize (L v Pv); lia|now apply H]. }
  split; [exact A|]. split; [exact B|]. split; [|split; [|exact D]].
  - destruct (equals_decides _ _ A C O) as [[X _]|[_ X]]; [exact X|contradiction].
  - destruct (equals_decides _ _ C A (heap_sym _ _ O)) as [[X _]|[_ X]]; [exact X|]. exfalso. apply X. now apply same_sym.
Qed.

(** * What a property stores *)
Lemma cmp_z_eq : forall i j, cmp_z i j = CEqual <-> i = j.
Proof.
  intros i j. unfold cmp_z. destruct (Z.ltb_spec j i), (Z.ltb_spec i j); split; intros H1; try discriminate; try lia; reflexivity.
Qed.
Lemma cmp_z_def : forall i j, cmp_z i j <> CError /\ cmp_z i j <> CUndef.
Proof. intros i j. unfold cmp_z. destruct (j <? i), (i <? j); split; discriminate. Qed.
Lemma cmp_f_eq : forall f g, f <> S754_nan -> g <> S754_nan -> cmp_f f g = CEqual <-> number f = number g.
Proof.
  intros f g A B. unfold cmp_f, SFltb, SFcompare.
  destruct f as [s|s| |s m e], g as [s'|s'| |s' m' e']; try (exfalso; (now apply A) || (now apply B)); try destruct s; try destruct s';
    cbn [number]; try (split; discriminate); try (split; reflexivity); try (split; intros; congruence);
    change (Pos.compare_cont Eq) with Pos.compare; rewrite (Z.compare_antisym e e'), (Pos.compare_antisym m m');
    destruct (Z.compare e e') eqn:Ce; cbn [CompOpp]; try (split; [discriminate|]; intros X; injection X as -> ->; rewrite Z.compare_refl in Ce; discriminate);
    apply Z.compare_eq in Ce; subst e';
    destruct (Pos.compare m m') eqn:Cm; cbn [CompOpp];
    try (split; [discriminate|]; intros X; injection X as ->; rewrite Pos.compare_refl in Cm; discriminate);
    apply Pos.compare_eq in Cm; subst m'; split; reflexivity.
Qed.

Lemma ptr_eq_typed : forall t u v, has_type t u -> has_type t v -> not_nan u -> not_nan v ->
  exists b, ptr_eq u v = Some b /\ (b = true -> same_scalar u v) /\ (b = false -> ~ same_scalar u v).
Proof.
  intros t u v Tu Tv Nu Nv. unfold ptr_eq, same_scalar, not_nan in *.
  destruct t, u; try contradiction; destruct v; try contradiction; cbn [compare].
  - pose proof (cmp_z_eq i i0) as E. destruct (cmp_z_def i i0) as [X Y]. destruct (cmp_z i i0); try contradiction; eexists; (split; [reflexivity|]);
      split; intros Q; try discriminate.
    + intros Z0. inversion Z0. assert (CLower = CEqual) by now apply E. discriminate.
    + assert (i = i0) by now apply E. subst. constructor.
    + intros Z0. inversion Z0. assert (CGreater = CEqual) by now apply E. discriminate.
  - assert (E := cmp_f_eq f f0 ltac:(congruence) ltac:(congruence)).
    assert (D : cmp_f f f0 <> CError /\ cmp_f f f0 <> CUndef).
    { unfold cmp_f. destruct (SFltb f0 f), (SFltb f f0); split; discriminate. }
    destruct D as [X Y]. destruct (cmp_f f f0); try contradiction; eexists; (split; [reflexivity|]); split; intros Q; try discriminate.
    + intros Z0. inversion Z0. assert (CLower = CEqual) by now apply E. discriminate.
    + constructor. now apply E.
    + intros Z0. inversion Z0. assert (CGreater = CEqual) by now apply E. discriminate.
  - pose proof (cmp_z_eq (b2z b) (b2z b0)) as E. destruct (cmp_z_def (b2z b) (b2z b0)) as [X Y].
    destruct (cmp_z (b2z b) (b2z b0)); try contradiction; eexists; (split; [reflexivity|]); split; intros Q; try discriminate.
    + intros Z0. inversion Z0; subst. assert (CLower = CEqual) by now apply E. discriminate.
    + assert (Eb : b2z b = b2z b0) by now apply E. assert (b = b0) by (destruct b, b0; discriminate || reflexivity). subst. constructor.
    + intros Z0. inversion Z0; subst. assert (CGreater = CEqual) by now apply E. discriminate.
Qed.

Lemma same_scalar_refl : forall t v, has_type t v -> same_scalar v v.
Proof. intros t v T. destruct t, v; try contradiction; constructor; reflexivity. Qed.

Lemma write_read : forall t stored dflt v, has_type t dflt -> not_nan dflt -> has_type t v -> not_nan v ->
  (forall s, stored = Some s -> has_type t s /\ not_nan s) ->
  exists st, write_value stored dflt v = Some st /\ same_scalar (read_value st dflt) v /\
    (forall s, st = Some s -> has_type t s /\ not_nan s).
Proof.
  intros t stored dflt v Td Nd Tv Nv Hs. unfold write_value. destruct stored as [old|].
  - destruct (Hs old eq_refl) as [To No]. destruct (ptr_eq_typed t old v To Tv No Nv) as (b & E & A & _). rewrite E. destruct b.
    + exists (Some old). split; [reflexivity|]. split; [now apply A|exact Hs].
    + exists (Some v). split; [reflexivity|]. split; [exact (same_scalar_refl t v Tv)|]. intros s X. injection X as <-. now split.
  - destruct (ptr_eq_typed t dflt v Td Tv Nd Nv) as (b & E & A & _). rewrite E. destruct b.
    + exists None. split; [reflexivity|]. split; [now apply A|discriminate].
    + exists (Some v). split; [reflexivity|]. split; [exact (same_scalar_refl t v Tv)|]. intros s X. injection X as <-. now split.
Qed.

(** checking the addresses of all parts of a concrete object *)
Fixpoint chk (n : nat) (P : Z -> bool) (x : obj) : bool :=
  match n with
  | O => false
  | S n => P (addr x) &&
      match x with
      | OScal _ _ => true
      | OList _ xs => forallb (fun i => match i with None => true | Some i => chk n P i end) xs
      | ODict _ es => forallb (fun e => chk n P (fst e) && match snd e with None => true | Some i => chk n P i end) es
      end
  end.
Lemma chk_ok : forall P u x, part u x -> forall n, chk n P x = true -> P (addr u) = true.
Proof.
  intros P u x H. induction H as [x|u a xs x I0 _ IH|u a es k v I0 _ IH|u a es k v I0 _ IH]; intros [|n] E; try discriminate;
    cbn [chk] in E; apply andb_true_iff in E; destruct E as [E1 E2].
  - exact E1.
  - rewrite forallb_forall in E2. exact (IH n (E2 _ I0)).
  - rewrite forallb_forall in E2. specialize (E2 _ I0). apply andb_true_iff in E2. exact (IH n (proj1 E2)).
  - rewrite forallb_forall in E2. specialize (E2 _ I0). apply andb_true_iff in E2. exact (IH n (proj2 E2)).
Qed.
