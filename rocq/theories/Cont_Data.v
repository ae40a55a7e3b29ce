(** equals on nested data decides whether two objects carry the same data. *)
From Verif Require Import Base Cont_Model Cont_Spec Cont_Proofs Cont_Eq.
From Coq Require Import SpecFloat.
Local Open Scope Z_scope.

(** * Depth *)
Lemma depth_pos : forall x, (1 <= depth x)%nat.
Proof. destruct x; cbn [depth]; lia. Qed.
Lemma depth_item : forall a xs x, In x xs -> (S (depth x) <= depth (OList a (map Some xs)))%nat.
Proof.
  intros a xs x H. cbn [depth]. apply le_n_S. induction xs as [|y xs IH]; [contradiction|].
  cbn [map fold_right]. destruct H as [->|H]; [lia|]. specialize (IH H). lia.
Qed.
Lemma depth_val : forall a es k v, In (k, v) es -> (S (depth v) <= depth (ODict a (filled es)))%nat.
Proof.
  intros a es k v H. cbn [depth]. apply le_n_S. unfold filled. induction es as [|[k' v'] es IH]; [contradiction|].
  cbn [map fold_right fst snd]. destruct H as [E|H]; [injection E as -> ->; lia|]. specialize (IH H). lia.
Qed.

(** * Inversions *)
Lemma map_some_inj : forall (xs ys : list obj), map Some xs = map Some ys -> xs = ys.
Proof.
  induction xs as [|x xs IH]; intros [|y ys] H; try discriminate; [reflexivity|].
  injection H as -> H. now rewrite (IH _ H).
Qed.
Lemma filled_inj : forall es fs, filled es = filled fs -> es = fs.
Proof.
  unfold filled. induction es as [|[k v] es IH]; intros [|[k' v'] fs] H; try discriminate; [reflexivity|].
  cbn [map fst snd] in H. injection H as -> -> H. now rewrite (IH _ H).
Qed.
Lemma map_fst_filled : forall es, map fst (filled es) = map fst es.
Proof. intros. unfold filled. rewrite map_map. reflexivity. Qed.
Lemma filled_length : forall es, length (filled es) = length es.
Proof. intros. unfold filled. apply map_length. Qed.

Lemma same_list_inv : forall a b xs ys, same (OList a (map Some xs)) (OList b (map Some ys)) -> Forall2 same xs ys.
Proof.
  intros a b xs ys H. inversion H as [| | | | | |a' b' xs' ys' F E1 E2|]; subst.
  repeat match goal with X : map Some _ = map Some _ |- _ => apply map_some_inj in X; subst end. exact F.
Qed.
Definition covers (es fs : list (obj * obj)) : Prop :=
  forall k v d, In (k, v) es -> key_is k d -> exists k' v', In (k', v') fs /\ key_is k' d /\ same v v'.
Definition covers' (es fs : list (obj * obj)) : Prop :=
  forall k v d, In (k, v) fs -> key_is k d -> exists k' v', In (k', v') es /\ key_is k' d /\ same v' v.
Lemma same_dict_inv : forall a b es fs, same (ODict a (filled es)) (ODict b (filled fs)) -> covers es fs /\ covers' es fs.
Proof.
  intros a b es fs H. inversion H as [| | | | | | |a' b' es' fs' A B E1 E2]; subst.
  repeat match goal with X : filled _ = filled _ |- _ => apply filled_inj in X; subst end. split; assumption.
Qed.

Lemma in_keys : forall (es : list (obj * obj)) ds k v, Forall2 key_is (map fst es) ds -> In (k, v) es -> exists d, key_is k d /\ In d ds.
Proof.
  intros es ds k v F H. revert ds F. induction es as [|[k' v'] es IH]; intros ds F; [contradiction|].
  inversion F as [|? d ? ds' K F']; subst. destruct H as [E|H].
  - injection E as -> ->. exists d. split; [exact K|now left].
  - destruct (IH H _ F') as (d0 & A & B). exists d0. split; [exact A|now right].
Qed.
Lemma keys_in : forall (es : list (obj * obj)) ds d, Forall2 key_is (map fst es) ds -> In d ds -> exists k v, In (k, v) es /\ key_is k d.
Proof.
  intros es ds d F H. revert ds F H. induction es as [|[k v] es IH]; intros ds F H.
  - inversion F; subst. contradiction.
  - inversion F as [|? d' ? ds' K F']; subst. destruct H as [->|H].
    + exists k, v. split; [now left|exact K].
    + destruct (IH _ F' H) as (k0 & v0 & A & B). exists k0, v0. split; [now right|exact B].
Qed.
Lemma unique_key : forall (es : list (obj * obj)) ds k v k' v' d, Forall2 key_is (map fst es) ds -> NoDup ds ->
  In (k, v) es -> In (k', v') es -> key_is k d -> key_is k' d -> v = v'.
Proof.
  intros es. induction es as [|[k0 v0] es IH]; intros ds k v k' v' d F N A B K K'; [contradiction|].
  inversion F as [|? d0 ? ds' K0 F']; subst. inversion N as [|? ? N1 N2]; subst.
  assert (X : forall q w, In (q, w) es -> key_is q d -> In d ds').
  { intros q w I0 Kq. destruct (in_keys _ _ _ _ F' I0) as (e & Ke & Ie). now rewrite (key_fun _ _ _ Kq Ke). }
  destruct A as [A|A], B as [B|B].
  - congruence.
  - injection A as -> ->. exfalso. apply N1. rewrite (key_fun _ _ _ K0 K). now apply (X k' v').
  - injection B as -> ->. exfalso. apply N1. rewrite (key_fun _ _ _ K0 K'). now apply (X k v).
  - exact (IH _ _ _ _ _ _ F' N2 A B K K').
Qed.

(** * same is an equivalence on clean data *)
Lemma clean_list_inv : forall a xs, clean (OList a xs) -> exists ys, xs = map Some ys /\ Forall clean ys.
Proof. intros a xs H. inversion H; subst. eauto. Qed.
Lemma clean_dict_inv : forall a es, clean (ODict a es) -> exists fs ds, es = filled fs /\ Forall2 key_is (map fst fs) ds /\
  NoDup ds /\ Forall clean (map snd fs).
Proof. intros a es H. inversion H; subst. eauto 8. Qed.

Lemma same_refl_n : forall n x, (depth x <= n)%nat -> clean x -> same x x.
Proof.
  induction n as [|n IH]; intros x D C; [pose proof (depth_pos x); lia|].
  destruct x as [a s|a xs|a es].
  - inversion C; subst; constructor; reflexivity.
  - destruct (clean_list_inv _ _ C) as (ys & -> & F). constructor.
    rewrite Forall_forall in F. assert (G : forall l, incl l ys -> Forall2 same l l).
    { induction l as [|y l IHl]; intros Il; constructor.
      - apply IH; [pose proof (depth_item a ys y (Il y (or_introl eq_refl))); lia|apply F; apply Il; now left].
      - apply IHl. intros z Hz. apply Il. now right. }
    apply G. apply incl_refl.
  - destruct (clean_dict_inv _ _ C) as (fs & ds & -> & K & N & F). rewrite Forall_forall in F.
    constructor; intros k v d I0 Kd; exists k, v; (split; [exact I0|split; [exact Kd|]]);
      (apply IH; [pose proof (depth_val a fs k v I0); lia|apply F; now apply (in_map snd) in I0]).
Qed.
Lemma same_refl : forall x, clean x -> same x x.
Proof. intros x C. exact (same_refl_n (depth x) x (le_n _) C). Qed.

Lemma same_sym_n : forall n x y, (depth x <= n)%nat -> same x y -> same y x.
Proof.
  induction n as [|n IH]; intros x y D H; [pose proof (depth_pos x); lia|].
  destruct H as [a b i|a b f g E|a b x|a b s|a b p q p' q' E|a|a b xs ys F|a b es fs A B].
  - constructor.
  - constructor. now symmetry.
  - constructor.
  - constructor.
  - constructor. now symmetry.
  - constructor.
  - constructor.
    assert (G : forall l, (forall x, In x l -> In x xs) -> forall m, Forall2 same l m -> Forall2 same m l).
    { induction l as [|x l IHl]; intros Il m Fm; inversion Fm as [|? y ? m' S0 F']; subst; constructor.
      - apply IH; [pose proof (depth_item a xs x (Il x (or_introl eq_refl))); lia|exact S0].
      - apply IHl; [|exact F']. intros z Hz. apply Il. now right. }
    apply (G xs); [tauto|exact F].
  - constructor.
    + intros k v d I0 K. destruct (B k v d I0 K) as (k' & v' & I1 & K1 & S1). exists k', v'.
      split; [exact I1|split; [exact K1|]]. apply IH; [pose proof (depth_val a es k' v' I1); lia|exact S1].
    + intros k v d I0 K. destruct (A k v d I0 K) as (k' & v' & I1 & K1 & S1). exists k', v'.
      split; [exact I1|split; [exact K1|]]. apply IH; [pose proof (depth_val a es k v I0); lia|exact S1].
Qed.
Lemma same_sym : forall x y, same x y -> same y x.
Proof. intros x y. exact (same_sym_n (depth x) x y (le_n _)). Qed.

Lemma same_trans_n : forall n x y z, (depth x <= n)%nat -> clean y -> same x y -> same y z -> same x z.
Proof.
  induction n as [|n IH]; intros x y z D C H G; [pose proof (depth_pos x); lia|].
  destruct H as [a b i|a b f g E|a b x|a b s|a b p q p' q' E|a|a b xs ys F|a b es fs A B].
  - inversion G; subst; constructor.
  - inversion G; subst; constructor; congruence.
  - inversion G; subst; constructor.
  - inversion G; subst; constructor.
  - inversion G as [| | | |b' c n1 d1 n2 d2 E'| | |]; subst. inversion C; subst. constructor.
    apply (Z.mul_reg_l _ _ q'); [lia|]. transitivity (p * q' * d2); [ring|]. rewrite E.
    transitivity (p' * d2 * q); [ring|]. rewrite E'. ring.
  - exact G.
  - inversion G as [| | | | | |b' c ys' zs F' E1 E2|]; subst.
    match goal with H : map Some _ = map Some ys |- _ => apply map_some_inj in H; subst end.
    destruct (clean_list_inv _ _ C) as (q & Eq & Fc). apply map_some_inj in Eq. subst q.
    constructor.
    assert (X : forall l, (forall x, In x l -> In x xs) -> forall m, Forall2 same l m -> Forall clean m -> forall r, Forall2 same m r -> Forall2 same l r).
    { induction l as [|x l IHl]; intros Il m Fm Cm r Fr; inversion Fm as [|? y ? m' S0 F0]; subst; inversion Fr as [|? z ? r' S1 F1]; subst; constructor.
      - inversion Cm; subst. apply (IH x y z); [pose proof (depth_item a xs x (Il x (or_introl eq_refl))); lia|assumption|exact S0|exact S1].
      - inversion Cm; subst. apply (IHl (fun w Hw => Il w (or_intror Hw)) m'); assumption. }
    apply (X xs (fun w Hw => Hw) ys F Fc zs F').
  - inversion G as [| | | | | | |b' c fs' gs A' B' E1 E2]; subst.
    match goal with H : filled _ = filled fs |- _ => apply filled_inj in H; subst end.
    destruct (clean_dict_inv _ _ C) as (q & ds & Eq & _ & _ & Fc). apply filled_inj in Eq. subst q. rewrite Forall_forall in Fc.
    constructor.
    + intros k v d I0 K. destruct (A k v d I0 K) as (k1 & v1 & I1 & K1 & S1). destruct (A' k1 v1 d I1 K1) as (k2 & v2 & I2 & K2 & S2).
      exists k2, v2. split; [exact I2|split; [exact K2|]]. apply (IH v v1 v2); [pose proof (depth_val a es k v I0); lia| |exact S1|exact S2].
      apply Fc. now apply (in_map snd) in I1.
    + intros k v d I0 K. destruct (B' k v d I0 K) as (k1 & v1 & I1 & K1 & S1). destruct (B k1 v1 d I1 K1) as (k2 & v2 & I2 & K2 & S2).
      exists k2, v2. split; [exact I2|split; [exact K2|]]. apply (IH v2 v1 v); [pose proof (depth_val a es k2 v2 I2); lia| |exact S2|exact S1].
      apply Fc. now apply (in_map snd) in I1.
Qed.
Lemma same_trans : forall x y z, clean y -> same x y -> same y z -> same x z.
Proof. intros x y z. exact (same_trans_n (depth x) x y z (le_n _)). Qed.

(** * equals decides same *)
Definition decides (r : eres) (P : Prop) : Prop := r = Yes /\ P \/ r = No /\ ~ P.

Lemma b2e_decides : forall b (P : Prop), (b = true <-> P) -> decides (b2e b) P.
Proof.
  intros [|] P H; unfold decides; cbn [b2e]; [left|right]; split; try reflexivity; [now apply H|].
  intros A. apply H in A. discriminate.
Qed.
Lemma no_decides : forall (P : Prop), ~ P -> decides No P.
Proof. intros P H. now right. Qed.

Lemma scal_decides : forall a s y, clean (OScal a s) -> clean y -> one_heap (OScal a s) y ->
  decides (scal_equal a s (Some y)) (same (OScal a s) y).
Proof.
  intros a s y C Cy H.
  inversion C; subst; cbn [scal_equal].
  - destruct y as [b [ | | | | | ]|b l|b l]; try (apply no_decides; intros X; inversion X; fail).
    apply b2e_decides. rewrite Z.eqb_eq. split; [intros ->; constructor|]. intros X. now inversion X.
  - destruct y as [b [ | | | | | ]|b l|b l]; try (apply no_decides; intros X; inversion X; fail).
    apply b2e_decides. rewrite sfeqb_number. split; [intros [E _]; constructor; now symmetry|]. intros X. inversion X; subst.
    split; [now symmetry|assumption].
  - destruct y as [b0 [ | | | | | ]|b0 l|b0 l]; try (apply no_decides; intros X; inversion X; fail).
    apply b2e_decides. rewrite Bool.eqb_true_iff. split; [intros ->; constructor|]. intros X. now inversion X.
  - destruct y as [b [ | | | | | ]|b l|b l]; try (apply no_decides; intros X; inversion X; fail).
    inversion Cy; subst. apply b2e_decides. rewrite str_equal_iff by assumption. split; [intros ->; constructor|]. intros X. now inversion X.
  - destruct y as [b [ | | | | | ]|b l|b l]; try (apply no_decides; intros X; inversion X; fail).
    inversion Cy; subst. apply b2e_decides. rewrite rat_equal_iff by assumption. split; [intros E; now constructor|]. intros X. now inversion X.
  - apply b2e_decides. rewrite Z.eqb_eq. split.
    + intros E. assert (X : OScal a SOther = y) by (apply H; [constructor|constructor|exact E]). subst y. constructor.
    + intros X. now inversion X.
Qed.

Lemma heap_sym : forall x y, one_heap x y -> one_heap y x.
Proof. intros x y H u v A B E. symmetry. now apply H. Qed.
Lemma heap_part : forall x y u v, one_heap x y -> (forall w, part w u -> part w x) -> (forall w, part w v -> part w y) -> one_heap u v.
Proof. intros x y u v H A B p q P Q E. apply H; [now apply A|now apply B|exact E]. Qed.

Lemma items_decides : forall eq xs ys, length xs = length ys -> Forall clean xs -> Forall clean ys ->
  (forall x y, In x xs -> In y ys -> addr x = addr y -> x = y) ->
  (forall x y, In x xs -> In y ys -> decides (eq x (Some y)) (same x y)) ->
  decides (items_equal eq (map Some xs) (map Some ys)) (Forall2 same xs ys).
Proof.
  intros eq. induction xs as [|x xs IH]; intros [|y ys] L Cx Cy Hp He; cbn [length] in L; try lia.
  - left. split; [reflexivity|constructor].
  - cbn [map items_equal same_ptr]. inversion Cx as [|? ? Cx1 Cx2]; subst. inversion Cy as [|? ? Cy1 Cy2]; subst.
    assert (T : decides (items_equal eq (map Some xs) (map Some ys)) (Forall2 same xs ys)).
    { apply IH; [lia|assumption|assumption| |]; intros p q A B; [apply Hp|apply He]; now right. }
    assert (Y : same x y -> decides (items_equal eq (map Some xs) (map Some ys)) (Forall2 same (x :: xs) (y :: ys))).
    { intros S0. destruct T as [[-> F]|[-> F]].
      - left. split; [reflexivity|now constructor].
      - right. split; [reflexivity|]. intros X. apply F. now inversion X. }
    destruct (Z.eqb_spec (addr x) (addr y)) as [E|_].
    + apply Y. rewrite <- (Hp x y (or_introl eq_refl) (or_introl eq_refl) E). now apply same_refl.
    + destruct (He x y (or_introl eq_refl) (or_introl eq_refl)) as [[-> S0]|[-> S0]].
      * now apply Y.
      * right. split; [reflexivity|]. intros X. apply S0. now inversion X.
Qed.

Lemma nth_filled : forall es i, nth_error (filled es) i = option_map (fun e => (fst e, Some (snd e))) (nth_error es i).
Proof. intros. unfold filled. apply nth_error_map. Qed.

Lemma entries_decides : forall eq es ds fs ds',
  (forall k d k' d', key_is k d -> key_is k' d' -> eq k (Some k') = b2e (is_key d d')) ->
  Forall2 key_is (map fst es) ds -> NoDup ds -> Forall2 key_is (map fst fs) ds' ->
  (forall k v k' v', In (k, v) es -> In (k', v') fs -> decides (eq v' (Some v)) (same v' v)) ->
  decides (entries_equal eq (filled es) (filled fs)) (covers' es fs).
Proof.
  intros eq es ds fs ds' Ek Ke N Kf Hv. revert ds' Kf Hv.
  induction fs as [|[k v] fs IH]; intros ds' Kf Hv.
  - left. split; [reflexivity|]. intros k v d [].
  - inversion Kf as [|? d ? ds0 K Kf']; subst. cbn [fst] in K. cbn [filled map fst snd entries_equal]. fold (filled fs).
    assert (Ke' : Forall2 key_is (map fst (filled es)) ds) by now rewrite map_fst_filled.
    destruct (find_ok eq Ek k d (filled es) ds K Ke') as [(j & A & B)|(A & B)]; rewrite A.
    + destruct (Forall2_nth _ _ _ _ _ _ _ Ke B) as (k' & E' & K').
      rewrite nth_error_map in E'. rewrite nth_filled. destruct (nth_error es j) as [[k0 w]|] eqn:En; [|discriminate].
      cbn [option_map fst snd] in *. injection E' as ->. apply nth_error_In in En.
      cbn [ptr_equals]. destruct (Hv k' w k v En (or_introl eq_refl)) as [[-> S0]|[-> S0]].
      * assert (T : decides (entries_equal eq (filled es) (filled fs)) (covers' es fs)).
        { apply (IH ds0 Kf'). intros a b c e P Q. apply (Hv a b c e P). now right. }
        destruct T as [[-> F]|[-> F]].
        -- left. split; [reflexivity|]. intros p q d1 [X|X] Kp.
           ++ injection X as -> ->. rewrite (key_fun _ _ _ Kp K). exists k', w. split; [exact En|]. split; [exact K'|]. now apply same_sym.
           ++ exact (F p q d1 X Kp).
        -- right. split; [reflexivity|]. intros X. apply F. intros p q d1 P Kp. exact (X p q d1 (or_intror P) Kp).
      * right. split; [reflexivity|]. intros X. destruct (X k v d (or_introl eq_refl) K) as (k1 & v1 & I1 & K1 & S1).
        apply S0. rewrite (unique_key es ds k' w k1 v1 d Ke N En I1 K' K1). now apply same_sym.
    + right. split; [reflexivity|]. intros X. destruct (X k v d (or_introl eq_refl) K) as (k1 & v1 & I1 & K1 & S1).
      apply B. destruct (in_keys _ _ _ _ Ke I1) as (d1 & Kd1 & I2). now rewrite (key_fun _ _ _ K1 Kd1).
Qed.

(** every key of one is in the other, as many: then the other way round too *)
Lemma covers_back : forall es ds fs ds', Forall2 key_is (map fst es) ds -> NoDup ds -> Forall2 key_is (map fst fs) ds' -> NoDup ds' ->
  length es = length fs -> covers' es fs -> covers es fs.
Proof.
  intros es ds fs ds' Ke N Kf N' L C k v d I0 K.
  assert (Le : length ds = length ds').
  { rewrite <- (Forall2_len _ _ _ _ _ Ke), <- (Forall2_len _ _ _ _ _ Kf), !map_length. exact L. }
  assert (In1 : incl ds' ds).
  { intros e Ie. destruct (keys_in _ _ _ Kf Ie) as (k1 & v1 & I1 & K1).
    destruct (C k1 v1 e I1 K1) as (k2 & v2 & I2 & K2 & _).
    destruct (in_keys _ _ _ _ Ke I2) as (e2 & Ke2 & I3). now rewrite (key_fun _ _ _ K2 Ke2). }
  assert (In2 : incl ds ds') by (apply NoDup_length_incl; [exact N'|lia|exact In1]).
  assert (Id : In d ds) by (destruct (in_keys _ _ _ _ Ke I0) as (e2 & Ke2 & I3); now rewrite (key_fun _ _ _ K Ke2)).
  destruct (keys_in _ _ _ Kf (In2 d Id)) as (k1 & v1 & I1 & K1).
  destruct (C k1 v1 d I1 K1) as (k2 & v2 & I2 & K2 & S2).
  exists k1, v1. split; [exact I1|split; [exact K1|]].
  now rewrite (unique_key es ds k v k2 v2 d Ke N I0 I2 K K2).
Qed.

Lemma cover_length : forall es ds fs ds', Forall2 key_is (map fst es) ds -> NoDup ds -> Forall2 key_is (map fst fs) ds' -> NoDup ds' ->
  covers es fs -> covers' es fs -> length es = length fs.
Proof.
  intros es ds fs ds' Ke N Kf N' C C'.
  assert (In1 : incl ds' ds).
  { intros e Ie. destruct (keys_in _ _ _ Kf Ie) as (k1 & v1 & I1 & K1).
    destruct (C' k1 v1 e I1 K1) as (k2 & v2 & I2 & K2 & _).
    destruct (in_keys _ _ _ _ Ke I2) as (e2 & Ke2 & I3). now rewrite (key_fun _ _ _ K2 Ke2). }
  assert (In2 : incl ds ds').
  { intros e Ie. destruct (keys_in _ _ _ Ke Ie) as (k1 & v1 & I1 & K1).
    destruct (C k1 v1 e I1 K1) as (k2 & v2 & I2 & K2 & _).
    destruct (in_keys _ _ _ _ Kf I2) as (e2 & Ke2 & I3). now rewrite (key_fun _ _ _ K2 Ke2). }
  pose proof (NoDup_incl_length N In2). pose proof (NoDup_incl_length N' In1).
  rewrite <- (Forall2_len _ _ _ _ _ Ke), <- (Forall2_len _ _ _ _ _ Kf), !map_length in *. lia.
Qed.

Lemma eqn_decides : forall n x y, (depth x + depth y <= n)%nat -> clean x -> clean y -> one_heap x y ->
  decides (eqn n x (Some y)) (same x y).
Proof.
  induction n as [|n IH]; intros x y D Cx Cy H; [pose proof (depth_pos x); lia|].
  destruct x as [a s|a xs|a es]; cbn [eqn].
  - now apply scal_decides.
  - destruct (clean_list_inv _ _ Cx) as (us & -> & Fu).
    destruct y as [b t|b ys|b fs]; cbn [list_equal]; try (apply no_decides; intros X; inversion X; fail).
    destruct (clean_list_inv _ _ Cy) as (vs & -> & Fv).
    rewrite !map_length. destruct (Nat.eqb_spec (length us) (length vs)) as [L|L]; cbn [negb].
    + assert (Pu : forall u, In u us -> forall w, part w u -> part w (OList a (map Some us))).
      { intros u Iu w Pw. apply (part_item w a _ u); [now apply in_map|exact Pw]. }
      assert (Pv : forall v, In v vs -> forall w, part w v -> part w (OList b (map Some vs))).
      { intros v Iv w Pw. apply (part_item w b _ v); [now apply in_map|exact Pw]. }
      destruct (items_decides (eqn n) us vs L Fu Fv) as [[E F]|[E F]].
      * intros u v Iu Iv E. apply H; [apply (Pu u Iu); constructor|apply (Pv v Iv); constructor|exact E].
      * intros u v Iu Iv. apply IH.
        -- pose proof (depth_item a us u Iu). pose proof (depth_item b vs v Iv). lia.
        -- rewrite Forall_forall in Fu. now apply Fu.
        -- rewrite Forall_forall in Fv. now apply Fv.
        -- exact (heap_part _ _ _ _ H (Pu u Iu) (Pv v Iv)).
      * rewrite E. left. split; [reflexivity|now constructor].
      * rewrite E. right. split; [reflexivity|]. intros X. apply F. exact (same_list_inv _ _ _ _ X).
    + right. split; [reflexivity|]. intros X. apply same_list_inv in X. apply L. exact (Forall2_len _ _ _ _ _ X).
  - destruct (clean_dict_inv _ _ Cx) as (us & ds & -> & Ku & Nu & Fu).
    destruct y as [b t|b ys|b fs]; cbn [dict_equal]; try (apply no_decides; intros X; inversion X; fail).
    destruct (clean_dict_inv _ _ Cy) as (vs & ds' & -> & Kv & Nv & Fv).
    rewrite !filled_length. destruct (Nat.eqb_spec (length vs) (length us)) as [L|L]; cbn [negb].
    + destruct n as [|n']; [pose proof (depth_pos (ODict a (filled us))); pose proof (depth_pos (ODict b (filled vs))); lia|].
      rewrite Forall_forall in Fu, Fv.
      destruct (entries_decides (eqn (S n')) us ds vs ds' (eqn_keys n') Ku Nu Kv) as [[E F]|[E F]].
      * intros k v k' v' Iu Iv. apply IH.
        -- pose proof (depth_val a us k v Iu). pose proof (depth_val b vs k' v' Iv). lia.
        -- apply Fv. now apply (in_map snd) in Iv.
        -- apply Fu. now apply (in_map snd) in Iu.
        -- apply heap_sym. apply (heap_part _ _ _ _ H).
           ++ intros w Pw. apply (part_val w a _ k v); [|exact Pw]. unfold filled. now apply (in_map (fun e => (fst e, Some (snd e)))) in Iu.
           ++ intros w Pw. apply (part_val w b _ k' v'); [|exact Pw]. unfold filled. now apply (in_map (fun e => (fst e, Some (snd e)))) in Iv.
      * rewrite E. left. split; [reflexivity|]. constructor; [|exact F].
        exact (covers_back us ds vs ds' Ku Nu Kv Nv (eq_sym L) F).
      * rewrite E. right. split; [reflexivity|]. intros X. apply F. now apply same_dict_inv in X.
    + right. split; [reflexivity|]. intros X. apply same_dict_inv in X. destruct X as [X1 X2]. apply L. symmetry.
      exact (cover_length us ds vs ds' Ku Nu Kv Nv X1 X2).
Qed.

Lemma equals_decides : forall x y, clean x -> clean y -> one_heap x y -> decides (equals x (Some y)) (same x y).
Proof. intros x y. unfold equals. apply eqn_decides. lia. Qed.
