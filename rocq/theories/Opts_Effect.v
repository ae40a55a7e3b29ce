(** What a provider does to one option. *)
From Coq Require Import String Ascii.
From Verif Require Import Base Opts_Model Opts_Spec Opts_Proofs Opts_Acts Opts_Again Opts_Text.
Local Open Scope Z_scope.

Lemma SameType_kind : forall x y, SameType x y <-> kindOf x = kindOf y /\ x <> ONull.
Proof.
  intros x y. split.
  - intros H. destruct H; split; try reflexivity; discriminate.
  - intros [K N]. destruct x, y; cbn [kindOf] in K; try discriminate; try congruence; constructor.
Qed.

(** ** Texts *)
Lemma Apart_sym : forall p q, Apart p q -> Apart q p. Proof. intros p q [A B]. split; assumption. Qed.
Lemma acts_apart : forall w p l, Forall (fun a => Apart p (fst a)) w -> get (acts l w) p = get l p.
Proof.
  induction w as [|[q f] w IH]; intros p l F; [ reflexivity | ]. inversion F as [|? ? F1 F2]; subst. cbn [fst] in F1.
  rewrite acts_cons, IH by exact F2. unfold doAct. cbn [fst snd]. apply upd_apart, F1.
Qed.
Lemma open_cong : forall p l l', (forall q, Prefix q p -> q <> p -> q <> [] -> get l q = get l' q) -> open l p -> open l' p.
Proof.
  intros p l l' H O. assert (E : forall k k' r, p = k :: k' :: r -> lookup l k = lookup l' k).
  { intros k k' r ->. apply (H [k]); [ exists (k' :: r); reflexivity | discriminate | discriminate ]. }
  revert l l' H E O. induction p as [|k p IH]; intros l l' H E O; [ exact O | ]. destruct p as [|k' p]; [ exact I | ].
  rewrite open_cons in *. rewrite <- (E k k' p eq_refl). destruct (lookup l k) as [x|] eqn:L; [ | exact O ].
  destruct x as [| | | | | |d|]; try contradiction. exact O.
Qed.
(** a write elsewhere leaves an absent option possible *)
Lemma open_apart : forall q f p l, Apart p q -> good f -> open l p -> open (upd l q f) p.
Proof.
  induction q as [|k q IH]; intros f p l A G O; [ exact O | ]. destruct p as [|k0 p]; [ destruct O | ].
  destruct p as [|k1 p]; [ exact I | ].
  destruct (list_eq_dec ascii_dec k0 k) as [ ->|NE].
  - pose proof (Apart_cons _ _ _ A) as A'.
    destruct q as [|k' q]; [ exfalso; apply (proj2 A'); exists (k1 :: p); reflexivity | ].
    rewrite upd_cons. rewrite open_cons in O. destruct (lookup l k) as [x|] eqn:L.
    + destruct x as [| | | | | |d|]; try contradiction. rewrite open_cons, lookup_assign. apply IH; assumption.
    + rewrite open_cons, lookup_assign. apply IH; [ assumption | assumption | apply open_nil; discriminate ].
  - rewrite open_cons in *. assert (E : lookup (upd l (k :: q) f) k0 = lookup l k0).
    { destruct q as [|k' q]; [ cbn [upd]; destruct (f (lookup l k)); [ apply lookup_assign_ne; assumption | reflexivity ] | ].
      rewrite upd_cons. destruct (lookup l k) as [x|] eqn:L; [ destruct x | ]; try reflexivity; apply lookup_assign_ne; assumption. }
    rewrite E. exact O.
Qed.
Lemma acts_open : forall w p l, Forall (fun a => Apart p (fst a) /\ good (snd a)) w -> open l p -> open (acts l w) p.
Proof.
  induction w as [|[q f] w IH]; intros p l F O; [ exact O | ]. inversion F as [|? ? [F1 F3] F2]; subst. rewrite acts_cons. apply IH; [ exact F2 | ].
  apply open_apart; assumption.
Qed.

Lemma Clean_split : forall p, Forall Clean p -> Forall (fun k => ~ In "_"%char k) p /\ ~ In "="%char (joined p).
Proof.
  induction p as [|k p IH]; intros F; [ split; [ constructor | intros [] ] | ]. inversion F as [|? ? [U E] F2]; subst.
  destruct (IH F2) as [A B]. split; [ constructor; assumption | ]. destruct p as [|k' p]; [ exact E | ].
  rewrite joined_cons by discriminate. intros H. apply in_app_or in H. destruct H as [H|[H|H]]; [ contradiction | discriminate | contradiction ].
Qed.
Lemma text_apart : forall prefix args p v, SaysLast prefix args p v ->
  exists w1 w2, textActs prefix args = w1 ++ (p, wText v) :: w2 /\ Forall (fun a => Apart p (fst a) /\ good (snd a)) (w1 ++ w2) /\ p <> [].
Proof.
  intros prefix args p v [(a1 & a & a2 & -> & (NE & CL & ->) & LAST) OTH].
  destruct (Clean_split p CL) as [US EQ].
  assert (KV : keyValue prefix (prefix ++ joined p ++ "="%char :: v) = Some (prefix ++ joined p, v)) by (apply keyValue_says, EQ).
  set (args := a1 ++ (prefix ++ joined p ++ "="%char :: v) :: a2) in *.
  assert (IN : In (prefix ++ joined p, v) (valuesStartingWith args prefix)).
  { rewrite values_fold. unfold args. rewrite fold_left_app. cbn [fold_left]. apply gather_stays.
    - unfold gather at 1. rewrite KV. apply set_text_has.
    - intros b w HB K. apply keyValue_inv in K. destruct K as (key & E & -> & N). apply app_inv_head in E. subst key.
      apply (LAST _ w HB). split; [ exact NE | split; [ exact CL | reflexivity ] ]. }
  assert (ND : NoDup (map fst (valuesStartingWith args prefix))) by (rewrite values_fold; apply gather_nodup; constructor).
  assert (FROM : forall k w, In (k, w) (valuesStartingWith args prefix) -> k <> prefix ++ joined p -> Apart p (splitKey k prefix)).
  { intros k w HI NK. rewrite values_fold in HI. destruct (gather_from _ _ _ _ _ HI) as [[]|(b & HB & K)].
    apply keyValue_inv in K. destruct K as (key & -> & EB & N).
    pose proof (proj1 (splitKey_iff prefix key _) eq_refl) as (QN & QF & QJ). set (q := splitKey (prefix ++ key) prefix) in *.
    destruct (OTH b q w HB) as [E|A]; [ | | exact A ].
    - split; [ exact QN | ]. split; [ | rewrite EB, QJ; reflexivity ].
      apply Forall_forall. intros x HX. split; [ rewrite Forall_forall in QF; apply QF, HX | ].
      intros HE. apply N. rewrite QJ. clear -HX HE. induction q as [|y q IH]; [ destruct HX | ]. destruct q as [|y' q].
      + destruct HX as [ ->|[]]. exact HE.
      + rewrite joined_cons by discriminate. apply in_or_app. destruct HX as [ ->|HX]; [ left; exact HE | right; right; apply IH, HX ].
    - exfalso. apply NK. rewrite QJ, E. reflexivity. }
  apply in_split in IN. destruct IN as (l1 & l2 & EV). unfold textActs. rewrite EV in ND, FROM.
  change (a1 ++ (prefix ++ joined p ++ "="%char :: v) :: a2) with args. rewrite EV, map_app. cbn [map fst snd].
  rewrite map_app in ND. cbn [map fst] in ND. apply NoDup_remove_2 in ND.
  assert (SK : splitKey (prefix ++ joined p) prefix = p) by (apply splitKey_iff; split; [ exact NE | split; [ exact US | reflexivity ] ]).
  rewrite SK. eexists. eexists. split; [ reflexivity | ]. split; [ | exact NE ]. rewrite <- map_app. apply Forall_forall. intros x HX.
  apply in_map_iff in HX. destruct HX as ([k w] & <- & HI). cbn [fst snd]. split; [ | apply wText_good ].
  apply (FROM k w).
  - apply in_app_or in HI. apply in_or_app. destruct HI; [ left; assumption | right; right; assumption ].
  - intros ->. apply ND. rewrite <- map_app. apply (in_map fst) in HI. exact HI.
Qed.
Lemma text_effect : forall prefix args p v l, SaysLast prefix args p v -> open l p ->
  get (populateFrom args prefix l) p = match wText v (get l p) with Some y => Some y | None => get l p end.
Proof.
  intros prefix args p v l H O. destruct (text_apart _ _ _ _ H) as (w1 & w2 & E & F & NE). rewrite populateFrom_acts, E, acts_app, acts_cons.
  apply Forall_app in F. destruct F as [F1 F2].
  assert (AP : forall w, Forall (fun a : act => Apart p (fst a) /\ good (snd a)) w -> Forall (fun a => Apart p (fst a)) w).
  { intros w Fw. eapply Forall_impl; [ | exact Fw ]. intros a [A _]. exact A. }
  rewrite (acts_apart w2) by (apply AP, F2). unfold doAct. cbn [fst snd]. rewrite upd_same by (apply acts_open; assumption).
  rewrite (acts_apart w1) by (apply AP, F1). reflexivity.
Qed.

(** ** Documents *)
Lemma member_other : forall m l k, fst m <> k -> lookup (member l m) k = lookup l k.
Proof.
  intros [k0 v] l k N. cbn [fst] in N. unfold member, primitiveMember. cbn [fst snd].
  destruct v; try (destruct (negb _ && _)%bool; [ reflexivity | ]); apply lookup_assign_ne; congruence.
Qed.
Lemma members_other : forall ms l k, ~ In k (map fst ms) -> lookup (fold_left member ms l) k = lookup l k.
Proof.
  induction ms as [|m ms IH]; intros l k N; [ reflexivity | ]. cbn [fold_left]. rewrite IH by (intros H; apply N; right; exact H).
  apply member_other. intros H. apply N. left. exact H.
Qed.
Lemma members_one : forall ms l k v, NoDup (map fst ms) -> In (k, v) ms ->
  exists l', lookup (fold_left member ms l) k = lookup (member l' (k, v)) k /\ lookup l' k = lookup l k.
Proof.
  intros ms l k v ND H. apply in_split in H. destruct H as (m1 & m2 & ->). rewrite map_app in ND. cbn [map fst] in ND.
  apply NoDup_remove_2 in ND. rewrite fold_left_app. cbn [fold_left]. exists (fold_left member m1 l). split.
  - apply members_other. intros H. apply ND. apply in_or_app. right. exact H.
  - apply members_other. intros H. apply ND. apply in_or_app. left. exact H.
Qed.
Lemma signed_id : forall z, Int64 z -> signed z = z.
Proof.
  intros z [A B]. unfold signed. change two64 with 18446744073709551616. change (2 ^ 63) with 9223372036854775808 in *.
  change (18446744073709551616 / 2) with 9223372036854775808.
  destruct (Z.neg_nonneg_cases z) as [N|N].
  - assert (E : z mod 18446744073709551616 = z + 18446744073709551616) by (symmetry; apply Z.mod_unique with (q := -1); lia).
    rewrite E. destruct (Z.ltb_spec (z + 18446744073709551616) 9223372036854775808); lia.
  - rewrite Z.mod_small by lia. destruct (Z.ltb_spec z 9223372036854775808); lia.
Qed.
Lemma JValue_primitive : forall v y, JValue v y -> primitive v = y.
Proof. intros v y H. destruct H; cbn [primitive]; try reflexivity. rewrite signed_id by assumption. reflexivity. Qed.
Lemma JUnique_under : forall ms k v, JUnique (JObj ms) -> In (k, v) ms -> JUnique v.
Proof. intros ms k v U H p ms' J. apply (U (k :: p)). econstructor; eauto. Qed.
Lemma json_effect : forall p j l v y, JUnique j -> JAt j p v -> p <> [] -> JValue v y -> open l p ->
  (forall x, get l p = Some x -> SameType x y) ->
  get (acts l (flat j)) p = Some y.
Proof.
  induction p as [|k p IH]; intros j l v y U J NE V O T; [ congruence | ].
  inversion J as [|ms ? x ? ? IN J']; subst.
  assert (ND : NoDup (map fst ms)) by (apply (U []); constructor).
  assert (EH : ODict (acts l (flat (JObj ms))) = ODict (fold_left member ms l)) by (rewrite <- flat_handle, handle_obj; reflexivity).
  assert (EH' : acts l (flat (JObj ms)) = fold_left member ms l) by congruence. rewrite EH'. clear EH EH'. destruct (members_one ms l k x ND IN) as (l' & E1 & E2).
  destruct p as [|k' p].
  - inversion J'; subst. cbn [get] in *. rewrite E1. pose proof (JValue_primitive _ _ V) as P.
    assert (NN : y <> ONull) by (destruct V; discriminate).
    assert (EM : member l' (k, v) = primitiveMember l' k y) by (unfold member; cbn [fst snd]; rewrite <- P; destruct V; reflexivity).
    rewrite EM, primitiveMember_acts. cbn [upd]. rewrite E2. destruct (lookup l k) as [c|] eqn:L; cbn [wPrim]; [ | apply lookup_assign ].
    specialize (T c eq_refl). apply SameType_kind in T. destruct T as [K NC].
    assert (KE : kind_eqb (kindOf c) (kindOf y) = true) by (apply kind_eqb_eq, K).
    assert (NY : isNull y = false) by (destruct y; try reflexivity; congruence). rewrite KE, NY. cbn [orb negb].
    destruct c; apply lookup_assign.
  - rewrite get_cons, E1. inversion J' as [|ms' k1 x1 p1 y1 IN' J'']; subst. unfold member. cbn [fst snd]. rewrite lookup_assign.
    rewrite open_cons in O. rewrite get_cons in T. unfold current. rewrite E2.
    pose proof (JUnique_under _ _ _ U IN) as U'.
    destruct (lookup l k) as [c|] eqn:L.
    + destruct c as [| | | | | |d|]; try contradiction. cbn [orDict]. rewrite flat_handle.
      apply (IH _ _ v); [ exact U' | exact J' | discriminate | exact V | exact O | exact T ].
    + cbn [orDict]. rewrite flat_handle.
      apply (IH _ _ v); [ exact U' | exact J' | discriminate | exact V | apply open_nil; discriminate | rewrite get_nil; discriminate ].
Qed.

(** ** Providers *)
Lemma Reads_same : forall x x' v y, Reads x v y -> SameType x x' -> Reads x' v y.
Proof. intros x x' v y R T. destruct R; inversion T; subst; constructor; assumption. Qed.
Lemma Gives_effect : forall pr p x y l, Gives pr p x y -> get l p = Some x -> x <> ONull -> get (populate pr l) p = Some y.
Proof.
  intros pr p x y l H G N. destruct H as [args p v x y SL R|args p v x y SL R|j p v x y U J NE V T].
  - cbn [populate]. rewrite (text_effect _ _ _ _ _ SL) by (eapply get_open, G). rewrite G. cbn [wText]. rewrite (Reads_leaf _ _ _ R). reflexivity.
  - cbn [populate]. rewrite (text_effect _ _ _ _ _ SL) by (eapply get_open, G). rewrite G. cbn [wText]. rewrite (Reads_leaf _ _ _ R). reflexivity.
  - rewrite populate_acts. cbn [providerActs]. apply (json_effect p j l v y); try assumption; [ eapply get_open, G | ].
    intros x' E. rewrite G in E. inversion E. subst. exact T.
Qed.
Lemma Gives_same : forall pr p x x' y, Gives pr p x y -> SameType x x' -> Gives pr p x' y.
Proof.
  intros pr p x x' y H T. destruct H as [args p v x y SL R|args p v x y SL R|j p v x y U J NE V T'].
  - econstructor; [ exact SL | eapply Reads_same; eassumption ].
  - econstructor; [ exact SL | eapply Reads_same; eassumption ].
  - econstructor; try eassumption. apply SameType_kind in T, T'. apply SameType_kind. destruct T, T'. split; [ congruence | eapply nonull_kind; eassumption ].
Qed.
Lemma GivesNew_effect : forall pr p y l, GivesNew pr p y -> get l p = None -> open l p -> get (populate pr l) p = Some y.
Proof.
  intros pr p y l H G O. destruct H as [args p v y SL R|args p v y SL R|j p v y U J NE V].
  - cbn [populate]. rewrite (text_effect _ _ _ _ _ SL) by exact O. rewrite G. cbn [wText]. rewrite (Inferred_value _ _ R). reflexivity.
  - cbn [populate]. rewrite (text_effect _ _ _ _ _ SL) by exact O. rewrite G. cbn [wText]. rewrite (Inferred_value _ _ R). reflexivity.
  - rewrite populate_acts. cbn [providerActs]. apply (json_effect p j l v y); try assumption. rewrite G. discriminate.
Qed.
Lemma Free_open : forall p l, Free (ODict l) p -> get l p = None /\ open l p /\ p <> [].
Proof.
  intros p l (p1 & k & p2 & d & -> & A & N). split; [ | split; [ | destruct p1; discriminate ] ]; revert l A; (induction p1 as [|k1 p1 IH]; intros l A).
  - inversion A; subst. apply lookup_none in N. destruct p2 as [|k2 p2]; [ exact N | ]. cbn [app]. rewrite get_cons, N. reflexivity.
  - apply At_cons in A. destruct A as (x & L & A). cbn [app]. destruct (p1 ++ k :: p2) as [|k' r] eqn:E; [ destruct p1; discriminate | ].
    rewrite get_cons, L. destruct x; try reflexivity. apply IH, A.
  - inversion A; subst. apply lookup_none in N. destruct p2 as [|k2 p2]; [ exact I | ]. cbn [app]. rewrite open_cons, N. exact I.
  - apply At_cons in A. destruct A as (x & L & A). cbn [app]. destruct (p1 ++ k :: p2) as [|k' r] eqn:E; [ destruct p1; discriminate | ].
    rewrite open_cons, L. destruct x as [| | | | | |d0|]; try (exfalso; inversion A; subst; fail); try (apply IH, A).
Qed.

(** ** Options not concerned *)
Lemma obj_leaf : forall j, (exists m ms, j = JObj (m :: ms)) -> exists p, JLeaf j p.
Proof.
  intros j. induction j using json_ind2; intros (m & ms & E); subst.
  - exfalso. eapply H0. reflexivity.
  - discriminate.
  - injection E as ->. destruct m as [k v]. inversion H as [|? ? HV _]; subst. cbn [snd] in HV.
    assert (D : (exists m' ms', v = JObj (m' :: ms')) \/ forall k' w r, v <> JObj ((k', w) :: r)).
    { destruct v as [| | | | | |[|[k1 w1] ms1]]; try (right; intros; discriminate). left. eauto. }
    destruct D as [D|D].
    + destruct (HV D) as (p & NE & v' & J & L). exists (k :: p). split; [ discriminate | ]. exists v'. split; [ | exact L ]. econstructor; [ left; reflexivity | exact J ].
    + exists [k]. split; [ discriminate | ]. exists v. split; [ | exact D ]. econstructor; [ left; reflexivity | constructor ].
Qed.
Lemma flat_leaf : forall j a, In a (flat j) -> JLeaf j (fst a) \/ (snd a = wDict /\ exists r, r <> [] /\ JLeaf j (fst a ++ r)).
Proof.
  intros j. induction j using json_ind2; intros a HA.
  - destruct j as [| | | | |b|b]; try destruct HA. exfalso. eapply H0. reflexivity.
  - destruct HA.
  - rewrite flat_obj in HA. apply in_flat_map in HA. destruct HA as ([k v] & HI & HA). rewrite Forall_forall in H. specialize (H _ HI). cbn [snd] in H.
    assert (LF : (forall k' w r, v <> JObj ((k', w) :: r)) -> JLeaf (JObj l) [k]).
    { intros D. split; [ discriminate | ]. exists v. split; [ econstructor; [ exact HI | constructor ] | exact D ]. }
    unfold flatMember in HA. cbn [fst snd] in HA.
    destruct v as [| | | | |els|ms]; try (destruct HA as [ <-|[]]; left; apply LF; intros; discriminate).
    destruct HA as [ <-|HA].
    + destruct ms as [|[k1 w1] ms].
      * left. apply LF. intros; discriminate.
      * right. cbn [fst snd]. split; [ reflexivity | ]. destruct (obj_leaf (JObj ((k1, w1) :: ms))) as (p & NE & v' & J & L); [ eauto | ].
        exists p. split; [ exact NE | ]. split; [ discriminate | ]. exists v'. split; [ econstructor; [ exact HI | exact J ] | exact L ].
    + apply in_map_iff in HA. destruct HA as (b & <- & HB). cbn [under fst snd]. destruct (H b HB) as [(NE & v' & J & L)|(W & r & RN & NE & v' & J & L)].
      * left. split; [ discriminate | ]. exists v'. split; [ econstructor; [ exact HI | exact J ] | exact L ].
      * right. split; [ exact W | ]. exists r. split; [ exact RN | ]. split; [ discriminate | ]. exists v'. split; [ cbn [app]; econstructor; [ exact HI | exact J ] | exact L ].
Qed.
Lemma upd_dict_below : forall q p l, q <> [] -> p <> [] -> get (upd l q wDict) (q ++ p) = get l (q ++ p).
Proof.
  induction q as [|k q IH]; intros p l NQ NP; [ congruence | ]. cbn [app]. destruct q as [|k' q].
  - cbn [app upd]. destruct p as [|k1 p]; [ congruence | ]. rewrite (get_cons l). destruct (lookup l k) as [c|] eqn:L.
    + destruct c; cbn [wDict]; rewrite get_cons, ?lookup_assign, ?L; try reflexivity. apply get_nil.
    + cbn [wDict]. rewrite get_cons, lookup_assign. apply get_nil.
  - rewrite upd_cons. change ((k' :: q) ++ p) with (k' :: (q ++ p)). rewrite (get_cons l). destruct (lookup l k) as [c|] eqn:L.
    + destruct c as [| | | | | |d|]; rewrite get_cons, ?lookup_assign, ?L; try reflexivity. apply (IH p d); [ discriminate | exact NP ].
    + rewrite get_cons, lookup_assign. pose proof (IH p []) as Q. cbn [app] in Q. rewrite Q by (discriminate || exact NP). apply get_nil.
Qed.
Lemma prefix_dec : forall p q, {Prefix p q} + {~ Prefix p q}.
Proof.
  induction p as [|k p IH]; intros q; [ left; exists q; reflexivity | ]. destruct q as [|k' q]; [ right; intros [r E]; discriminate | ].
  destruct (list_eq_dec ascii_dec k k') as [ ->|NE]; [ | right; intros [r E]; inversion E; congruence ].
  destruct (IH q) as [Y|N]; [ left; destruct Y as [r ->]; exists r; reflexivity | right; intros [r E]; inversion E; apply N; exists r; assumption ].
Qed.
Lemma prefix_linear : forall a b c, Prefix a c -> Prefix b c -> Prefix a b \/ Prefix b a.
Proof.
  induction a as [|k a IH]; intros b c [r R] [s S0]; [ left; exists b; reflexivity | ]. destruct b as [|k' b]; [ right; exists (k :: a); reflexivity | ].
  subst c. cbn [app] in S0. inversion S0; subst. destruct (IH b (a ++ r)) as [[x ->]|[x ->]]; [ exists r; reflexivity | exists s; assumption | left; exists x; reflexivity | right; exists x; reflexivity ].
Qed.
Lemma json_apart : forall j p l, p <> [] -> (forall q, JLeaf j q -> Apart p q) -> get (acts l (flat j)) p = get l p.
Proof.
  intros j p l NP H. assert (F : forall a, In a (flat j) -> forall l', get (doAct l' a) p = get l' p).
  { intros a HA l'. destruct (flat_leaf j a HA) as [L|(W & r & RN & L)].
    - apply upd_apart. apply H, L.
    - unfold doAct. rewrite W. specialize (H _ L). pose proof (flat_paths j) as FP. rewrite Forall_forall in FP. specialize (FP a HA).
      destruct (prefix_dec p (fst a)) as [P|NP1].
      + exfalso. apply (proj1 H). destruct P as [s S0]. rewrite S0. exists (s ++ r). rewrite app_assoc. reflexivity.
      + destruct (prefix_dec (fst a) p) as [[s S0]|NP2]; [ | apply upd_apart; split; assumption ].
        rewrite S0. apply upd_dict_below; [ exact FP | ]. intros ->. apply NP1. exists []. rewrite S0, !app_nil_r. reflexivity. }
  revert l F. generalize (flat j). intros w. induction w as [|a w IH]; intros l F; [ reflexivity | ].
  rewrite acts_cons, IH by (intros b HB; apply F; right; exact HB). apply F. left. reflexivity.
Qed.
Lemma text_elsewhere : forall prefix args p l,
  (forall a key v q, In a args -> a = prefix ++ key ++ "="%char :: v -> ~ In "="%char key -> KeyPath key q -> Apart p q) ->
  get (acts l (textActs prefix args)) p = get l p.
Proof.
  intros prefix args p l H. apply acts_apart. apply Forall_forall. intros x HX. apply in_map_iff in HX. destruct HX as ([k v] & <- & HI). cbn [fst snd].
  rewrite values_fold in HI. destruct (gather_from _ _ _ _ _ HI) as [[]|(a & HA & K)]. apply keyValue_inv in K. destruct K as (key & -> & EA & N).
  apply (H a key v); [ exact HA | exact EA | exact N | ]. exact (proj1 (splitKey_iff prefix key _) eq_refl).
Qed.
Lemma not_concerned : forall pr p l, p <> [] -> (forall q, Concerns pr q -> Apart p q) -> get (populate pr l) p = get l p.
Proof.
  intros pr p l NP H. rewrite populate_acts. destruct pr as [e|a|[j|]]; cbn [providerActs]; [ | | | reflexivity ].
  - apply text_elsewhere. intros a key v q HA EA N K. apply H. econstructor; eassumption.
  - apply text_elsewhere. intros b key v q HA EA N K. apply H. econstructor; eassumption.
  - apply json_apart; [ exact NP | ]. intros q L. apply H. constructor. exact L.
Qed.
