(** Asking for the options a second time. *)
From Coq Require Import String Ascii.
From Verif Require Import Base Opts_Model Opts_Spec Opts_Proofs Opts_Acts.
Local Open Scope Z_scope.

Definition strong (f : option opt -> option opt) : Prop :=
  good f /\
  (forall o x, o <> Some ONull -> f o = Some x -> x <> ONull /\ (nodict x \/ x = ODict [])) /\
  (exists x, f None = Some x /\ (nodict x -> forall c, kindOf c = kindOf x -> f (Some c) = Some x)) /\
  (forall c c', kindOf c = kindOf c' -> f (Some c) = f (Some c')).
Definition nonull (l : dict) : Prop := forall p, get l p <> Some ONull.

Lemma nodict_kind : forall a b, kindOf a = kindOf b -> nodict a -> nodict b.
Proof. intros a b K N d ->. destruct (kind_dict a K) as [d' ->]. eapply N. reflexivity. Qed.
Lemma nonull_kind : forall a b, kindOf a = kindOf b -> a <> ONull -> b <> ONull.
Proof. intros a b K N ->. destruct a; try discriminate. congruence. Qed.
Lemma dict_dec : forall o, nodict o \/ exists d, o = ODict d.
Proof. destruct o; try (left; intros ?; discriminate). right. eauto. Qed.

Lemma get_nodict : forall l k k' p x, lookup l k = Some x -> nodict x -> get l (k :: k' :: p) = None.
Proof. intros l k k' p x L N. rewrite get_cons, L. destruct x; try reflexivity. exfalso. eapply N. reflexivity. Qed.
Lemma nonull_under : forall l k d, nonull l -> lookup l k = Some (ODict d) -> nonull d.
Proof. intros l k d N L p G. destruct p as [|k' p]; [ discriminate | ]. apply (N (k :: k' :: p)). rewrite get_cons, L. exact G. Qed.
Lemma nonull_nil : nonull []. Proof. intros p. rewrite get_nil. discriminate. Qed.
Lemma nonull_assign : forall l k x, nonull l -> x <> ONull -> (forall d, x = ODict d -> nonull d) -> nonull (assign l k x).
Proof.
  intros l k x N NX D [|k0 p] G; [ discriminate | ].
  destruct (list_eq_dec ascii_dec k0 k) as [ ->|NE].
  - destruct p as [|k1 p]; [ cbn [get] in G | rewrite get_cons in G ]; rewrite lookup_assign in G; [ congruence | ].
    destruct x as [| | | | | |d|]; try discriminate. eapply D; eauto.
  - apply (N (k0 :: p)). rewrite <- G. destruct p as [|k1 p]; [ cbn [get] | rewrite !get_cons ]; rewrite lookup_assign_ne by assumption; reflexivity.
Qed.
Lemma upd_nonull : forall q f l, strong f -> nonull l -> nonull (upd l q f).
Proof.
  induction q as [|k q IH]; intros f l ST N; [ exact N | ]. destruct q as [|k' q].
  - cbn [upd]. destruct (f (lookup l k)) as [x|] eqn:F; [ | exact N ].
    assert (O : lookup l k <> Some ONull) by (apply (N [k])).
    destruct (proj1 (proj2 ST) _ _ O F) as [NX D].
    apply nonull_assign; [ assumption | assumption | ]. intros d ->. destruct D as [D|D]; [ exfalso; eapply D; reflexivity | inversion D; apply nonull_nil ].
  - rewrite upd_cons. destruct (lookup l k) as [x|] eqn:L.
    + destruct x as [| | | | | |d|]; try assumption. apply nonull_assign; [ assumption | discriminate | ].
      intros d' E. injection E as <-. apply IH; [ assumption | eapply nonull_under; eauto ].
    + apply nonull_assign; [ assumption | discriminate | ]. intros d' E. assert (d' = upd [] (k' :: q) f) as -> by congruence. apply IH; [ assumption | apply nonull_nil ].
Qed.
Lemma acts_nonull : forall w l, Forall (fun a => strong (snd a)) w -> nonull l -> nonull (acts l w).
Proof.
  induction w as [|[q f] w IH]; intros l F N; [ exact N | ]. inversion F as [|? ? F1 F2]; subst. rewrite acts_cons. apply IH; [ assumption | ].
  apply upd_nonull; assumption.
Qed.

Lemma get_other_leaf : forall q f p l c, good f -> get l p = Some c -> nodict c -> q <> p -> get (upd l q f) p = Some c.
Proof.
  induction q as [|k q IH]; intros f p l c G H NC NE; [ exact H | ].
  destruct p as [|k0 p]; [ discriminate | ].
  destruct (list_eq_dec ascii_dec k0 k) as [ ->|NK].
  - destruct q as [|k' q].
    + destruct p as [|k1 p]; [ congruence | ]. rewrite get_cons in H. destruct (lookup l k) as [x|] eqn:L; [ | discriminate ].
      destruct x; try discriminate. cbn [upd]. rewrite L, (proj1 G), get_cons, L. exact H.
    + rewrite upd_cons. destruct p as [|k1 p].
      * cbn [get] in H. rewrite H. destruct c; try exact H. exfalso. eapply NC. reflexivity.
      * rewrite get_cons in H. destruct (lookup l k) as [x|] eqn:L; [ | discriminate ]. destruct x; try discriminate.
        rewrite get_cons, lookup_assign. apply IH; try assumption. congruence.
  - rewrite <- H. assert (EQ : forall v, get (assign l k v) (k0 :: p) = get l (k0 :: p)).
    { intros v. destruct p as [|k1 p]; [ cbn [get] | rewrite !get_cons ]; rewrite lookup_assign_ne by assumption; reflexivity. }
    destruct q as [|k' q]; [ cbn [upd]; destruct (f (lookup l k)) | rewrite upd_cons; destruct (lookup l k) as [x|]; [ destruct x | ] ]; rewrite ?EQ; reflexivity.
Qed.

Lemma path_dec : forall p q : path, {p = q} + {p <> q}. Proof. apply list_eq_dec, list_eq_dec, ascii_dec. Qed.

(** a write over an option another write will set is lost *)
Lemma absorbed : forall w l p c x, Forall (fun a => strong (snd a)) w -> get l p = Some c -> nodict c -> c <> ONull -> kindOf x = kindOf c ->
  Exists (fun a => fst a = p /\ exists y, snd a (Some c) = Some y) w ->
  acts (upd l p (fun _ => Some x)) w = acts l w.
Proof.
  induction w as [|[q f] w IH]; intros l p c x F H NC NN K E; [ inversion E | ].
  inversion F as [|? ? F1 F2]; subst. cbn [snd] in F1. destruct F1 as (G & _ & _ & SK).
  rewrite !acts_cons. unfold doAct. cbn [fst snd].
  destruct (path_dec q p) as [ ->|NE].
  - destruct (f (Some c)) as [y|] eqn:FC.
    + rewrite (upd_twice _ _ _ c); [ reflexivity | assumption | rewrite (SK x c K); reflexivity | eauto ].
    + assert (GX : get (upd l p (fun _ => Some x)) p = Some x) by (rewrite upd_same by (eapply get_open, H); reflexivity).
      rewrite (upd_refuse _ _ _ _ GX) by (rewrite (SK x c K); assumption). rewrite (upd_refuse _ _ _ _ H FC).
      apply (IH _ _ c); try assumption. inversion E as [? ? [_ [y Y]]|? ? E']; subst; [ cbn [snd] in Y; congruence | assumption ].
  - rewrite (upd_comm p q f l c x); try assumption; [ | exact (nodict_kind c x (eq_sym K) NC) | congruence | exact (nonull_kind c x (eq_sym K) NN) ].
    apply (IH _ _ c); try assumption; [ apply get_other_leaf; assumption | ].
    inversion E as [? ? [Q _]|? ? E']; subst; [ cbn [fst] in NE; congruence | assumption ].
Qed.
Lemma unwritten : forall w l p c, Forall (fun a => strong (snd a)) w -> get l p = Some c -> nodict c ->
  Forall (fun a => fst a = p -> snd a (Some c) = None) w -> get (acts l w) p = Some c.
Proof.
  induction w as [|[q f] w IH]; intros l p c F H NC E; [ exact H | ].
  inversion F as [|? ? F1 F2]; subst. inversion E as [|? ? E1 E2]; subst. cbn [fst snd] in *.
  rewrite acts_cons. unfold doAct. cbn [fst snd]. apply IH; try assumption.
  destruct (path_dec q p) as [ ->|NE]; [ rewrite (upd_refuse _ _ _ _ H (E1 eq_refl)); exact H | ].
  apply get_other_leaf; try assumption. apply F1.
Qed.
Lemma writes_dec : forall (w : list act) p c,
  Exists (fun a => fst a = p /\ exists y, snd a (Some c) = Some y) w \/ Forall (fun a => fst a = p -> snd a (Some c) = None) w.
Proof.
  induction w as [|[q f] w IH]; intros p c; [ right; constructor | ].
  destruct (IH p c) as [E|E]; [ left; right; exact E | ].
  destruct (path_dec q p) as [ ->|NE].
  - destruct (f (Some c)) as [y|] eqn:FC; [ left; left; cbn [fst snd]; eauto | right; constructor; [ cbn [fst snd]; auto | exact E ] ].
  - right. constructor; [ cbn [fst]; intros; contradiction | exact E ].
Qed.

Lemma open_dec : forall p l, {open l p} + {~ open l p}.
Proof.
  induction p as [|k p IH]; intros l; [ right; intros [] | ]. destruct p as [|k' p]; [ left; exact I | ].
  rewrite open_cons. destruct (lookup l k) as [x|]; [ destruct x | ]; try (right; intros []; fail); [ apply IH | left; exact I ].
Qed.
Lemma blocked_keeps : forall p l l', (forall q c, get l q = Some c -> exists c', get l' q = Some c' /\ kindOf c' = kindOf c) ->
  ~ open l p -> ~ open l' p.
Proof.
  induction p as [|k p IH]; intros l l' KP B; [ intros [] | ]. destruct p as [|k' p]; [ exfalso; apply B; exact I | ].
  rewrite open_cons in *. destruct (lookup l k) as [x|] eqn:L; [ | exfalso; apply B; exact I ].
  destruct (KP [k] x L) as (x' & L' & K). cbn [get] in L'. rewrite L'.
  destruct (dict_dec x) as [ND|[d ->]].
  - destruct x'; try (intros []; fail). destruct (kind_dict x (eq_sym K)) as [d ->]. exfalso. eapply ND. reflexivity.
  - destruct (kind_dict x' K) as [d' ->]. apply (IH d); [ | exact B ].
    intros q c Gq. destruct q as [|k0 q]; [ discriminate | ].
    destruct (KP (k :: k0 :: q) c) as (c' & G' & K'); [ rewrite get_cons, L; exact Gq | ].
    rewrite get_cons, L' in G'. eauto.
Qed.

Theorem acts_again : forall w l, Forall (fun a => strong (snd a)) w -> nonull l -> acts (acts l w) w = acts l w.
Proof.
  induction w as [|[p f] w IH]; intros l F N; [ reflexivity | ].
  inversion F as [|? ? F1 F2]; subst. cbn [snd] in F1. pose proof F1 as (G & SV & (x & SN & SX) & SK).
  assert (FG : Forall (fun a : act => good (snd a)) w) by (eapply Forall_impl; [ | exact F2 ]; intros a [A _]; exact A).
  assert (N1 : nonull (upd l p f)) by (apply upd_nonull; assumption).
  change (acts (doAct (acts (upd l p f) w) (p, f)) w = acts (upd l p f) w). set (Y := upd l p f) in *. set (X := acts Y w).
  pose proof (IH Y F2 N1) as IHY. fold X in IHY.
  assert (NX : nonull X) by (apply acts_nonull; assumption).
  assert (KY : forall q c, get Y q = Some c -> exists c', get X q = Some c' /\ kindOf c' = kindOf c).
  { intros q c H. apply acts_keeps; [ assumption | assumption | ]. intros ->. apply (N1 q). exact H. }
  assert (SAME : doAct X (p, f) = X -> acts (doAct X (p, f)) w = X) by (intros E; rewrite E; exact IHY).
  destruct (open_dec p l) as [O|B].
  2: { apply SAME. unfold doAct. cbn [fst snd]. apply upd_blocked. eapply blocked_keeps; [ exact KY | ].
       unfold Y. rewrite upd_blocked by exact B. exact B. }
  pose proof (upd_same p f l O) as GP. fold Y in GP.
  destruct (f (get l p)) as [y|] eqn:FP.
  - assert (NO : get l p <> Some ONull) by apply N. destruct (SV _ _ NO FP) as [NY DY].
    destruct DY as [DY| ->].
    + destruct (KY p y GP) as (y' & GX & KX).
      assert (FY : f (Some y) = Some y).
      { destruct (get l p) as [c|] eqn:GL.
        - rewrite (SK y c); [ exact FP | ]. apply (proj2 G); [ congruence | exact FP ].
        - rewrite FP in SN. inversion SN. subst. apply SX; [ assumption | reflexivity ]. }
      assert (FY' : f (Some y') = Some y) by (rewrite <- FY; apply SK; exact KX).
      assert (E : doAct X (p, f) = upd X p (fun _ => Some y)) by (unfold doAct; cbn [fst snd]; apply upd_ext; rewrite GX; exact FY').
      destruct (writes_dec w p y) as [W|W].
      * rewrite E. transitivity (acts X w); [ | exact IHY ]. apply (absorbed w X p y'); try assumption.
        -- eapply nodict_kind; [ symmetry; exact KX | exact DY ].
        -- eapply nonull_kind; [ symmetry; exact KX | exact NY ].
        -- symmetry. exact KX.
        -- apply Exists_exists in W. destruct W as (a & Ia & Pa & z & Z). apply Exists_exists. exists a. split; [ exact Ia | ]. split; [ exact Pa | ].
           exists z. rewrite <- Z. rewrite Forall_forall in F2. apply (F2 a Ia). exact KX.
      * apply SAME. rewrite E. apply upd_self. apply unwritten; assumption.
    + destruct (KY p _ GP) as (y' & GX & KX). destruct (kind_dict _ KX) as [d ->].
      apply SAME. unfold doAct. cbn [fst snd]. eapply upd_refuse; [ exact GX | apply (proj1 G) ].
  - destruct (get l p) as [c|] eqn:GL; [ | congruence ].
    destruct (KY p _ GP) as (y' & GX & KX). apply SAME. unfold doAct. cbn [fst snd]. eapply upd_refuse; [ exact GX | ].
    rewrite (SK _ _ KX). exact FP.
Qed.

(** ** The writes of providers without nulls *)
Lemma undefinedValue_again : forall v c, kindOf c = kindOf (undefinedValue v) -> optionLeaf c v = Some (undefinedValue v).
Proof.
  intros v c. unfold undefinedValue, optionLeaf. destruct (unquote v) as [w|]; [ intros ->; reflexivity | ].
  destruct (tryBool v) as [x|] eqn:B; [ rewrite (tryBool_kind _ _ B); intros ->; reflexivity | ].
  destruct (tryFloat v) as [x|] eqn:Fl; [ rewrite (tryFloat_kind _ _ Fl); intros ->; reflexivity | ].
  destruct (tryInteger v) as [x|] eqn:In; [ rewrite (tryInteger_kind _ _ In); intros ->; reflexivity | intros ->; reflexivity ].
Qed.
Lemma undefinedValue_leaf : forall v, undefinedValue v <> ONull /\ nodict (undefinedValue v).
Proof.
  intros v. assert (K : exists k, kindOf (undefinedValue v) = Some k /\ k <> KDict).
  { unfold undefinedValue. destruct (unquote v); [ eexists; split; [ reflexivity | discriminate ] | ].
    destruct (tryBool v) eqn:B; [ eexists; split; [ eapply tryBool_kind, B | discriminate ] | ].
    destruct (tryFloat v) eqn:Fl; [ eexists; split; [ eapply tryFloat_kind, Fl | discriminate ] | ].
    destruct (tryInteger v) eqn:In; [ eexists; split; [ eapply tryInteger_kind, In | discriminate ] | eexists; split; [ reflexivity | discriminate ] ]. }
  destruct K as (k & K & N). split; [ intros E | intros d E ]; rewrite E in K; cbn [kindOf] in K; congruence.
Qed.
Lemma wText_strong : forall v, strong (wText v).
Proof.
  intros v. split; [ apply wText_good | ]. split; [ | split ].
  - intros [c|] x O H; cbn [wText] in H.
    + assert (c <> ONull) by congruence. pose proof (proj2 (wText_good v) c x H0 H) as K.
      split; [ apply (nonull_kind c x); congruence | left ]. intros d ->. destruct (kind_dict c (eq_sym K)) as [d' ->]. discriminate.
    + inversion H. subst. split; [ apply undefinedValue_leaf | left; apply undefinedValue_leaf ].
  - exists (undefinedValue v). split; [ reflexivity | ]. intros _ c K. apply undefinedValue_again, K.
  - intros c c' K. cbn [wText]. unfold optionLeaf. rewrite K. reflexivity.
Qed.
Lemma wPrim_strong : forall j, primitive j <> ONull -> strong (wPrim (primitive j)).
Proof.
  intros j N. assert (ND : nodict (primitive j)) by (intros d; destruct j; discriminate).
  assert (IN : isNull (primitive j) = false) by (destruct (primitive j); try reflexivity; congruence).
  split; [ apply wPrim_good | ]. split; [ | split ].
  - intros o x O H. assert (x = primitive j).
    { destruct o as [c|]; [ destruct c | ]; cbn [wPrim] in H; rewrite ?IN in H; cbn [orb] in H; try congruence; destruct (negb _) in H; congruence. }
    subst. split; [ assumption | left; assumption ].
  - exists (primitive j). split; [ reflexivity | ]. intros _ c K. cbn [wPrim]. rewrite IN. cbn [orb].
    assert (E : kind_eqb (kindOf c) (kindOf (primitive j)) = true) by (apply kind_eqb_eq, K). rewrite E. destruct c; reflexivity.
  - intros c c' K. cbn [wPrim]. destruct c, c'; cbn [kindOf] in *; try discriminate; reflexivity.
Qed.
Lemma wList_strong : forall l, strong (wList l).
Proof.
  intros l. split; [ apply wList_good | ]. split; [ | split ].
  - intros o x O H. assert (x = OList l) by (destruct o as [c|]; [ destruct c | ]; cbn [wList] in H; congruence). subst. split; [ discriminate | left; intros d; discriminate ].
  - exists (OList l). split; [ reflexivity | ]. intros _ c K. destruct c; try discriminate; reflexivity.
  - intros c c' K. destruct c, c'; cbn [kindOf] in *; try discriminate; reflexivity.
Qed.
Lemma wDict_strong : strong wDict.
Proof.
  split; [ apply wDict_good | ]. split; [ | split ].
  - intros o x O H. assert (x = ODict []) by (destruct o as [c|]; [ destruct c | ]; cbn [wDict] in H; congruence). subst. split; [ discriminate | right; reflexivity ].
  - exists (ODict []). split; [ reflexivity | ]. intros N. exfalso. eapply N. reflexivity.
  - intros c c' K. destruct c, c'; cbn [kindOf] in *; try discriminate; reflexivity.
Qed.
Lemma flat_strong : forall j, (forall q, ~ JAt j q JNull) -> Forall (fun a => strong (snd a)) (flat j).
Proof.
  intros j. induction j using json_ind2; intros N.
  - destruct j as [| | | | |a|a]; try constructor. exfalso. eapply H0. reflexivity.
  - constructor.
  - rewrite flat_obj. apply Forall_forall. intros a Ha. apply in_flat_map in Ha. destruct Ha as ([k v] & Hin & Ha).
    rewrite Forall_forall in H. specialize (H _ Hin). cbn [snd] in H.
    assert (NV : forall q, ~ JAt v q JNull) by (intros q J; apply (N (k :: q)); econstructor; eauto). specialize (H NV).
    unfold flatMember in Ha. cbn [fst snd] in Ha.
    destruct v as [| | | | |els|ms]; [ exfalso; apply (NV []); constructor | .. ]; destruct Ha as [ <- | Ha ]; try (destruct Ha; fail); cbn [snd];
      try (apply wPrim_strong; discriminate); try apply wList_strong; try apply wDict_strong.
    apply in_map_iff in Ha. destruct Ha as (b & <- & Hb). cbn [under snd]. rewrite Forall_forall in H. apply H, Hb.
Qed.
Lemma provider_strong : forall p, NoNullIn p -> Forall (fun a => strong (snd a)) (providerActs p).
Proof.
  assert (TS : forall pre args, Forall (fun a => strong (snd a)) (textActs pre args)).
  { intros. apply Forall_forall. intros a H. apply in_map_iff in H. destruct H as (kv & <- & _). apply wText_strong. }
  intros [e|a|[j|]] N; cbn [providerActs]; try apply TS; [ apply flat_strong, N | constructor ].
Qed.
