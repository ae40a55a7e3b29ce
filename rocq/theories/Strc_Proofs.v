From Verif Require Import Base Strc_Model Strc_Spec.
From Verif Require Types_Model.
Local Open Scope Z_scope.

Lemma name_eqb_eq : forall a b, name_eqb a b = true <-> a = b.
Proof.
  unfold name_eqb. induction a as [|x a IH]; destruct b as [|y b]; cbn [Types_Model.name_eqb]; split; intros H;
    try reflexivity; try discriminate.
  - apply andb_true_iff in H. destruct H as [E H]. apply Z.eqb_eq in E. apply IH in H. congruence.
  - injection H as -> ->. apply andb_true_iff. split; [apply Z.eqb_refl | apply IH; reflexivity].
Qed.
Lemma name_eqb_refl : forall a, name_eqb a a = true.
Proof. intros a. apply name_eqb_eq. reflexivity. Qed.
Lemma name_eqb_neq : forall a b, name_eqb a b = false <-> a <> b.
Proof.
  intros a b. split; intros H.
  - intros E. apply name_eqb_eq in E. rewrite E in H. discriminate.
  - destruct (name_eqb a b) eqn:E; [|reflexivity]. apply name_eqb_eq in E. contradiction.
Qed.
Lemma ct_beq_eq : forall a b, ct_beq a b = true <-> a = b.
Proof. intros a b. split; [apply internal_ct_dec_bl | apply internal_ct_dec_lb]. Qed.
Lemma ct_beq_refl : forall a, ct_beq a a = true.
Proof. intros a. apply ct_beq_eq. reflexivity. Qed.
Lemma names_eqb_eq : forall l k, names_eqb l k = true <-> l = k.
Proof.
  induction l as [|x l IH]; destruct k as [|y k]; cbn [names_eqb]; split; intros H; try reflexivity; try discriminate.
  - apply andb_true_iff in H. destruct H as [E H]. apply name_eqb_eq in E. apply IH in H. congruence.
  - injection H as -> ->. rewrite name_eqb_refl. apply IH. reflexivity.
Qed.

(** ** Dictionaries *)
Section Dict.
  Context {A : Type}.
  Implicit Types l : list (name * A).

  Lemma lookup_in : forall k v l, lookup k l = Some v -> In (k, v) l.
  Proof.
    induction l as [|[k' v'] l IH]; cbn [lookup]; intros H; [discriminate|].
    destruct (name_eqb k' k) eqn:E.
    - apply name_eqb_eq in E. injection H as <-. left. congruence.
    - right. exact (IH H).
  Qed.
  Lemma lookup_none : forall k l, lookup k l = None <-> ~ In k (keys l).
  Proof.
    unfold keys. induction l as [|[k' v'] l IH]; cbn [lookup map fst In]; split; intros H.
    - intros [].
    - reflexivity.
    - destruct (name_eqb k' k) eqn:E; [discriminate|]. apply name_eqb_neq in E. intros [F|F]; [contradiction|].
      apply IH in H. contradiction.
    - destruct (name_eqb k' k) eqn:E.
      + apply name_eqb_eq in E. exfalso. apply H. left. exact E.
      + apply IH. intros F. apply H. right. exact F.
  Qed.
  Lemma in_keys : forall k v l, In (k, v) l -> In k (keys l).
  Proof. intros k v l H. unfold keys. change k with (fst (k, v)). apply in_map. exact H. Qed.
  Lemma in_lookup : forall k v l, NoDup (keys l) -> In (k, v) l -> lookup k l = Some v.
  Proof.
    induction l as [|[k' v'] l IH]; cbn [lookup keys map fst]; intros N H; [destruct H|].
    inversion N as [|x y N1 N2]; subst. destruct H as [H|H].
    - injection H as -> ->. rewrite name_eqb_refl. reflexivity.
    - destruct (name_eqb k' k) eqn:E; [|exact (IH N2 H)].
      apply name_eqb_eq in E. subst k'. exfalso. apply N1. exact (in_keys _ _ _ H).
  Qed.
  Lemma one_value : forall k v w l, NoDup (keys l) -> In (k, v) l -> In (k, w) l -> v = w.
  Proof.
    intros k v w l N H K. apply (in_lookup _ _ _ N) in H. apply (in_lookup _ _ _ N) in K. congruence.
  Qed.

  Lemma assign_keys : forall k v l k', In k' (keys (assign k v l)) <-> In k' (keys l) \/ k' = k.
  Proof.
    unfold keys. induction l as [|[a b] l IH]; cbn [assign map fst In]; intros k'.
    - split; [intros [H|[]]; right; congruence | intros [[]| ->]; left; reflexivity].
    - destruct (name_eqb a k) eqn:E; cbn [map fst In].
      + apply name_eqb_eq in E. subst a. split; [tauto | intros [H| ->]; [exact H | left; reflexivity]].
      + rewrite IH. tauto.
  Qed.
  Lemma assign_nodup : forall k v l, NoDup (keys l) -> NoDup (keys (assign k v l)).
  Proof.
    induction l as [|[a b] l IH]; intros N.
    - cbn. constructor; [intros []|constructor].
    - inversion N as [|x y N1 N2]; subst. cbn [assign]. destruct (name_eqb a k) eqn:E.
      + exact N.
      + cbn [keys map fst]. constructor; [|exact (IH N2)].
        intros H. apply assign_keys in H. destruct H as [H|H]; [exact (N1 H)|].
        apply name_eqb_neq in E. contradiction.
  Qed.
  Lemma assign_in : forall k v l e, In e (assign k v l) -> In e l \/ e = (k, v).
  Proof.
    induction l as [|[a b] l IH]; cbn [assign]; intros e H.
    - destruct H as [H|[]]. right. congruence.
    - destruct (name_eqb a k) eqn:E.
      + apply name_eqb_eq in E. subst a. destruct H as [H|H]; [right; congruence | left; right; exact H].
      + destruct H as [H|H]; [left; left; exact H|]. destruct (IH _ H) as [G|G]; [left; right; exact G | right; exact G].
  Qed.
  Lemma assign_new : forall k v l, ~ In k (keys l) -> assign k v l = l ++ [(k, v)].
  Proof.
    induction l as [|[a b] l IH]; cbn [assign keys map fst In app]; intros H; [reflexivity|].
    destruct (name_eqb a k) eqn:E.
    - apply name_eqb_eq in E. exfalso. apply H. left. exact E.
    - rewrite IH; [reflexivity|]. intros G. apply H. right. exact G.
  Qed.
  Lemma assign_self : forall k v l, In (k, v) (assign k v l).
  Proof.
    induction l as [|[a b] l IH]; cbn [assign]; [left; reflexivity|].
    destruct (name_eqb a k) eqn:E; [|right; exact IH]. apply name_eqb_eq in E. left. congruence.
  Qed.
  Lemma assign_other : forall k v l k' v', k' <> k -> In (k', v') l -> In (k', v') (assign k v l).
  Proof.
    induction l as [|[a b] l IH]; cbn [assign]; intros k' v' D H; [destruct H|].
    destruct (name_eqb a k) eqn:E.
    - apply name_eqb_eq in E. destruct H as [H|H]; [injection H as -> ->; contradiction | right; exact H].
    - destruct H as [H|H]; [left; exact H | right; exact (IH _ _ D H)].
  Qed.
  Lemma erase_in : forall k l e, In e (erase k l) -> In e l.
  Proof. intros k l e H. unfold erase in H. apply filter_In in H. exact (proj1 H). Qed.
  Lemma filter_nodup_keys : forall (p : name * A -> bool) l, NoDup (keys l) -> NoDup (keys (filter p l)).
  Proof.
    unfold keys. induction l as [|e l IH]; intros N; [exact N|]. cbn [map filter] in *. inversion N as [|x y N1 N2]; subst.
    destruct (p e); [|exact (IH N2)]. cbn [map]. constructor; [|exact (IH N2)].
    intros H. apply N1. apply in_map_iff in H. destruct H as [e' [E H]]. apply filter_In in H. rewrite <- E.
    apply in_map. exact (proj1 H).
  Qed.
  Lemma fold_assign : forall k l, NoDup (keys l) ->
    NoDup (keys (fold_left (fun d e => assign (fst e) (snd e) d) k l)).
  Proof.
    induction k as [|e k IH]; intros l N; [exact N|]. cbn [fold_left]. apply IH. apply assign_nodup. exact N.
  Qed.
  Lemma dict_of_nodup : forall l, NoDup (keys (dict_of l)).
  Proof. intros l. apply fold_assign. constructor. Qed.
  Lemma fold_assign_in : forall k l e, In e (fold_left (fun d e => assign (fst e) (snd e) d) k l) -> In e l \/ In e k.
  Proof.
    induction k as [|[a b] k IH]; intros l e H; [left; exact H|]. cbn [fold_left fst snd] in H.
    destruct (IH _ _ H) as [G|G]; [|right; right; exact G].
    destruct (assign_in _ _ _ _ G) as [F|F]; [left; exact F | right; left; congruence].
  Qed.
  Lemma dict_of_in : forall l e, In e (dict_of l) -> In e l.
  Proof. intros l e H. destruct (fold_assign_in _ _ _ H) as [[]|G]. exact G. Qed.
  Lemma fold_assign_app : forall k l, NoDup (keys (l ++ k)) ->
    fold_left (fun d e => assign (fst e) (snd e) d) k l = l ++ k.
  Proof.
    induction k as [|[a b] k IH]; intros l N; [rewrite app_nil_r; reflexivity|]. cbn [fold_left fst snd].
    unfold keys in N. rewrite map_app in N. cbn [map fst] in N.
    rewrite assign_new.
    - rewrite IH; [rewrite <- app_assoc; reflexivity|]. unfold keys. rewrite <- app_assoc, map_app. exact N.
    - intros H. apply NoDup_remove_2 in N. apply N. apply in_or_app. left. exact H.
  Qed.
  Lemma dict_of_id : forall l, NoDup (keys l) -> dict_of l = l.
  Proof. intros l N. unfold dict_of. rewrite fold_assign_app; [reflexivity | exact N]. Qed.
End Dict.

(** ** Induction over types and values *)
Section Ind.
  Variable P : ty -> Prop.
  Variable Q : val -> Prop.
  Hypothesis PS : forall c, P (TSimple c).
  Hypothesis PT : forall n ns ts ds, Forall P ts -> (forall l, ds = Some l -> Forall Q l) -> P (TStruct n ns ts ds).
  Hypothesis PE : forall n es, P (TEnum n es).
  Hypothesis PC : forall n, P (TClass n).
  Hypothesis QN : Q VNull.
  Hypothesis QA : forall c i, Q (VAtom c i).
  Hypothesis QB : forall c t i, P t -> Q (VBuiltin c t i).
  Hypothesis QE : forall n es v, Q (VEnum n es v).
  Hypothesis QR : forall t fs, P t -> Forall (fun e => Q (snd e)) fs -> Q (VRec t fs).

  Fixpoint ty_ind2 (t : ty) : P t :=
    match t with
    | TSimple c => PS c
    | TStruct n ns ts ds =>
      PT n ns ts ds
        ((fix go (l : list ty) : Forall P l :=
            match l with [] => Forall_nil _ | x :: r => Forall_cons _ (ty_ind2 x) (go r) end) ts)
        (match ds as d return (forall l, d = Some l -> Forall Q l) with
         | None => fun l H => match (eq_ind None (fun o => match o with None => True | Some _ => False end) I (Some l) H) with end
         | Some k => fun l H =>
             eq_ind (Some k) (fun o => match o with None => True | Some l => Forall Q l end)
               ((fix go (l : list val) : Forall Q l :=
                   match l with [] => Forall_nil _ | x :: r => Forall_cons _ (val_ind2 x) (go r) end) k) (Some l) H
         end)
    | TEnum n es => PE n es
    | TClass n => PC n
    end
  with val_ind2 (v : val) : Q v :=
    match v with
    | VNull => QN
    | VAtom c i => QA c i
    | VBuiltin c t i => QB c t i (ty_ind2 t)
    | VEnum n es w => QE n es w
    | VRec t fs =>
      QR t fs (ty_ind2 t)
        ((fix go (l : list (name * val)) : Forall (fun e => Q (snd e)) l :=
            match l with
            | [] => Forall_nil _
            | x :: r => Forall_cons _ (match x as y return Q (snd y) with (_, w) => val_ind2 w end) (go r)
            end) fs)
    end.

  Lemma ty_val_ind : (forall t, P t) /\ (forall v, Q v).
  Proof. split; [exact ty_ind2 | exact val_ind2]. Qed.
End Ind.

(** types and values as the constructors make them *)
Inductive made_ty : ty -> Prop :=
| made_simple c : made_ty (TSimple c)
| made_class n : made_ty (TClass n)
| made_enum n es : NoDup (keys es) -> es <> [] -> made_ty (TEnum n es)
| made_struct n ns ts ds :
    length ns = length ts -> (forall l, ds = Some l -> length l = length ns) ->
    Forall made_ty ts -> (forall l, ds = Some l -> Forall made_val l) ->
    Forall (fun t => accepted (core t) = true) ts -> made_ty (TStruct n ns ts ds)
with made_val : val -> Prop :=
| made_null : made_val VNull
| made_atom c i : atomic c = true -> made_val (VAtom c i)
| made_builtin c t i : made_ty t -> (exists n ns ts ds, t = TStruct n ns ts ds) -> made_val (VBuiltin c t i)
| made_enumeration n es v : NoDup (keys es) -> In v (keys es) -> made_val (VEnum n es v)
| made_rec t fs : made_ty t -> (exists n ns ts ds, t = TStruct n ns ts ds) -> NoDup (keys fs) -> Forall (fun e => made_val (snd e)) fs -> made_val (VRec t fs).

Lemma enumerators_eq_refl : forall es, NoDup (keys es) -> enumerators_eq es es = true.
Proof.
  intros es N. unfold enumerators_eq. rewrite Nat.eqb_refl. cbn [andb]. apply forallb_forall. intros [k z] H.
  cbn [fst snd]. rewrite (in_lookup _ _ _ N H). apply Z.eqb_refl.
Qed.
Lemma enumerators_eq_sound : forall m t, NoDup (keys m) -> NoDup (keys t) -> enumerators_eq m t = true -> incl m t /\ incl t m.
Proof.
  intros m t NM NT H. unfold enumerators_eq in H. apply andb_true_iff in H. destruct H as [L H].
  apply Nat.eqb_eq in L. rewrite forallb_forall in H.
  assert (I2 : incl t m).
  { intros [k z] K. specialize (H _ K). cbn [fst snd] in H. destruct (lookup k m) as [w|] eqn:E; [|discriminate].
    apply Z.eqb_eq in H. subst w. exact (lookup_in _ _ _ E). }
  split; [|exact I2]. apply NoDup_length_incl; [|lia|exact I2].
  unfold keys in NT. exact (NoDup_map_inv _ _ NT).
Qed.

Lemma list_eq_refl : forall (A : Type) (eq : A -> A -> option bool) l,
  Forall (fun x => eq x x = Some true) l -> list_eq eq l l = Some true.
Proof.
  intros A eq l H. unfold list_eq. rewrite Nat.eqb_refl.
  induction H as [|x l E H IH]; cbn [items_eq]; [reflexivity|]. rewrite E. exact IH.
Qed.
Lemma list_eq_sound : forall (A : Type) (eq : A -> A -> option bool) (R : A -> A -> Prop) l k,
  list_eq eq l k = Some true -> (forall x y, In x l -> In y k -> eq x y = Some true -> R x y) -> Forall2 R l k.
Proof.
  intros A eq R l k H HR. unfold list_eq in H. destruct (length l =? length k)%nat; [|discriminate].
  revert k H HR. induction l as [|x l IH]; destruct k as [|y k]; cbn [items_eq]; intros H HR; try discriminate; [constructor|].
  destruct (eq x y) as [[]|] eqn:E; cbn [and_then] in H; try discriminate.
  constructor.
  - apply HR; [left; reflexivity | left; reflexivity | exact E].
  - apply IH; [exact H|]. intros a b Ha Hb. apply HR; right; assumption.
Qed.

Lemma and_then_true : forall a b, and_then a b = Some true -> a = Some true /\ b = Some true.
Proof. intros [[]|] b H; cbn [and_then] in H; try discriminate. split; [reflexivity | exact H]. Qed.

Lemma item_eq_refl : forall eq fl v, (v <> VNull -> eq fl v v = Some true) -> item_eq eq fl v v = Some true.
Proof. intros eq fl v H. destruct v; cbn [item_eq]; try (apply H; discriminate). reflexivity. Qed.

Lemma eq_refl_both :
  (forall t, made_ty t -> forall fl, ty_eq fl t t = Some true) /\
  (forall v, v <> VNull -> made_val v -> forall fl, val_eq fl v v = Some true).
Proof.
  apply ty_val_ind.
  - intros c _ fl. cbn [ty_eq]. unfold generic_eq. rewrite name_eqb_refl, ct_beq_refl. destruct fl; reflexivity.
  - intros n ns ts ds IT ID M fl. inversion M as [| | |n0 ns0 ts0 ds0 L1 L2 M1 M2 MA E]; subst. cbn [ty_eq].
    rewrite list_eq_refl.
    2:{ apply Forall_forall. intros x Hx. rewrite Forall_forall in IT, M1. apply IT; auto. }
    cbn [and_then]. rewrite names_eqb_eq || idtac.
    assert (D : defaults_eq (fun x y => item_eq (fun f u v => val_eq f u v) (negb fl) x y) ds ds = Some true).
    { destruct ds as [l|]; cbn [defaults_eq]; [|reflexivity]. apply list_eq_refl. apply Forall_forall. intros x Hx.
      apply item_eq_refl. intros NN. specialize (ID l eq_refl). specialize (M2 l eq_refl).
      rewrite Forall_forall in ID, M2. apply ID; auto. }
    rewrite D. cbn [and_then]. rewrite (proj2 (names_eqb_eq ns ns) eq_refl). cbn [and_then]. rewrite name_eqb_refl. reflexivity.
  - intros n es M fl. inversion M; subst. cbn [ty_eq]. rewrite enumerators_eq_refl by assumption. rewrite name_eqb_refl.
    destruct fl; reflexivity.
  - intros n _ fl. cbn [ty_eq]. unfold generic_eq. rewrite name_eqb_refl, ct_beq_refl. destruct fl; reflexivity.
  - intros H. contradiction.
  - intros c i _ _ fl. cbn [val_eq]. rewrite ct_beq_refl, Z.eqb_refl. reflexivity.
  - intros c t i _ _ _ fl. cbn [val_eq]. rewrite ct_beq_refl, Z.eqb_refl. reflexivity.
  - intros n es v _ M fl. inversion M; subst. cbn [val_eq]. rewrite enumerators_eq_refl by assumption.
    rewrite !name_eqb_refl. destruct fl; reflexivity.
  - intros t fs IT IF _ M fl. inversion M as [| | | |t0 fs0 M1 MX M2 M3]; subst. cbn [val_eq].
    rewrite list_eq_refl.
    2:{ apply Forall_forall. intros x Hx. apply item_eq_refl. intros NN. rewrite Forall_forall in IF, M3.
        apply IF; auto. }
    cbn [and_then]. rewrite (proj2 (names_eqb_eq _ _) eq_refl). cbn [and_then]. apply IT. exact M1.
Qed.
Lemma ty_eq_refl : forall t fl, made_ty t -> ty_eq fl t t = Some true.
Proof. intros t fl M. exact (proj1 eq_refl_both t M fl). Qed.

Lemma item_eq_sound : forall eq fl a b,
  item_eq eq fl a b = Some true -> a = VNull /\ b = VNull \/ a <> VNull /\ b <> VNull /\ eq fl a b = Some true.
Proof.
  intros eq fl a b H.
  destruct a; destruct b; cbn [item_eq] in H;
    try (right; split; [discriminate|]; split; [discriminate | exact H]);
    try (left; split; reflexivity); destruct fl; discriminate.
Qed.

Lemma eq_sound_both :
  (forall a, forall b fl, made_ty a -> made_ty b -> ty_eq fl a b = Some true -> same_ty a b) /\
  (forall a, forall b fl, made_val a -> made_val b -> val_eq fl a b = Some true -> same_val a b).
Proof.
  assert (G : forall a b (fl : bool), (bare a \/ bare b) -> generic_eq a b = true -> same_ty a b).
  { intros a b fl B H. unfold generic_eq in H. apply andb_true_iff in H. destruct H as [H1 H2].
    apply name_eqb_eq in H1. apply ct_beq_eq in H2. apply same_bare; [exact B | congruence | exact H2]. }
  apply ty_val_ind.
  - intros c b fl _ _ H. apply (G _ _ fl); [left; exact I|].
    cbn [ty_eq] in H. destruct b; destruct fl; try discriminate; injection H as H; exact H.
  - intros n ns ts ds IT ID b fl Ma Mb H. inversion Ma as [| | |n0 ns0 ts0 ds0 L1 L2 M1 M2 MA E]; subst.
    destruct b as [c|n' ns' ts' ds'|n' es'|n'].
    + apply (G _ _ fl); [right; exact I|]. cbn [ty_eq] in H. destruct fl; [injection H as H; exact H | discriminate].
    + inversion Mb as [| | |n1 ns1 ts1 ds1 K1 K2 N1 N2 NA E]; subst. cbn [ty_eq] in H.
      apply and_then_true in H. destruct H as [HT H]. apply and_then_true in H. destruct H as [HD H].
      apply and_then_true in H. destruct H as [HN HM]. injection HN as HN. injection HM as HM.
      apply names_eqb_eq in HN. apply name_eqb_eq in HM. subst ns' n'.
      assert (FT : Forall2 same_ty ts ts').
      { apply (list_eq_sound _ _ _ _ _ HT). intros x y Hx Hy E. rewrite Forall_forall in IT, M1, N1.
        exact (IT x Hx y _ (M1 x Hx) (N1 y Hy) E). }
      destruct ds as [l|]; destruct ds' as [l'|]; cbn [defaults_eq] in HD; try discriminate.
      * apply same_struct_with; [exact FT|]. apply (list_eq_sound _ _ _ _ _ HD). intros x y Hx Hy E.
        apply item_eq_sound in E. destruct E as [[-> ->]|[NX [NY E]]]; [constructor|].
        specialize (ID l eq_refl). specialize (M2 l eq_refl). specialize (N2 l' eq_refl).
        rewrite Forall_forall in ID, M2, N2. exact (ID x Hx y _ (M2 x Hx) (N2 y Hy) E).
      * apply same_struct_without. exact FT.
    + cbn [ty_eq] in H. destruct fl; discriminate.
    + apply (G _ _ fl); [right; exact I|]. cbn [ty_eq] in H. destruct fl; [injection H as H; exact H | discriminate].
  - intros n es b fl Ma Mb H. destruct b as [c|n' ns' ts' ds'|n' es'|n']; cbn [ty_eq] in H.
    + apply (G _ _ fl); [right; exact I|]. destruct fl; [injection H as H; exact H | discriminate].
    + destruct fl; discriminate.
    + injection H as H. apply andb_true_iff in H. destruct H as [H HN]. apply name_eqb_eq in HN. subst n'.
      inversion Ma; subst. inversion Mb; subst.
      destruct fl.
      * destruct (enumerators_eq_sound es es') as [I1 I2]; [assumption|assumption|exact H|]. apply same_enum; assumption.
      * destruct (enumerators_eq_sound es' es) as [I1 I2]; [assumption|assumption|exact H|]. apply same_enum; assumption.
    + apply (G _ _ fl); [right; exact I|]. destruct fl; [injection H as H; exact H | discriminate].
  - intros n b fl _ _ H. apply (G _ _ fl); [left; exact I|].
    cbn [ty_eq] in H. destruct b; destruct fl; try discriminate; injection H as H; exact H.
  - intros b fl _ _ H. destruct b; cbn [val_eq] in H; discriminate.
  - intros c i b fl _ _ H. destruct b as [|d j|d t j|n es v|t fs]; cbn [val_eq] in H; try discriminate.
    injection H as H. apply andb_true_iff in H. destruct H as [H1 H2]. apply ct_beq_eq in H1. apply Z.eqb_eq in H2.
    subst. constructor.
  - intros c t i _ b fl _ _ H. destruct b as [|d j|d t' j|n es v|t' fs]; cbn [val_eq] in H; try discriminate.
    injection H as H. apply andb_true_iff in H. destruct H as [H1 H2]. apply ct_beq_eq in H1. apply Z.eqb_eq in H2.
    subst. constructor.
  - intros n es v b fl Ma Mb H. destruct b as [|d j|d t' j|n' es' v'|t' fs]; cbn [val_eq] in H; try discriminate.
    injection H as H. apply andb_true_iff in H. destruct H as [H H3]. apply andb_true_iff in H. destruct H as [H H2].
    apply name_eqb_eq in H2. apply name_eqb_eq in H3. subst. inversion Ma; subst. inversion Mb; subst.
    destruct fl.
    + destruct (enumerators_eq_sound es' es) as [I1 I2]; [assumption|assumption|exact H|]. constructor; assumption.
    + destruct (enumerators_eq_sound es es') as [I1 I2]; [assumption|assumption|exact H|]. constructor; assumption.
  - intros t fs IT IF b fl Ma Mb H. destruct b as [|d j|d t' j|n' es' v'|t' fs']; cbn [val_eq] in H; try discriminate.
    apply and_then_true in H. destruct H as [HF H]. apply and_then_true in H. destruct H as [HN HT].
    injection HN as HN. apply names_eqb_eq in HN.
    inversion Ma as [| | | |t0 fs0 M1 MX M2 M3]; subst. inversion Mb as [| | | |t1 fs1 N1 NSX N2 N3]; subst.
    apply same_struct.
    + exact (IT t' _ M1 N1 HT).
    + assert (F : Forall2 (fun e e' : name * val => same_val (snd e) (snd e')) fs fs').
      { apply (list_eq_sound _ _ _ _ _ HF). intros x y Hx Hy E. apply item_eq_sound in E.
        destruct E as [[-> ->]|[NX [NY E]]]; [constructor|]. rewrite Forall_forall in IF, M3, N3.
        exact (IF x Hx (snd y) _ (M3 x Hx) (N3 y Hy) E). }
      clear -F HN. induction F as [|x y l k E F IH]; [constructor|]. cbn [map] in HN. injection HN as HN1 HN2.
      constructor; [split; assumption | exact (IH HN2)].
Qed.
Lemma ty_eq_sound : forall a b fl, made_ty a -> made_ty b -> ty_eq fl a b = Some true -> same_ty a b.
Proof. intros a b fl Ma Mb H. exact (proj1 eq_sound_both a b fl Ma Mb H). Qed.
Lemma val_eq_sound : forall a b fl, made_val a -> made_val b -> val_eq fl a b = Some true -> same_val a b.
Proof. intros a b fl Ma Mb H. exact (proj2 eq_sound_both a b fl Ma Mb H). Qed.
