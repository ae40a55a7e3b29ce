(** Dictionaries and single writes. *)
From Coq Require Import String Ascii.
From Verif Require Import Base Opts_Model Opts_Spec.
Local Open Scope Z_scope.

Lemma teqP : forall a b, text_eqb a b = true <-> a = b.
Proof. intros. unfold text_eqb. destruct (list_eq_dec ascii_dec a b); split; congruence. Qed.
Lemma teq_refl : forall a, text_eqb a a = true. Proof. intros. apply teqP. reflexivity. Qed.
Lemma teq_ne : forall a b, a <> b -> text_eqb a b = false.
Proof. intros a b H. destruct (text_eqb a b) eqn:E; [ apply teqP in E; congruence | reflexivity ]. Qed.

Lemma lookup_assign : forall l k v, lookup (assign l k v) k = Some v.
Proof.
  induction l as [|[k' v'] l IH]; intros k v; cbn [assign lookup].
  - rewrite teq_refl. reflexivity.
  - destruct (text_eqb k' k) eqn:E; cbn [lookup]; rewrite E; [ reflexivity | apply IH ].
Qed.
Lemma lookup_assign_ne : forall l k k' v, k' <> k -> lookup (assign l k v) k' = lookup l k'.
Proof.
  induction l as [|[k0 v0] l IH]; intros k k' v N; cbn [assign lookup].
  - rewrite teq_ne by congruence. reflexivity.
  - destruct (text_eqb k0 k) eqn:E; cbn [lookup].
    + apply teqP in E. subst. rewrite teq_ne by congruence. reflexivity.
    + destruct (text_eqb k0 k'); [ reflexivity | apply IH, N ].
Qed.
Lemma assign_same : forall l k v, lookup l k = Some v -> assign l k v = l.
Proof.
  induction l as [|[k0 v0] l IH]; intros k v; cbn [assign lookup]; [ discriminate | ].
  destruct (text_eqb k0 k) eqn:E; intros H; [ inversion H; reflexivity | f_equal; apply IH, H ].
Qed.
Lemma assign_assign : forall l k v w, assign (assign l k v) k w = assign l k w.
Proof.
  induction l as [|[k0 v0] l IH]; intros k v w; cbn [assign].
  - rewrite teq_refl. reflexivity.
  - destruct (text_eqb k0 k) eqn:E; cbn [assign]; rewrite E; [ reflexivity | f_equal; apply IH ].
Qed.
Lemma assign_comm : forall l k k' v w a b, k <> k' -> lookup l k = Some a -> lookup l k' = Some b ->
  assign (assign l k v) k' w = assign (assign l k' w) k v.
Proof.
  induction l as [|[k0 v0] l IH]; intros k k' v w a b N; cbn [assign lookup]; [ discriminate | ].
  destruct (text_eqb k0 k) eqn:E; destruct (text_eqb k0 k') eqn:E'; cbn [assign]; rewrite ?E, ?E'; intros A B; try reflexivity.
  - apply teqP in E, E'. congruence.
  - f_equal. eapply IH; eauto.
Qed.

Fixpoint get (l : dict) (p : path) : option opt :=
  match p with
  | [] => None
  | [k] => lookup l k
  | k :: r => match lookup l k with Some (ODict d) => get d r | _ => None end
  end.
Fixpoint upd (l : dict) (p : path) (f : option opt -> option opt) : dict :=
  match p with
  | [] => l
  | [k] => match f (lookup l k) with Some x => assign l k x | None => l end
  | k :: r => match lookup l k with
              | None => assign l k (ODict (upd [] r f))
              | Some (ODict d) => assign l k (ODict (upd d r f))
              | Some _ => l
              end
  end.

Lemma lookup_split : forall l k x, lookup l k = Some x <-> exists l1 l2, l = l1 ++ (k, x) :: l2 /\ ~ In k (map fst l1).
Proof.
  induction l as [|[k0 v0] l IH]; intros k x; cbn [lookup].
  - split; [ discriminate | intros ([|] & ? & ? & _); discriminate ].
  - destruct (text_eqb k0 k) eqn:E.
    + apply teqP in E. subst. split.
      * intros H. inversion H. subst. exists [], l. split; [ reflexivity | intros [] ].
      * intros ([|[k1 v1] l1] & l2 & EQ & N); inversion EQ; subst; [ reflexivity | exfalso; apply N; left; reflexivity ].
    + assert (k0 <> k) by (intros ->; rewrite teq_refl in E; discriminate). rewrite IH. split.
      * intros (l1 & l2 & -> & N). exists ((k0, v0) :: l1), l2. split; [ reflexivity | intros [?|?]; [ contradiction | tauto ] ].
      * intros ([|[k1 v1] l1] & l2 & EQ & N); inversion EQ; subst; [ contradiction | ].
        exists l1, l2. split; [ reflexivity | intros ?; apply N; right; assumption ].
Qed.
Lemma lookup_none : forall l k, lookup l k = None <-> ~ In k (map fst l).
Proof.
  induction l as [|[k0 v0] l IH]; intros k; cbn [lookup map fst In]; [ tauto | ].
  destruct (text_eqb k0 k) eqn:E.
  - apply teqP in E. split; [ discriminate | tauto ].
  - rewrite IH. assert (k0 <> k) by (intros ->; rewrite teq_refl in E; discriminate). tauto.
Qed.
Lemma At_cons : forall l k p y, At (ODict l) (k :: p) y <-> exists x, lookup l k = Some x /\ At x p y.
Proof.
  intros l k p y. split.
  - intros H. inversion H; subst. exists x. split; [ apply lookup_split; eauto | assumption ].
  - intros (x & L & A). apply lookup_split in L. destruct L as (l1 & l2 & -> & N). constructor; assumption.
Qed.
Lemma At_get : forall p l y, p <> [] -> (At (ODict l) p y <-> get l p = Some y).
Proof.
  induction p as [|k p IH]; intros l y N; [ congruence | ]. rewrite At_cons. destruct p as [|k' p].
  - cbn [get]. split; [ intros (x & L & A); inversion A; subst; assumption | intros L; exists y; split; [ assumption | constructor ] ].
  - change (get l (k :: k' :: p)) with (match lookup l k with Some (ODict d) => get d (k' :: p) | _ => None end).
    split.
    + intros (x & L & A). rewrite L. destruct x; try (exfalso; inversion A; fail). apply IH; [ discriminate | assumption ].
    + intros G. destruct (lookup l k) as [x|]; [ | discriminate ]. destruct x; try discriminate.
      exists (ODict l0). split; [ reflexivity | apply IH; [ discriminate | assumption ] ].
Qed.

Lemma upd_cons : forall l k k' r f, upd l (k :: k' :: r) f =
  match lookup l k with
  | None => assign l k (ODict (upd [] (k' :: r) f))
  | Some (ODict d) => assign l k (ODict (upd d (k' :: r) f))
  | Some _ => l
  end.
Proof. reflexivity. Qed.
Lemma get_cons : forall l k k' r, get l (k :: k' :: r) = match lookup l k with Some (ODict d) => get d (k' :: r) | _ => None end.
Proof. reflexivity. Qed.

(** ** One write *)
Definition nodict (o : opt) : Prop := forall d, o <> ODict d.
(** writes leave dictionaries alone and, but for nulls, keep the type *)
Definition good (f : option opt -> option opt) : Prop :=
  (forall d, f (Some (ODict d)) = None) /\
  (forall c y, c <> ONull -> f (Some c) = Some y -> kindOf y = kindOf c).

Lemma kind_dict : forall o, kindOf o = Some KDict -> exists d, o = ODict d.
Proof. destruct o; cbn [kindOf]; intros H; try discriminate. eauto. Qed.
Lemma upd_keeps : forall q f, good f -> forall p l c, get l p = Some c -> c <> ONull ->
  exists c', get (upd l q f) p = Some c' /\ kindOf c' = kindOf c.
Proof.
  induction q as [|k q IH]; intros f G p l c H N; [ cbn [upd]; eauto | ].
  destruct p as [|k0 p]; [ discriminate | ].
  destruct q as [|k' q].
  - cbn [upd]. destruct (f (lookup l k)) as [x|] eqn:F; [ | eauto ].
    destruct (list_eq_dec ascii_dec k0 k) as [ ->|NE].
    + destruct p as [|k1 p].
      * cbn [get] in *. rewrite lookup_assign. rewrite H in F. exists x. split; [ reflexivity | eapply (proj2 G); eauto ].
      * rewrite get_cons in H. destruct (lookup l k) as [x0|]; [ | discriminate ]. destruct x0; try discriminate.
        rewrite (proj1 G) in F. discriminate.
    + exists c. split; [ | reflexivity ]. destruct p as [|k1 p]; [ cbn [get] in * | rewrite get_cons in * ]; rewrite lookup_assign_ne by assumption; assumption.
  - rewrite upd_cons. destruct (list_eq_dec ascii_dec k0 k) as [ ->|NE].
    + destruct (lookup l k) as [x|] eqn:L.
      * destruct x as [| | | | | |d|]; try (exists c; split; [ assumption | reflexivity ]).
        destruct p as [|k1 p].
        -- cbn [get] in *. rewrite lookup_assign. rewrite L in H. inversion H. subst. eauto.
        -- rewrite get_cons in *. rewrite lookup_assign. rewrite L in H. apply IH; assumption.
      * destruct p as [|k1 p]; [ cbn [get] in H | rewrite get_cons in H ]; rewrite L in H; discriminate.
    + exists c. split; [ | reflexivity ].
      assert (EQ : forall v, get (assign l k v) (k0 :: p) = get l (k0 :: p)).
      { intros v. destruct p as [|k1 p]; [ cbn [get] | rewrite !get_cons ]; rewrite lookup_assign_ne by assumption; reflexivity. }
      destruct (lookup l k) as [x|]; [ destruct x | ]; rewrite ?EQ; assumption.
Qed.

Lemma Apart_cons : forall k p q, Apart (k :: p) (k :: q) -> Apart p q.
Proof.
  intros k p q [A B]. split; intros [r R]; [ apply A | apply B ]; exists r; cbn [app]; congruence.
Qed.
Lemma upd_apart : forall q f p l, Apart p q -> get (upd l q f) p = get l p.
Proof.
  induction q as [|k q IH]; intros f p l A; [ reflexivity | ].
  destruct p as [|k0 p]; [ exfalso; apply (proj1 A); exists (k :: q); reflexivity | ].
  destruct (list_eq_dec ascii_dec k0 k) as [ ->|NE].
  - pose proof (Apart_cons _ _ _ A) as A'.
    destruct p as [|k1 p]; [ exfalso; apply (proj1 A'); exists q; reflexivity | ].
    destruct q as [|k' q]; [ exfalso; apply (proj2 A'); exists (k1 :: p); reflexivity | ].
    rewrite upd_cons, get_cons. destruct (lookup l k) as [x|] eqn:L.
    + destruct x; rewrite ?get_cons, ?lookup_assign, ?L; try reflexivity. apply IH, A'.
    + rewrite get_cons, lookup_assign. rewrite IH by exact A'. rewrite ?get_cons, ?L. destruct p; reflexivity.
  - assert (EQ : forall v, get (assign l k v) (k0 :: p) = get l (k0 :: p)).
    { intros v. destruct p as [|k1 p]; [ cbn [get] | rewrite !get_cons ]; rewrite lookup_assign_ne by assumption; reflexivity. }
    destruct q as [|k' q]; [ cbn [upd]; destruct (f (lookup l k)) | rewrite upd_cons; destruct (lookup l k) as [x|]; [ destruct x | ] ]; rewrite ?EQ; reflexivity.
Qed.

(** nothing in the way *)
Fixpoint open (l : dict) (p : path) : Prop :=
  match p with
  | [] => False
  | [k] => True
  | k :: r => match lookup l k with None => True | Some (ODict d) => open d r | Some _ => False end
  end.
Lemma open_cons : forall l k k' r, open l (k :: k' :: r) = match lookup l k with None => True | Some (ODict d) => open d (k' :: r) | Some _ => False end.
Proof. reflexivity. Qed.
Lemma open_nil : forall p, p <> [] -> open [] p.
Proof. intros [|k [|k' p]] H; [ congruence | exact I | exact I ]. Qed.
Lemma get_nil : forall p, get [] p = None.
Proof. intros [|k [|k' p]]; reflexivity. Qed.
Lemma get_open : forall p l c, get l p = Some c -> open l p.
Proof.
  induction p as [|k p IH]; intros l c H; [ discriminate | ]. destruct p as [|k' p]; [ exact I | ].
  rewrite get_cons in H. rewrite open_cons. destruct (lookup l k) as [x|]; [ destruct x; try discriminate | discriminate ]. eapply IH, H.
Qed.
Lemma upd_same : forall p f l, open l p -> get (upd l p f) p = match f (get l p) with Some x => Some x | None => get l p end.
Proof.
  induction p as [|k p IH]; intros f l O; [ destruct O | ]. destruct p as [|k' p].
  - cbn [upd get]. destruct (f (lookup l k)); [ apply lookup_assign | reflexivity ].
  - rewrite open_cons in O. rewrite upd_cons, (get_cons l). destruct (lookup l k) as [x|] eqn:L.
    + destruct x as [| | | | | |d|]; try contradiction. rewrite get_cons, lookup_assign. apply IH, O.
    + rewrite get_cons, lookup_assign. rewrite IH by (apply open_nil; discriminate). rewrite get_nil. reflexivity.
Qed.
Lemma upd_ext : forall p f g l, f (get l p) = g (get l p) -> upd l p f = upd l p g.
Proof.
  induction p as [|k p IH]; intros f g l H; [ reflexivity | ]. destruct p as [|k' p].
  - cbn [upd get] in *. rewrite H. reflexivity.
  - rewrite !upd_cons. rewrite get_cons in H. destruct (lookup l k) as [x|].
    + destruct x as [| | | | | |d|]; try reflexivity. do 2 f_equal. apply IH, H.
    + do 2 f_equal. apply IH. rewrite get_nil. exact H.
Qed.
Lemma upd_refuse : forall p f l c, get l p = Some c -> f (Some c) = None -> upd l p f = l.
Proof.
  induction p as [|k p IH]; intros f l c H F; [ reflexivity | ]. destruct p as [|k' p].
  - cbn [upd get] in *. rewrite H, F. reflexivity.
  - rewrite upd_cons. rewrite get_cons in H. destruct (lookup l k) as [x|] eqn:L; [ | discriminate ].
    destruct x as [| | | | | |d|]; try discriminate. rewrite (IH _ _ _ H F). apply assign_same, L.
Qed.
Lemma upd_blocked : forall p f l, ~ open l p -> upd l p f = l.
Proof.
  induction p as [|k p IH]; intros f l O; [ reflexivity | ]. destruct p as [|k' p]; [ exfalso; apply O; exact I | ].
  rewrite open_cons in O. rewrite upd_cons. destruct (lookup l k) as [x|] eqn:L; [ | exfalso; apply O; exact I ].
  destruct x as [| | | | | |d|]; try reflexivity. rewrite IH by exact O. apply assign_same, L.
Qed.
Lemma upd_self : forall p l c, get l p = Some c -> upd l p (fun _ => Some c) = l.
Proof.
  induction p as [|k p IH]; intros l c H; [ reflexivity | ]. destruct p as [|k' p].
  - cbn [upd get] in *. apply assign_same, H.
  - rewrite upd_cons. rewrite get_cons in H. destruct (lookup l k) as [x|] eqn:L; [ | discriminate ].
    destruct x as [| | | | | |d|]; try discriminate. rewrite (IH _ _ H). apply assign_same, L.
Qed.
(** two writes, one of them over an option that is there *)
Lemma upd_twice : forall p f l c x, get l p = Some c -> f (Some x) = f (Some c) -> (exists y, f (Some c) = Some y) ->
  upd (upd l p (fun _ => Some x)) p f = upd l p f.
Proof.
  induction p as [|k p IH]; intros f l c x H F [y Y]; [ reflexivity | ]. destruct p as [|k' p].
  - cbn [upd get] in *. rewrite H, lookup_assign, F, Y. apply assign_assign.
  - rewrite get_cons in H. rewrite !(upd_cons l). destruct (lookup l k) as [z|] eqn:L; [ | discriminate ].
    destruct z as [| | | | | |d|]; try discriminate. rewrite upd_cons, lookup_assign, assign_assign.
    do 2 f_equal. apply (IH _ _ c); eauto.
Qed.
Lemma upd_comm : forall p q f l c x, get l p = Some c -> nodict c -> nodict x -> p <> q -> good f ->
  kindOf x = kindOf c -> x <> ONull -> c <> ONull ->
  upd (upd l p (fun _ => Some x)) q f = upd (upd l q f) p (fun _ => Some x).
Proof.
  induction p as [|k p IH]; intros q f l c x H NC NX NE G K N1 N2; [ discriminate | ].
  destruct q as [|k0 q]; [ reflexivity | ].
  destruct (list_eq_dec ascii_dec k k0) as [ <-|NK].
  - destruct p as [|k1 p].
    + cbn [get] in H. destruct q as [|k2 q]; [ congruence | ].
      rewrite upd_cons. cbn [upd]. rewrite lookup_assign. rewrite H.
      destruct c as [| | | | | |dc|]; try (exfalso; eapply NC; reflexivity); destruct x as [| | | | | |dx|]; try (exfalso; eapply NX; reflexivity); reflexivity.
    + rewrite get_cons in H. destruct (lookup l k) as [z|] eqn:L; [ | discriminate ].
      destruct z as [| | | | | |d|]; try discriminate.
      destruct q as [|k2 q].
      * rewrite upd_cons, L. cbn [upd]. rewrite lookup_assign, L, !(proj1 G). rewrite L. reflexivity.
      * rewrite (upd_cons l k k1), L, (upd_cons _ k k2), lookup_assign, assign_assign.
        rewrite (upd_cons l k k2), L, (upd_cons _ k k1), lookup_assign, assign_assign.
        do 2 f_equal. eapply IH; eauto. congruence.
  - (* different names *)
    assert (LP : exists z, lookup l k = Some z /\ forall l', lookup l' k = Some z -> exists w, upd l' (k :: p) (fun _ => Some x) = assign l' k w /\
        (forall l'', lookup l'' k = Some z -> upd l'' (k :: p) (fun _ => Some x) = assign l'' k w)).
    { destruct p as [|k1 p].
      - cbn [get] in H. exists c. split; [ assumption | ]. intros l' L'. exists x. cbn [upd]. split; [ reflexivity | intros; reflexivity ].
      - rewrite get_cons in H. destruct (lookup l k) as [z|] eqn:L; [ | discriminate ]. destruct z as [| | | | | |d|]; try discriminate.
        exists (ODict d). split; [ reflexivity | ]. intros l' L'. exists (ODict (upd d (k1 :: p) (fun _ => Some x))). split.
        + rewrite upd_cons, L'. reflexivity.
        + intros l'' L''. rewrite upd_cons, L''. reflexivity. }
    destruct LP as (z & Lz & W). destruct (W l Lz) as (w & W1 & W2). rewrite W1. clear W W1.
    assert (C : forall l' v, lookup l' k = Some z -> assign (assign l' k w) k0 v = assign (assign l' k0 v) k w).
    { induction l' as [|[ka va] l' IHl]; intros v L'; cbn [assign lookup] in *; [ discriminate | ].
      destruct (text_eqb ka k) eqn:Ek; destruct (text_eqb ka k0) eqn:Ek0; cbn [assign]; rewrite ?Ek, ?Ek0; try reflexivity.
      - apply teqP in Ek, Ek0. congruence.
      - f_equal. apply IHl, L'. }
    destruct q as [|k2 q].
    + cbn [upd]. rewrite lookup_assign_ne by congruence. destruct (f (lookup l k0)).
      * rewrite C by assumption. rewrite <- W2; [ reflexivity | rewrite lookup_assign_ne by congruence; assumption ].
      * rewrite <- (W2 l Lz). reflexivity.
    + rewrite !upd_cons. rewrite lookup_assign_ne by congruence. destruct (lookup l k0) as [u|].
      * destruct u; rewrite ?C by assumption; rewrite <- W2; try reflexivity; try assumption; rewrite lookup_assign_ne by congruence; assumption.
      * rewrite C by assumption. rewrite <- W2; [ reflexivity | rewrite lookup_assign_ne by congruence; assumption ].
Qed.
