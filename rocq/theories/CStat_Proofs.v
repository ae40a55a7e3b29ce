(** * CStat_Proofs *)
From Coq Require Import Ascii String List Bool Arith Lia DecimalString Decimal DecimalNat.
From Verif Require Import CStat_Model CStat_Spec.
Import ListNotations.

(** ** Dictionaries *)

Lemma dget_set_same : forall {A} k (v : A) d, dget k (dset k v d) = Some v.
Proof.
  intros A k v. induction d as [|[k' v'] d IH]; cbn [dset dget]; [rewrite String.eqb_refl; reflexivity|].
  destruct (String.eqb k k') eqn:E; cbn [dget].
  - rewrite String.eqb_refl. reflexivity.
  - rewrite E. exact IH.
Qed.

Lemma dget_set_other : forall {A} k k2 (v : A) d, k2 <> k -> dget k2 (dset k v d) = dget k2 d.
Proof.
  intros A k k2 v d N0. apply String.eqb_neq in N0.
  induction d as [|[k' v'] d IH]; cbn [dset dget]; [rewrite N0; reflexivity|].
  destruct (String.eqb k k') eqn:E; cbn [dget].
  - apply String.eqb_eq in E. subst k'. rewrite N0. reflexivity.
  - destruct (String.eqb k2 k'); [reflexivity|exact IH].
Qed.

Lemma dget_set : forall {A} k k2 (v : A) d,
  dget k2 (dset k v d) = if String.eqb k2 k then Some v else dget k2 d.
Proof.
  intros. destruct (String.eqb k2 k) eqn:E.
  - apply String.eqb_eq in E. subst. apply dget_set_same.
  - apply dget_set_other. apply String.eqb_neq. exact E.
Qed.

Lemma dget_none : forall {A} k (d : dict A), dget k d = None <-> ~ In k (map fst d).
Proof.
  intros A k d. induction d as [|[k' v'] d IH]; cbn [dget map fst In]; [tauto|].
  destruct (String.eqb k k') eqn:E.
  - apply String.eqb_eq in E. subst. split; [discriminate|]. intro H. destruct H. left. reflexivity.
  - apply String.eqb_neq in E. rewrite IH. split; [intros H [X|X]; [congruence|tauto]|tauto].
Qed.

Lemma dget_in : forall {A} k (v : A) d, dget k d = Some v -> In (k, v) d.
Proof.
  intros A k v d. induction d as [|[k' v'] d IH]; cbn [dget]; [discriminate|].
  destruct (String.eqb k k') eqn:E.
  - apply String.eqb_eq in E. subst. intro H. inversion H. left. reflexivity.
  - intro H. right. apply IH. exact H.
Qed.

Lemma in_dget : forall {A} k (v : A) d, NoDup (map fst d) -> In (k, v) d -> dget k d = Some v.
Proof.
  intros A k v d. induction d as [|[k' v'] d IH]; cbn [map fst]; intros N0 H; [destruct H|].
  inversion N0 as [|x y A1 B1]. subst. cbn [dget]. destruct H as [H|H].
  - inversion H. subst. rewrite String.eqb_refl. reflexivity.
  - destruct (String.eqb k k') eqn:E.
    + apply String.eqb_eq in E. subst. destruct A1. apply (in_map fst) in H. exact H.
    + apply IH; assumption.
Qed.

Lemma keys_set_in : forall {A} k (v : A) d, In k (map fst d) -> map fst (dset k v d) = map fst d.
Proof.
  intros A k v d. induction d as [|[k' v'] d IH]; cbn [map fst In]; intro H; [destruct H|].
  cbn [dset]. destruct (String.eqb k k') eqn:E.
  - apply String.eqb_eq in E. subst. reflexivity.
  - cbn [map fst]. f_equal. apply IH. destruct H as [H|H]; [|exact H].
    subst. rewrite String.eqb_refl in E. discriminate.
Qed.

Lemma set_new : forall {A} k (v : A) d, ~ In k (map fst d) -> dset k v d = d ++ [(k, v)].
Proof.
  intros A k v d. induction d as [|[k' v'] d IH]; cbn [map fst In]; intro H; [reflexivity|].
  cbn [dset]. destruct (String.eqb k k') eqn:E.
  - apply String.eqb_eq in E. subst. destruct H. left. reflexivity.
  - rewrite <- app_comm_cons. f_equal. apply IH. tauto.
Qed.

Lemma dget_remove_same : forall {A} k (d : dict A), NoDup (map fst d) -> dget k (dremove k d) = None.
Proof.
  intros A k d. induction d as [|[k' v'] d IH]; cbn [map fst dremove]; intro N0; [reflexivity|].
  inversion N0 as [|x y A1 B1]. subst. destruct (String.eqb k k') eqn:E.
  - apply String.eqb_eq in E. subst. apply dget_none. exact A1.
  - cbn [dget]. rewrite E. apply IH. exact B1.
Qed.

Lemma dget_remove_other : forall {A} k k2 (d : dict A), k2 <> k -> dget k2 (dremove k d) = dget k2 d.
Proof.
  intros A k k2 d N0. induction d as [|[k' v'] d IH]; cbn [dremove]; [reflexivity|].
  destruct (String.eqb k k') eqn:E.
  - apply String.eqb_eq in E. subst. cbn [dget]. apply String.eqb_neq in N0. rewrite N0. reflexivity.
  - cbn [dget]. destruct (String.eqb k2 k'); [reflexivity|exact IH].
Qed.

Fixpoint kremove (k : string) (l : list string) : list string :=
  match l with [] => [] | k' :: r => if String.eqb k k' then r else k' :: kremove k r end.

Lemma keys_remove : forall {A} k (d : dict A), map fst (dremove k d) = kremove k (map fst d).
Proof.
  intros A k d. induction d as [|[k' v'] d IH]; [reflexivity|]. cbn [dremove map fst kremove].
  destruct (String.eqb k k'); [reflexivity|]. cbn [map fst]. f_equal. exact IH.
Qed.

Lemma in_dremove : forall {A} x k (d : dict A), In x (dremove k d) -> In x d.
Proof.
  intros A x k d. induction d as [|[k' v'] d IH]; cbn [dremove]; [tauto|].
  destruct (String.eqb k k'); [right; assumption|]. intros [H|H]; [left; exact H|right; apply IH; exact H].
Qed.

Lemma in_kremove : forall x k l, In x (kremove k l) -> In x l.
Proof.
  intros x k l. induction l as [|k' l IH]; cbn [kremove]; [tauto|].
  destruct (String.eqb k k'); [right; assumption|]. intros [H|H]; [left; exact H|right; apply IH; exact H].
Qed.

Lemma nodup_kremove : forall k l, NoDup l -> NoDup (kremove k l).
Proof.
  intros k l N0. induction N0 as [|x l A B IH]; [constructor|]. cbn [kremove].
  destruct (String.eqb k x); [exact B|]. constructor; [|exact IH].
  intro H. apply A. apply in_kremove in H. exact H.
Qed.

Lemma nodup_snd_remove : forall k (d : dict string), NoDup (map snd d) -> NoDup (map snd (dremove k d)).
Proof.
  intros k d. induction d as [|[k' v'] d IH]; cbn [map snd dremove]; intro N0; [constructor|].
  inversion N0 as [|x y A B]. subst. destruct (String.eqb k k'); [exact B|].
  cbn [map snd]. constructor; [|apply IH; exact B].
  intro H. apply A. apply in_map_iff in H. destruct H as [z [E H]]. apply in_map_iff. exists z.
  split; [exact E|]. apply in_dremove in H. exact H.
Qed.

Lemma same_keys_get : forall {A B} k (d : dict A) (e : dict B), map fst d = map fst e ->
  (dget k d = None <-> dget k e = None).
Proof. intros A B k d e H. rewrite !dget_none, H. tauto. Qed.

Lemma dhas_get : forall {A} k (d : dict A), dhas k d = match dget k d with Some _ => true | None => false end.
Proof. reflexivity. Qed.

Lemma eqEnum_spec : forall v w, en_type v = en_type w -> eqEnum v w = String.eqb (en_value v) (en_value w).
Proof. intros v w E. unfold eqEnum. rewrite E, Nat.eqb_refl. reflexivity. Qed.

Lemma eqEnum_eq : forall v w, eqEnum v w = true -> v = w.
Proof.
  intros [a b] [c d] H. unfold eqEnum in H. apply andb_true_iff in H. cbn in H. destruct H as [H1 H2].
  apply Nat.eqb_eq in H1. apply String.eqb_eq in H2. subst. reflexivity.
Qed.

(** ** Component statuses *)

Record cinv (s : cont) : Prop := {
  ci_keys : map fst (statuses s) = map fst (messages s);
  ci_nodup : NoDup (map fst (statuses s));
  ci_named : ~ In ""%string (map fst (statuses s))
}.

Lemma cinv_empty : cinv empty.
Proof. constructor; [reflexivity|constructor|intros []]. Qed.

Lemma nodup_snoc : forall (l : list string) x, NoDup l -> ~ In x l -> NoDup (l ++ [x]).
Proof.
  intros l x N0 H. induction N0 as [|y l A B IH]; cbn [app].
  - constructor; [intros []|constructor].
  - constructor.
    + intro X. apply in_app_iff in X. destruct X as [X|[X|[]]]; [tauto|]. subst. destruct H. left. reflexivity.
    + apply IH. intro X. apply H. right. exact X.
Qed.

Lemma add_cases : forall n v m s, cinv s ->
  (addStatusWithMessage n v m s = (s, InvalidParameter) /\ n = ""%string) \/
  (addStatusWithMessage n v m s = (s, AlreadyExists) /\ n <> ""%string /\ dget n (statuses s) <> None) \/
  (addStatusWithMessage n v m s = (Cont (statuses s ++ [(n, v)]) (messages s ++ [(n, m)]), Success) /\
   n <> ""%string /\ dget n (statuses s) = None /\
   cinv (Cont (statuses s ++ [(n, v)]) (messages s ++ [(n, m)]))).
Proof.
  intros n v m s [K N0 E0]. unfold addStatusWithMessage. destruct (String.eqb n "") eqn:E.
  - left. apply String.eqb_eq in E. split; [reflexivity|exact E].
  - apply String.eqb_neq in E. rewrite dhas_get. destruct (dget n (statuses s)) eqn:G.
    + right. left. split; [reflexivity|]. split; [exact E|discriminate].
    + right. right. assert (A := proj1 (dget_none _ _) G). assert (B := A). rewrite K in B.
      rewrite (set_new _ _ _ A), (set_new _ _ _ B). split; [reflexivity|]. split; [exact E|].
      split; [reflexivity|]. constructor; cbn [statuses messages]; rewrite !map_app; cbn [map fst].
      * rewrite K. reflexivity.
      * apply nodup_snoc; assumption.
      * intro X. apply in_app_iff in X. destruct X as [X|[X|[]]]; [tauto|congruence].
Qed.

Lemma set_cases : forall n v m s, cinv s ->
  match setStatusWithMessage n v m s with
  | (s', k, e) =>
      cinv s' /\ k <> Thrown /\ k <> AlreadyExists /\
      match k with
      | Success =>
          n <> ""%string /\
          (exists v0 m0, dget n (statuses s) = Some v0 /\ dget n (messages s) = Some m0 /\
             en_type v = en_type v0 /\ (v <> v0 \/ m <> m0)) /\
          (forall x, dget x (statuses s') = if String.eqb x n then Some v else dget x (statuses s)) /\
          (forall x, dget x (messages s') = if String.eqb x n then Some m else dget x (messages s)) /\
          e = Some (changeEvent n v m)
      | _ => s' = s /\ e = None
      end
  end.
Proof.
  intros n v m s C. assert (C0 := C). destruct C as [K N0 E0]. unfold setStatusWithMessage.
  destruct (String.eqb n "") eqn:E; [split; [exact C0|split; [discriminate|split; [discriminate|split; reflexivity]]]|].
  apply String.eqb_neq in E.
  destruct (dget n (statuses s)) as [v0|] eqn:G;
    [|split; [exact C0|split; [discriminate|split; [discriminate|split; reflexivity]]]].
  destruct (dget n (messages s)) as [m0|] eqn:H;
    [|apply (same_keys_get n _ _ K) in H; rewrite H in G; discriminate G].
  destruct (en_type v =? en_type v0)%nat eqn:T; cbn [negb];
    [|split; [exact C0|split; [discriminate|split; [discriminate|split; reflexivity]]]].
  apply Nat.eqb_eq in T.
  destruct (eqEnum v v0 && String.eqb m0 m) eqn:Q;
    [split; [exact C0|split; [discriminate|split; [discriminate|split; reflexivity]]]|].
  assert (In1 : In n (map fst (statuses s))).
  { apply dget_in in G. apply (in_map fst) in G. exact G. }
  assert (In2 : In n (map fst (messages s))) by (rewrite <- K; exact In1).
  unfold storeStatus. destruct (eqEnum v v0) eqn:Qe.
  - apply eqEnum_eq in Qe. subst v0. cbn [andb] in Q. apply String.eqb_neq in Q.
    split; [|split; [discriminate|split; [discriminate|]]].
    + constructor; cbn [statuses messages]; [|exact N0|exact E0]. rewrite keys_set_in; assumption.
    + split; [exact E|]. split; [exists v, m0; repeat split; try assumption; right; congruence|].
      split; [|split; [|reflexivity]]; intro x; cbn [statuses messages].
      * destruct (String.eqb x n) eqn:X; [|reflexivity]. apply String.eqb_eq in X. subst x. exact G.
      * apply dget_set.
  - assert (Nv : v <> v0).
    { intro X. subst v0. unfold eqEnum in Qe. rewrite Nat.eqb_refl, String.eqb_refl in Qe. discriminate. }
    split; [|split; [discriminate|split; [discriminate|]]].
    + constructor; cbn [statuses messages].
      * rewrite keys_set_in by exact In1. destruct (String.eqb m0 m); [exact K|].
        rewrite keys_set_in; assumption.
      * rewrite keys_set_in; assumption.
      * rewrite keys_set_in; assumption.
    + split; [exact E|]. split; [exists v0, m0; repeat split; try assumption; left; exact Nv|].
      split; [|split; [|reflexivity]]; intro x; cbn [statuses messages].
      * apply dget_set.
      * destruct (String.eqb m0 m) eqn:M.
        -- apply String.eqb_eq in M. subst m0. destruct (String.eqb x n) eqn:X; [|reflexivity].
           apply String.eqb_eq in X. subst x. exact H.
        -- apply dget_set.
Qed.

Lemma dget_snoc : forall {A} k n (v : A) d, dget n d = None ->
  dget k (d ++ [(n, v)]) = if String.eqb k n then Some v else dget k d.
Proof.
  intros A k n v d G. assert (H := proj1 (dget_none _ _) G).
  rewrite <- (set_new n v d H). apply dget_set.
Qed.

Lemma step_inv : forall o s, cinv s -> cinv (fst (fst (step o s))).
Proof.
  assert (Ad : forall n v m s, cinv s -> cinv (fst (addStatusWithMessage n v m s))).
  { intros n v m s C. destruct (add_cases n v m s C) as [[E _]|[[E _]|[E [_ [_ C']]]]]; rewrite E; assumption. }
  assert (Se : forall n v m s, cinv s -> cinv (fst (fst (setStatusWithMessage n v m s)))).
  { intros n v m s C. assert (H := set_cases n v m s C).
    destruct (setStatusWithMessage n v m s) as [[s' k] e]. exact (proj1 H). }
  intros [n v|n v m|n v|n v m] s C; cbn [step fst].
  - apply Ad; exact C.
  - apply Ad; exact C.
  - apply Se; exact C.
  - apply Se; exact C.
Qed.

Lemma run_inv : forall l s, cinv s -> cinv (run l s).
Proof.
  induction l as [|o l IH]; intros s C; [exact C|]. cbn [run]. apply IH. apply step_inv. exact C.
Qed.

Lemma run_app : forall a b s, run (a ++ b) s = run b (run a s).
Proof. induction a as [|o a IH]; intros b s; [reflexivity|]. cbn [app run]. apply IH. Qed.

Lemma shows_none : forall s t n, shows s t -> dget n (statuses s) = None -> t n = None.
Proof.
  intros s t n H G. destruct (H n) as [A _]. unfold getStatus in A. rewrite G in A.
  destruct (t n); [discriminate A|reflexivity].
Qed.

Lemma shows_some : forall s t n v m, shows s t -> dget n (statuses s) = Some v -> dget n (messages s) = Some m ->
  t n = Some (v, m).
Proof.
  intros s t n v m H G1 G2. destruct (H n) as [A B]. unfold getStatus in A. unfold getStatusMessage in B.
  rewrite G1 in A. rewrite G2 in B. destruct (t n) as [[a b]|]; cbn in A, B; [|discriminate A].
  inversion A. inversion B. reflexivity.
Qed.

Lemma adds_refine : forall n v m s t, cinv s -> shows s t ->
  shows (fst (addStatusWithMessage n v m s)) (fst (adds n v m t)) /\
  snd (addStatusWithMessage n v m s) = snd (adds n v m t).
Proof.
  intros n v m s t C H. unfold adds.
  destruct (add_cases n v m s C) as [[E E1]|[[E [E1 E2]]|[E [E1 [E2 _]]]]]; rewrite E; cbn [fst snd].
  - rewrite E1. cbn. split; [exact H|reflexivity].
  - apply String.eqb_neq in E1. rewrite E1.
    destruct (dget n (statuses s)) as [v0|] eqn:G; [|destruct E2; reflexivity].
    destruct (H n) as [A _]. unfold getStatus in A. rewrite G in A.
    destruct (t n); [|discriminate A]. split; [exact H|reflexivity].
  - assert (T := shows_none s t n H E2). apply String.eqb_neq in E1. rewrite E1, T.
    cbn [fst snd]. split; [|reflexivity]. intro x. destruct (H x) as [A B].
    unfold getStatus, getStatusMessage in *. cbn [statuses messages]. unfold put.
    assert (E3 : dget n (messages s) = None) by (apply (same_keys_get n _ _ (ci_keys s C)); exact E2).
    rewrite (dget_snoc x n v _ E2), (dget_snoc x n m _ E3).
    destruct (String.eqb x n); [split; reflexivity|split; assumption].
Qed.

Lemma sets_refine : forall n v m s t, cinv s -> shows s t ->
  shows (fst (fst (setStatusWithMessage n v m s))) (fst (sets n v m t)) /\
  snd (fst (setStatusWithMessage n v m s)) = snd (sets n v m t).
Proof.
  intros n v m s t C H. unfold sets, setStatusWithMessage.
  destruct (String.eqb n "") eqn:E; [split; [exact H|reflexivity]|].
  destruct (dget n (statuses s)) as [v0|] eqn:G.
  - destruct (dget n (messages s)) as [m0|] eqn:G2;
      [|apply (same_keys_get n _ _ (ci_keys s C)) in G2; rewrite G2 in G; discriminate G].
    rewrite (shows_some s t n v0 m0 H G G2).
    destruct (en_type v =? en_type v0)%nat eqn:T; cbn [negb]; [|split; [exact H|reflexivity]].
    assert (Q : eqEnum v v0 && String.eqb m0 m = String.eqb (en_value v) (en_value v0) && String.eqb m m0).
    { unfold eqEnum. rewrite T. cbn [andb]. f_equal. apply String.eqb_sym. }
    assert (SC := set_cases n v m s C). unfold setStatusWithMessage in SC. rewrite E, G, G2, T in SC. cbn [negb] in SC.
    rewrite Q in SC |- *.
    destruct (String.eqb (en_value v) (en_value v0) && String.eqb m m0); [split; [exact H|reflexivity]|].
    destruct SC as [_ [_ [_ [_ [_ [R1 [R2 _]]]]]]]. cbn [fst snd]. split; [|reflexivity].
    intro x. destruct (H x) as [A B]. unfold getStatus, getStatusMessage in *. unfold put.
    rewrite R1, R2. destruct (String.eqb x n); [split; reflexivity|split; assumption].
  - rewrite (shows_none s t n H G). split; [exact H|reflexivity].
Qed.

Lemma step_refine : forall o s t, cinv s -> shows s t ->
  shows (fst (fst (step o s))) (fst (act o t)) /\ snd (fst (step o s)) = snd (act o t).
Proof.
  intros [n v|n v m|n v|n v m] s t C H; cbn [step act fst snd].
  - apply adds_refine; assumption.
  - apply adds_refine; assumption.
  - apply sets_refine; assumption.
  - apply sets_refine; assumption.
Qed.

Lemma run_refine : forall l s t, cinv s -> shows s t -> shows (run l s) (acts l t).
Proof.
  induction l as [|o l IH]; intros s t C H; [exact H|]. cbn [run acts].
  apply IH; [apply step_inv; exact C|]. exact (proj1 (step_refine o s t C H)).
Qed.

(** *** Reading back *)

Lemma addAll_spec : forall l d s,
  cinv s -> NoDup (map fst l) -> ~ In ""%string (map fst l) ->
  (forall n, In n (map fst l) -> dget n (statuses s) = None) ->
  (forall n, In n (map fst l) -> dget n d <> None) ->
  exists s', addAll l (Some d) s = Some s' /\ cinv s' /\
    (forall x, dget x (statuses s') = match dget x l with Some v => Some v | None => dget x (statuses s) end) /\
    (forall x, dget x (messages s') = match dget x l with Some _ => dget x d | None => dget x (messages s) end).
Proof.
  induction l as [|[n v] l IH]; intros d s C N0 E0 D M; cbn [map fst] in *.
  - exists s. cbn [addAll dget]. split; [reflexivity|]. split; [exact C|]. split; reflexivity.
  - cbn [addAll]. inversion N0 as [|x y A B]. subst.
    destruct (dget n d) as [m|] eqn:Gm; [|destruct (M n (or_introl eq_refl)); exact Gm].
    destruct (add_cases n v m s C) as [[E E1]|[[E [E1 E2]]|[E [E1 [E2 C']]]]].
    + destruct E0. left. exact E1.
    + destruct E2. apply D. left. reflexivity.
    + rewrite E. destruct (IH d _ C' B) as [s' [F [Cs [R1 R2]]]].
      * intro X. apply E0. right. exact X.
      * intros x X. cbn [statuses]. rewrite (dget_snoc x n v _ E2).
        destruct (String.eqb x n) eqn:Q; [apply String.eqb_eq in Q; subst; contradiction|].
        apply D. right. exact X.
      * intros x X. apply M. right. exact X.
      * exists s'. split; [exact F|]. split; [exact Cs|]. cbn [statuses messages] in R1, R2.
        assert (E3 : dget n (messages s) = None) by (apply (same_keys_get n _ _ (ci_keys s C)); exact E2).
        split; intro x; cbn [dget].
        -- rewrite R1, (dget_snoc x n v _ E2). destruct (String.eqb x n) eqn:Q; [|reflexivity].
           apply String.eqb_eq in Q. subst x. rewrite (proj2 (dget_none n l) A). reflexivity.
        -- rewrite R2, (dget_snoc x n m _ E3). destruct (String.eqb x n) eqn:Q; [|reflexivity].
           apply String.eqb_eq in Q. subst x. rewrite (proj2 (dget_none n l) A). symmetry. exact Gm.
Qed.

Lemma addAll_old : forall l s,
  cinv s -> NoDup (map fst l) -> ~ In ""%string (map fst l) ->
  (forall n, In n (map fst l) -> dget n (statuses s) = None) ->
  exists s', addAll l None s = Some s' /\ cinv s' /\
    (forall x, dget x (statuses s') = match dget x l with Some v => Some v | None => dget x (statuses s) end) /\
    (forall x, dget x (messages s') = match dget x l with Some _ => Some ""%string | None => dget x (messages s) end).
Proof.
  induction l as [|[n v] l IH]; intros s C N0 E0 D; cbn [map fst] in *.
  - exists s. cbn [addAll dget]. split; [reflexivity|]. split; [exact C|]. split; reflexivity.
  - cbn [addAll]. unfold addStatus. inversion N0 as [|x y A B]. subst.
    destruct (add_cases n v "" s C) as [[E E1]|[[E [E1 E2]]|[E [E1 [E2 C']]]]].
    + destruct E0. left. exact E1.
    + destruct E2. apply D. left. reflexivity.
    + rewrite E. destruct (IH _ C' B) as [s' [F [Cs [R1 R2]]]].
      * intro X. apply E0. right. exact X.
      * intros x X. cbn [statuses]. rewrite (dget_snoc x n v _ E2).
        destruct (String.eqb x n) eqn:Q; [apply String.eqb_eq in Q; subst; contradiction|].
        apply D. right. exact X.
      * exists s'. split; [exact F|]. split; [exact Cs|]. cbn [statuses messages] in R1, R2.
        assert (E3 : dget n (messages s) = None) by (apply (same_keys_get n _ _ (ci_keys s C)); exact E2).
        split; intro x; cbn [dget].
        -- rewrite R1, (dget_snoc x n v _ E2). destruct (String.eqb x n) eqn:Q; [|reflexivity].
           apply String.eqb_eq in Q. subst x. rewrite (proj2 (dget_none n l) A). reflexivity.
        -- rewrite R2, (dget_snoc x n _ _ E3). destruct (String.eqb x n) eqn:Q; [|reflexivity].
           apply String.eqb_eq in Q. subst x. rewrite (proj2 (dget_none n l) A). reflexivity.
Qed.

Lemma roundtrip : forall s, cinv s -> exists s', deserialize (serialize s) = Some s' /\ cinv s' /\ alike s s'.
Proof.
  intros s C. unfold deserialize, serialize. cbn [w_statuses w_messages].
  destruct (addAll_spec (statuses s) (messages s) empty cinv_empty (ci_nodup s C) (ci_named s C)) as [s' [E [C' [R1 R2]]]].
  - reflexivity.
  - intros n X Y. apply dget_none in Y. apply Y. rewrite <- (ci_keys s C). exact X.
  - exists s'. split; [exact E|]. split; [exact C'|]. intro n. unfold getStatus, getStatusMessage.
    rewrite R1, R2. cbn [empty statuses messages dget].
    assert (K := same_keys_get n _ _ (ci_keys s C)).
    destruct (dget n (statuses s)) as [v|]; [split; reflexivity|].
    split; [reflexivity|]. apply (proj1 K). reflexivity.
Qed.

(** *** Clients *)

Lemma alike_get : forall a b n, alike a b ->
  dget n (statuses a) = dget n (statuses b) /\ dget n (messages a) = dget n (messages b).
Proof. intros a b n H. exact (H n). Qed.

(** The client does with the event of a successful set what the server did. *)
Lemma client_set : forall n v m s c, cinv s -> cinv c -> alike s c -> n <> "Message"%string ->
  match setStatusWithMessage n v m s with
  | (s', Success, Some e) =>
      exists c', statusChanged e c = (c', Success) /\ cinv c' /\ alike s' c'
  | (s', _, e) => s' = s /\ e = None
  end.
Proof.
  intros n v m s c Cs Cc H Nm. assert (SC := set_cases n v m s Cs).
  destruct (setStatusWithMessage n v m s) as [[s' k] e] eqn:ES.
  destruct SC as [_ [_ [_ SC]]]. destruct k; try exact SC.
  destruct SC as [Nn [[v0 [m0 [G1 [G2 [T D]]]]] [R1 [R2 Ee]]]]. subst e.
  assert (SCc := set_cases n v m c Cc).
  destruct (setStatusWithMessage n v m c) as [[c' kc] ec] eqn:EC.
  assert (Kc : kc = Success).
  { unfold setStatusWithMessage in EC, ES. destruct (String.eqb n ""); [inversion ES|].
    destruct (alike_get s c n H) as [A B]. rewrite <- A, <- B, G1, G2 in EC. rewrite G1, G2 in ES.
    destruct (negb (en_type v =? en_type v0)%nat); [inversion ES|].
    destruct (eqEnum v v0 && String.eqb m0 m); [inversion ES|]. inversion EC. reflexivity. }
  subst kc. destruct SCc as [Cc' [_ [_ [_ [_ [Q1 [Q2 _]]]]]]].
  exists c'. split; [|split; [exact Cc'|]].
  - unfold statusChanged, changeEvent. apply String.eqb_neq in Nm. cbn [dset].
    rewrite String.eqb_sym in Nm. rewrite Nm. cbn [dget]. rewrite Nm, String.eqb_refl.
    cbn [applyParams]. rewrite EC. reflexivity.
  - intro x. unfold getStatus, getStatusMessage. rewrite R1, R2, Q1, Q2.
    destruct (alike_get s c x H) as [A B]. rewrite A, B. split; reflexivity.
Qed.

Lemma updateAll_spec : forall l ms known c,
  cinv c -> NoDup (map fst l) -> ~ In ""%string (map fst l) ->
  (forall n, In n (map fst l) -> dhas n known = dhas n (statuses c)) ->
  (forall n v w, dget n l = Some v -> dget n (statuses c) = Some w -> en_type v = en_type w) ->
  (forall n, In n (map fst l) -> dget n ms <> None) ->
  exists c', updateAll l ms known c = (c', Success) /\ cinv c' /\
    (forall x, dget x (statuses c') = match dget x l with Some v => Some v | None => dget x (statuses c) end) /\
    (forall x, dget x (messages c') = match dget x l with Some _ => dget x ms | None => dget x (messages c) end).
Proof.
  induction l as [|[n v] l IH]; intros ms known c C N0 E0 Kn T M; cbn [map fst] in *.
  - exists c. cbn [updateAll dget]. split; [reflexivity|]. split; [exact C|]. split; reflexivity.
  - cbn [updateAll]. inversion N0 as [|x y A B]. subst.
    destruct (dget n ms) as [m|] eqn:Gm; [|destruct (M n (or_introl eq_refl)); exact Gm].
    assert (Nn : n <> ""%string) by (intro X; apply E0; left; exact X).
    assert (Go : forall c1, cinv c1 ->
      (forall x, dget x (statuses c1) = if String.eqb x n then Some v else dget x (statuses c)) ->
      (forall x, dget x (messages c1) = if String.eqb x n then Some m else dget x (messages c)) ->
      exists c', updateAll l ms known c1 = (c', Success) /\ cinv c' /\
        (forall x, dget x (statuses c') = match dget x ((n, v) :: l) with Some v => Some v | None => dget x (statuses c) end) /\
        (forall x, dget x (messages c') = match dget x ((n, v) :: l) with Some _ => dget x ms | None => dget x (messages c) end)).
    { intros c1 C1 S1 S2. destruct (IH ms known c1 C1 B) as [c' [F [C' [R1 R2]]]].
      - intro X. apply E0. right. exact X.
      - intros x X. rewrite (Kn x (or_intror X)). unfold dhas. rewrite S1.
        destruct (String.eqb x n) eqn:Q; [apply String.eqb_eq in Q; subst; contradiction|]. reflexivity.
      - intros x a w Ga Gw. rewrite S1 in Gw. destruct (String.eqb x n) eqn:Q.
        + apply String.eqb_eq in Q. subst x. rewrite (proj2 (dget_none n l) A) in Ga. discriminate Ga.
        + apply (T x a w); [cbn [dget]; rewrite Q; exact Ga|exact Gw].
      - intros x X. apply M. right. exact X.
      - exists c'. split; [exact F|]. split; [exact C'|]. split; intro x; cbn [dget].
        + rewrite R1, S1. destruct (String.eqb x n) eqn:Q; [|reflexivity].
          apply String.eqb_eq in Q. subst x. rewrite (proj2 (dget_none n l) A). reflexivity.
        + rewrite R2, S2. destruct (String.eqb x n) eqn:Q; [|reflexivity].
          apply String.eqb_eq in Q. subst x. rewrite (proj2 (dget_none n l) A). symmetry. exact Gm. }
    rewrite (Kn n (or_introl eq_refl)). unfold dhas. destruct (dget n (statuses c)) as [w|] eqn:Gw.
    + assert (SC := set_cases n v m c C).
      destruct (setStatusWithMessage n v m c) as [[c1 k] e] eqn:ES.
      destruct SC as [C1 [K1 [K2 SC]]].
      assert (Kk : k = Success \/ (k = Ignored /\ w = v /\ dget n (messages c) = Some m)).
      { unfold setStatusWithMessage in ES. destruct (String.eqb n "") eqn:Q; [apply String.eqb_eq in Q; contradiction|].
        rewrite Gw in ES. destruct (dget n (messages c)) as [m0|] eqn:Gm0; [|inversion ES; subst; congruence].
        assert (Ty : en_type v = en_type w).
        { apply (T n v w); [cbn [dget]; rewrite String.eqb_refl; reflexivity|exact Gw]. }
        rewrite Ty, Nat.eqb_refl in ES. cbn [negb] in ES.
        destruct (eqEnum v w && String.eqb m0 m) eqn:Z; inversion ES; subst; [right|left; reflexivity].
        apply andb_true_iff in Z. destruct Z as [Z1 Z2]. apply eqEnum_eq in Z1. apply String.eqb_eq in Z2. subst.
        split; [reflexivity|]. split; reflexivity. }
      destruct Kk as [Kk|[Kk [Kw Km]]]; subst k.
      * destruct SC as [_ [_ [S1 [S2 _]]]]. apply Go; assumption.
      * destruct SC as [Sc _]. subst c1 w. apply Go; [exact C| |].
        -- intro x. destruct (String.eqb x n) eqn:Q; [|reflexivity]. apply String.eqb_eq in Q. subst. exact Gw.
        -- intro x. destruct (String.eqb x n) eqn:Q; [|reflexivity]. apply String.eqb_eq in Q. subst. exact Km.
    + destruct (add_cases n v m c C) as [[E E1]|[[E [E1 E2]]|[E [E1 [E2 C']]]]].
      * contradiction.
      * destruct E2. exact Gw.
      * rewrite E. apply Go; [exact C'| |].
        -- intro x. apply dget_snoc. exact E2.
        -- intro x. apply dget_snoc. apply (same_keys_get n _ _ (ci_keys c C)). exact E2.
Qed.

(** ** Connection statuses *)

Fixpoint afterU (s : string) : option string :=
  match s with
  | EmptyString => None
  | String a r => match afterU r with
                  | Some x => Some x
                  | None => if Ascii.eqb a "_"%char then Some r else None
                  end
  end.

Fixpoint noU (s : string) : bool :=
  match s with EmptyString => true | String a r => negb (Ascii.eqb a "_"%char) && noU r end.

Lemma noU_after : forall s, noU s = true -> afterU s = None.
Proof.
  induction s as [|a s IH]; intro H; [reflexivity|]. cbn [noU] in H. apply andb_true_iff in H.
  destruct H as [H1 H2]. cbn [afterU]. rewrite (IH H2). destruct (Ascii.eqb a "_"%char); [discriminate|reflexivity].
Qed.

Lemma after_app : forall p d, noU d = true -> afterU (p ++ String "_"%char d) = Some d.
Proof.
  intros p d H. induction p as [|a p IH]; cbn [append afterU].
  - rewrite (noU_after d H). reflexivity.
  - rewrite IH. reflexivity.
Qed.

Lemma noU_uint : forall u, noU (NilEmpty.string_of_uint u) = true.
Proof. induction u; cbn; try reflexivity; assumption. Qed.

Lemma noU_decimal : forall n, noU (decimal n) = true.
Proof.
  intro n. unfold decimal, NilZero.string_of_uint. destruct (Nat.to_uint n) eqn:E; [reflexivity| | | | | | | | | |];
    apply (noU_uint (_ u)).
Qed.

Lemma to_uint_nonnil : forall n, Nat.to_uint n <> Nil.
Proof.
  assert (L : forall n d, d <> Nil -> Nat.to_little_uint n d <> Nil).
  { induction n as [|n IH]; intros d H; [exact H|]. apply IH. destruct d; try discriminate. }
  intros n H. rewrite Unsigned.to_uint_alt, Unsigned.to_lu_equiv in H.
  apply (f_equal rev) in H. rewrite DecimalFacts.rev_rev in H. cbn in H.
  revert H. apply L. discriminate.
Qed.

Lemma decimal_inj : forall a b, decimal a = decimal b -> a = b.
Proof.
  intros a b H. unfold decimal in H. apply (f_equal NilZero.uint_of_string) in H.
  rewrite !NilZero.usu in H by apply to_uint_nonnil.
  inversion H as [H1]. apply Unsigned.to_uint_inj. exact H1.
Qed.

Definition numbered (a : string) (n : nat) : Prop := afterU a = Some (decimal n).

Lemma numbered_inj : forall a n m, numbered a n -> numbered a m -> n = m.
Proof. unfold numbered. intros a n m A B. rewrite A in B. inversion B. apply decimal_inj. assumption. Qed.

Lemma alias_numbered : forall types c n, numbered (streamingAlias types c n) n.
Proof.
  induction types as [|[t p] types IH]; intros c n; cbn [streamingAlias].
  - apply (after_app "StreamingStatus" (decimal n)). apply noU_decimal.
  - destruct (starts p c); [|apply IH]. unfold numbered.
    assert (E : forall x y z : string, (x ++ y ++ z)%string = ((x ++ y) ++ z)%string).
    { induction x as [|ch x IHx]; intros y z; [reflexivity|]. cbn [append]. rewrite IHx. reflexivity. }
    change ("StreamingStatus_" ++ t ++ "_" ++ decimal n)%string
      with ("StreamingStatus_" ++ (t ++ String "_"%char (decimal n)))%string.
    rewrite E. apply after_app. apply noU_decimal.
Qed.

Lemma config_not_numbered : forall n, ~ numbered configAlias n.
Proof. intros n H. vm_compute in H. discriminate H. Qed.

Lemma alias_not_empty : forall a n, numbered a n -> a <> ""%string.
Proof. intros a n H E. subst a. discriminate H. Qed.

Record kinv (s : conn) : Prop := {
  k_sm : map fst (c_statuses s) = map fst (c_messages s);
  k_sa : map fst (c_statuses s) = map fst (c_aliases s);
  k_nd : NoDup (map fst (c_statuses s));
  k_named : ~ In ""%string (map fst (c_statuses s));
  k_al : NoDup (map snd (c_aliases s));
  k_num : forall c a, In (c, a) (c_aliases s) ->
    (a = configAlias /\ c_config s = true) \/ (exists n, n <= c_counter s /\ numbered a n)
}.

Lemma kinv_none : kinv noConn.
Proof.
  constructor; cbn; try reflexivity; try constructor; try tauto.
Qed.

Lemma kinv_add : forall s c v m a n cfg,
  kinv s -> c <> ""%string -> dget c (c_statuses s) = None ->
  ~ In a (map snd (c_aliases s)) -> c_counter s <= n -> (c_config s = true -> cfg = true) ->
  ((a = configAlias /\ cfg = true) \/ exists k, k <= n /\ numbered a k) ->
  kinv (Conn (dset c v (c_statuses s)) (dset c m (c_messages s)) (dset c a (c_aliases s)) n cfg).
Proof.
  intros s c v m a n cfg [A1 A2 A3 A4 A5 A6] Nc G Na Ln Cc Ha.
  assert (I1 := proj1 (dget_none _ _) G). assert (I2 := I1). rewrite A1 in I2. assert (I3 := I1). rewrite A2 in I3.
  rewrite (set_new _ _ _ I1), (set_new _ _ _ I2), (set_new _ _ _ I3).
  constructor; cbn [c_statuses c_messages c_aliases c_counter c_config]; rewrite ?map_app; cbn [map fst snd].
  - rewrite A1. reflexivity.
  - rewrite A2. reflexivity.
  - apply nodup_snoc; assumption.
  - intro X. apply in_app_iff in X. destruct X as [X|[X|[]]]; [tauto|congruence].
  - apply nodup_snoc; assumption.
  - intros c0 a0 X. apply in_app_iff in X. destruct X as [X|[X|[]]].
    + destruct (A6 c0 a0 X) as [[B1 B2]|[k [B1 B2]]]; [left; tauto|].
      right. exists k. split; [lia|exact B2].
    + inversion X. subst. exact Ha.
Qed.

Lemma new_alias : forall s a, kinv s -> numbered a (S (c_counter s)) -> ~ In a (map snd (c_aliases s)).
Proof.
  intros s a K H X. apply in_map_iff in X. destruct X as [[c a0] [E X]]. cbn in E. subst a0.
  destruct (k_num s K c a X) as [[B1 B2]|[k [B1 B2]]].
  - subst a. exact (config_not_numbered _ H).
  - assert (Q := numbered_inj a _ _ H B2). lia.
Qed.

Lemma no_config : forall s, kinv s -> c_config s = false -> ~ In configAlias (map snd (c_aliases s)).
Proof.
  intros s K F X. apply in_map_iff in X. destruct X as [[c a0] [E X]]. cbn in E. subst a0.
  destruct (k_num s K c _ X) as [[B1 B2]|[k [B1 B2]]]; [congruence|exact (config_not_numbered _ B2)].
Qed.

(** What each call does, on a settled container. *)
Lemma addConf_cases : forall c v s, kinv s ->
  match addConfiguration c v s with
  | (s', Success, e) =>
      kinv s' /\ c <> ""%string /\ c_config s = false /\ dget c (c_statuses s) = None /\
      s' = Conn (c_statuses s ++ [(c, v)]) (c_messages s ++ [(c, ""%string)])
                (c_aliases s ++ [(c, configAlias)]) (c_counter s) true /\
      e = Some (CEvent (Some configAlias) v c Configuration (Some ""%string))
  | (s', k, e) => s' = s /\ e = None /\ (k = InvalidParameter \/ k = AlreadyExists)
  end.
Proof.
  intros c v s K. unfold addConfiguration. destruct (String.eqb c "") eqn:E; [repeat split; left; reflexivity|].
  apply String.eqb_neq in E. destruct (c_config s) eqn:F; [repeat split; right; reflexivity|].
  cbn [orb]. rewrite dhas_get. destruct (dget c (c_statuses s)) eqn:G; [repeat split; right; reflexivity|].
  cbn [orb]. rewrite dhas_get.
  assert (G2 : dget c (c_messages s) = None) by (apply (same_keys_get c _ _ (k_sm s K)); exact G).
  rewrite G2.
  assert (I1 := proj1 (dget_none _ _) G). assert (I2 := I1). rewrite (k_sm s K) in I2.
  assert (I3 := I1). rewrite (k_sa s K) in I3.
  split; [|split; [exact E|split; [reflexivity|split; [reflexivity|split; [|reflexivity]]]]].
  - apply kinv_add; try assumption.
    + apply no_config; assumption.
    + lia.
    + intros _. reflexivity.
    + left. split; reflexivity.
  - rewrite (set_new _ _ _ I1), (set_new _ _ _ I2), (set_new _ _ _ I3). reflexivity.
Qed.

Lemma addStr_cases : forall t c v s, kinv s ->
  match addStreaming t c v s with
  | (s', Success, e) =>
      let a := streamingAlias t c (S (c_counter s)) in
      kinv s' /\ c <> ""%string /\ dget c (c_statuses s) = None /\
      s' = Conn (c_statuses s ++ [(c, v)]) (c_messages s ++ [(c, ""%string)])
                (c_aliases s ++ [(c, a)]) (S (c_counter s)) (c_config s) /\
      e = Some (CEvent (Some a) v c Streaming (Some ""%string))
  | (s', k, e) => s' = s /\ e = None /\ (k = InvalidParameter \/ k = AlreadyExists)
  end.
Proof.
  intros t c v s K. unfold addStreaming. destruct (String.eqb c "") eqn:E; [repeat split; left; reflexivity|].
  apply String.eqb_neq in E. rewrite dhas_get.
  destruct (dget c (c_statuses s)) eqn:G; [repeat split; right; reflexivity|].
  cbn [orb]. rewrite dhas_get.
  assert (G2 : dget c (c_messages s) = None) by (apply (same_keys_get c _ _ (k_sm s K)); exact G).
  rewrite G2.
  assert (I1 := proj1 (dget_none _ _) G). assert (I2 := I1). rewrite (k_sm s K) in I2.
  assert (I3 := I1). rewrite (k_sa s K) in I3. cbv zeta.
  assert (Nu := alias_numbered t c (S (c_counter s))).
  split; [|split; [exact E|split; [reflexivity|split; [|reflexivity]]]].
  - apply kinv_add; try assumption.
    + apply new_alias; assumption.
    + lia.
    + tauto.
    + right. exists (S (c_counter s)). split; [lia|exact Nu].
  - rewrite (set_new _ _ _ I1), (set_new _ _ _ I2), (set_new _ _ _ I3). reflexivity.
Qed.

Definition without (c : string) (s : conn) : conn :=
  Conn (dremove c (c_statuses s)) (dremove c (c_messages s)) (dremove c (c_aliases s)) (c_counter s) (c_config s).

Lemma kinv_without : forall c s, kinv s -> kinv (without c s).
Proof.
  intros c s [A1 A2 A3 A4 A5 A6]. constructor; cbn [without c_statuses c_messages c_aliases c_counter c_config].
  - rewrite !keys_remove, A1. reflexivity.
  - rewrite !keys_remove, A2. reflexivity.
  - rewrite keys_remove. apply nodup_kremove. exact A3.
  - rewrite keys_remove. intro X. apply in_kremove in X. tauto.
  - apply nodup_snd_remove. exact A5.
  - intros c0 a X. apply in_dremove in X. exact (A6 c0 a X).
Qed.

Lemma remove_cases : forall kn c s, kinv s ->
  match removeStreaming kn c s with
  | (s', k, e) =>
      kinv s' /\
      match k with
      | Success => exists v a, dget c (c_statuses s) = Some v /\ dget c (c_aliases s) = Some a /\ s' = without c s /\
                     e = Some (CEvent (Some a) (Enum (en_type v) "Removed") c Streaming None)
      | Thrown => exists v, dget c (c_statuses s) = Some v /\ kn (en_type v) = false /\ s' = without c s /\ e = None
      | NotFound => s' = s /\ e = None /\ dget c (c_statuses s) = None
      | _ => False
      end
  end.
Proof.
  intros kn c s K. unfold removeStreaming. destruct (dget c (c_statuses s)) as [v|] eqn:G.
  - destruct (dget c (c_messages s)) as [m|] eqn:G2;
      [|apply (same_keys_get c _ _ (k_sm s K)) in G2; rewrite G2 in G; discriminate G].
    destruct (dget c (c_aliases s)) as [a|] eqn:G3;
      [|apply (same_keys_get c _ _ (k_sa s K)) in G3; rewrite G3 in G; discriminate G].
    destruct (kn (en_type v)) eqn:Kn; (split; [apply kinv_without; exact K|]).
    + exists v, a. repeat split.
    + exists v. repeat split; assumption.
  - split; [exact K|]. repeat split.
Qed.

Lemma update_cases : forall c v m s, kinv s ->
  match updateConnection c v m s with
  | (s', k, e) =>
      kinv s' /\
      match k with
      | Success => exists v0 m0 a, dget c (c_statuses s) = Some v0 /\ dget c (c_messages s) = Some m0 /\
                     dget c (c_aliases s) = Some a /\
                     en_type v = en_type v0 /\ (v <> v0 \/ m <> m0) /\
                     s' = Conn (dset c v (c_statuses s)) (dset c m (c_messages s)) (c_aliases s) (c_counter s) (c_config s) /\
                     e = Some (CEvent (Some a) v c (if String.eqb a configAlias then Configuration else Streaming) (Some m))
      | Ignored => s' = s /\ e = None /\ dget c (c_statuses s) = Some v /\ dget c (c_messages s) = Some m
      | InvalidType => s' = s /\ e = None /\ exists v0, dget c (c_statuses s) = Some v0 /\ en_type v <> en_type v0
      | NotFound => s' = s /\ e = None /\ dget c (c_statuses s) = None
      | InvalidParameter => s' = s /\ e = None /\ c = ""%string
      | _ => False
      end
  end.
Proof.
  intros c v m s K. unfold updateConnection. destruct (String.eqb c "") eqn:E.
  - split; [exact K|]. apply String.eqb_eq in E. repeat split. exact E.
  - destruct (dget c (c_statuses s)) as [v0|] eqn:G; [|split; [exact K|repeat split]].
    destruct (dget c (c_messages s)) as [m0|] eqn:G2;
      [|apply (same_keys_get c _ _ (k_sm s K)) in G2; rewrite G2 in G; discriminate G].
    destruct (dget c (c_aliases s)) as [a|] eqn:G3;
      [|apply (same_keys_get c _ _ (k_sa s K)) in G3; rewrite G3 in G; discriminate G].
    destruct (en_type v =? en_type v0)%nat eqn:T; cbn [negb].
    + apply Nat.eqb_eq in T. destruct (eqEnum v v0 && String.eqb m0 m) eqn:Q.
      * apply andb_true_iff in Q. destruct Q as [Q1 Q2]. apply eqEnum_eq in Q1. apply String.eqb_eq in Q2. subst.
        split; [exact K|repeat split].
      * assert (In1 : In c (map fst (c_statuses s))) by (apply dget_in in G; apply (in_map fst) in G; exact G).
        split.
        -- destruct K as [A1 A2 A3 A4 A5 A6].
           constructor; cbn [c_statuses c_messages c_aliases c_counter c_config]; try assumption.
           ++ rewrite keys_set_in by exact In1. rewrite keys_set_in by (rewrite <- A1; exact In1). exact A1.
           ++ rewrite keys_set_in by exact In1. exact A2.
           ++ rewrite keys_set_in; assumption.
           ++ rewrite keys_set_in; assumption.
        -- exists v0, m0, a. split; [reflexivity|]. split; [reflexivity|]. split; [reflexivity|].
           split; [exact T|]. split; [|split; reflexivity].
           destruct (eqEnum v v0) eqn:Qe.
           ++ right. intro X. subst m0. rewrite String.eqb_refl in Q. discriminate Q.
           ++ left. intro X. subst v0. unfold eqEnum in Qe. rewrite Nat.eqb_refl, String.eqb_refl in Qe. discriminate Qe.
    + apply Nat.eqb_neq in T. split; [exact K|]. split; [reflexivity|]. split; [reflexivity|].
      exists v0. split; [reflexivity|exact T].
Qed.

Lemma cstep_inv : forall kn o s, kinv s -> kinv (fst (fst (cstep kn o s))).
Proof.
  intros kn [c v|t c v|c|c v m] s K; cbn [cstep].
  - assert (H := addConf_cases c v s K). destruct (addConfiguration c v s) as [[s' k] e].
    destruct k; cbn [fst]; try (destruct H as [H _]; subst; exact K). exact (proj1 H).
  - assert (H := addStr_cases t c v s K). destruct (addStreaming t c v s) as [[s' k] e].
    destruct k; cbn [fst]; try (destruct H as [H _]; subst; exact K). exact (proj1 H).
  - assert (H := remove_cases kn c s K). destruct (removeStreaming kn c s) as [[s' k] e]. exact (proj1 H).
  - assert (H := update_cases c v m s K). destruct (updateConnection c v m s) as [[s' k] e]. exact (proj1 H).
Qed.

Lemma crun_inv : forall kn l s, kinv s -> kinv (crun kn l s).
Proof.
  induction l as [|o l IH]; intros s K; [exact K|]. cbn [crun]. apply IH. apply cstep_inv. exact K.
Qed.

Lemma crun_app : forall kn a b s, crun kn (a ++ b) s = crun kn b (crun kn a s).
Proof. induction a as [|o a IH]; intros b s; [reflexivity|]. cbn [app crun]. apply IH. Qed.

Lemma byAlias_in : forall {A} al c a (d : dict A) v,
  NoDup (map snd al) -> In (c, a) al -> dget c d = Some v -> byAlias al a d = Some v.
Proof.
  intros A al c a d v. induction al as [|[c0 a0] al IH]; cbn [map snd]; intros N0 H G; [destruct H|].
  inversion N0 as [|x y A1 B1]. subst. cbn [byAlias]. destruct H as [H|H].
  - inversion H. subst. rewrite String.eqb_refl, G. reflexivity.
  - destruct (String.eqb a0 a) eqn:E.
    + apply String.eqb_eq in E. subst. destruct A1. apply (in_map snd) in H. exact H.
    + apply IH; assumption.
Qed.

Lemma byAlias_out : forall {A} al a (d : dict A), ~ In a (map snd al) -> byAlias al a d = None.
Proof.
  intros A al a d. induction al as [|[c0 a0] al IH]; cbn [map snd In byAlias]; intro H; [reflexivity|].
  destruct (String.eqb a0 a) eqn:E; [apply String.eqb_eq in E; tauto|]. apply IH. tauto.
Qed.

(** Connection [c] is known under [a] with value and message [cur]. *)
Definition known (s : conn) (c a : string) (cur : enum * string) : Prop :=
  dget c (c_aliases s) = Some a /\ dget c (c_statuses s) = Some (fst cur) /\ dget c (c_messages s) = Some (snd cur).

Lemma known_reads : forall s c a cur, kinv s -> a <> ""%string -> known s c a cur ->
  cGetStatus s a = Some (fst cur) /\ cGetMessage s a = Some (snd cur).
Proof.
  intros s c a cur K Na [H1 [H2 H3]]. apply dget_in in H1.
  unfold cGetStatus, cGetMessage. apply String.eqb_neq in Na. rewrite Na.
  split; eapply byAlias_in; try exact H1; try (exact (k_al s K)); assumption.
Qed.

Lemma dget_snoc_old : forall {A} k n (v x : A) d, dget k d = Some x -> dget k (d ++ [(n, v)]) = Some x.
Proof.
  intros A k n v x d. induction d as [|[k' v'] d IH]; [discriminate|].
  rewrite <- app_comm_cons. cbn [dget]. destruct (String.eqb k k'); [tauto|exact IH].
Qed.

Lemma known_step : forall kn o s c a cur, kinv s -> known s c a cur -> o <> RemoveStreaming c ->
  known (fst (fst (cstep kn o s))) c a (track c cur [o]).
Proof.
  intros kn [c0 v|t c0 v|c0|c0 v m] s c a cur K H N0; cbn [cstep track].
  - assert (Q := addConf_cases c0 v s K). destruct (addConfiguration c0 v s) as [[s' k] e].
    destruct k; cbn [fst]; try (destruct Q as [Q _]; subst; exact H).
    destruct Q as [_ [_ [_ [_ [Q _]]]]]. subst s'. destruct H as [H1 [H2 H3]].
    split; [|split]; cbn; apply dget_snoc_old; assumption.
  - assert (Q := addStr_cases t c0 v s K). destruct (addStreaming t c0 v s) as [[s' k] e].
    destruct k; cbn [fst]; try (destruct Q as [Q _]; subst; exact H).
    cbv zeta in Q. destruct Q as [_ [_ [_ [Q _]]]]. subst s'. destruct H as [H1 [H2 H3]].
    split; [|split]; cbn; apply dget_snoc_old; assumption.
  - assert (Nc : c <> c0) by congruence.
    assert (Q := remove_cases kn c0 s K). destruct (removeStreaming kn c0 s) as [[s' k] e].
    destruct Q as [_ Q]. cbn [fst].
    assert (W : known (without c0 s) c a cur).
    { destruct H as [H1 [H2 H3]]. split; [|split]; cbn; rewrite dget_remove_other by exact Nc; assumption. }
    destruct k; try contradiction.
    + destruct Q as [v0 [a0 [_ [_ [Q _]]]]]. subst s'. exact W.
    + destruct Q as [Q _]. subst s'. exact H.
    + destruct Q as [v0 [_ [_ [Q _]]]]. subst s'. exact W.
  - assert (Q := update_cases c0 v m s K). destruct (updateConnection c0 v m s) as [[s' k] e].
    destruct Q as [_ Q]. cbn [fst].
    destruct (String.eqb c0 c) eqn:Ec.
    + apply String.eqb_eq in Ec. subst c0. cbn [andb]. destruct H as [H1 [H2 H3]].
      destruct k; try contradiction.
      * destruct Q as [v0 [m0 [a0 [G1 [G2 [G3 [T [_ [Q _]]]]]]]]]. rewrite H2 in G1. inversion G1. subst v0.
        rewrite T, Nat.eqb_refl. subst s'. split; [|split]; cbn [c_aliases c_statuses c_messages fst snd]; [exact H1| |];
          apply dget_set_same.
      * destruct Q as [Q [_ [G1 G2]]]. subst s'. rewrite H2 in G1. rewrite H3 in G2. inversion G1. inversion G2.
        subst v m. rewrite Nat.eqb_refl. split; [exact H1|]. split; assumption.
      * destruct Q as [Q [_ X]]. subst s' c. exfalso. apply (k_named s K).
        apply dget_in in H2. apply (in_map fst) in H2. exact H2.
      * destruct Q as [_ [_ X]]. rewrite X in H2. discriminate H2.
      * destruct Q as [Q [_ [v0 [G1 T]]]]. rewrite H2 in G1. inversion G1. subst v0. subst s'.
        apply Nat.eqb_neq in T. rewrite T. split; [exact H1|]. split; assumption.
    + cbn [andb]. apply String.eqb_neq in Ec.
      destruct k; try contradiction; try (destruct Q as [Q _]; subst s'; exact H).
      destruct Q as [v0 [m0 [a0 [G1 [G2 [G3 [T [_ [Q _]]]]]]]]]. subst s'.
      destruct H as [H1 [H2 H3]]. split; [|split]; cbn [c_aliases c_statuses c_messages]; [exact H1| |];
        rewrite dget_set_other by congruence; assumption.
Qed.

Lemma track_app : forall c l1 l2 cur, track c cur (l1 ++ l2) = track c (track c cur l1) l2.
Proof.
  intros c. induction l1 as [|o l1 IH]; intros l2 cur; [reflexivity|].
  rewrite <- app_comm_cons. destruct o; cbn [track]; try apply IH.
  destruct (String.eqb c0 c && Nat.eqb (en_type v) (en_type (fst cur))); apply IH.
Qed.

Lemma known_run : forall kn l s c a cur, kinv s -> known s c a cur -> ~ In (RemoveStreaming c) l ->
  known (crun kn l s) c a (track c cur l).
Proof.
  induction l as [|o l IH]; intros s c a cur K H N0; [exact H|].
  change (o :: l) with ([o] ++ l). rewrite track_app. cbn [app crun].
  apply IH; [apply cstep_inv; exact K| |intro X; apply N0; right; exact X].
  apply known_step; [exact K|exact H|]. intro X. subst. apply N0. left. reflexivity.
Qed.

(** A number that was given out and is not in use is never used again. *)
Definition spent (s : conn) (a : string) : Prop :=
  (exists n, n <= c_counter s /\ numbered a n) /\ ~ In a (map snd (c_aliases s)).

Lemma spent_step : forall kn o s a, kinv s -> spent s a -> spent (fst (fst (cstep kn o s))) a.
Proof.
  intros kn [c0 v|t c0 v|c0|c0 v m] s a K [[n [Ln Nu]] Na]; cbn [cstep].
  - assert (Q := addConf_cases c0 v s K). destruct (addConfiguration c0 v s) as [[s' k] e].
    destruct k; cbn [fst]; try (destruct Q as [Q _]; subst; split; [exists n; split; assumption|exact Na]).
    destruct Q as [_ [_ [_ [_ [Q _]]]]]. subst s'. split; [exists n; split; assumption|].
    cbn [c_aliases]. rewrite map_app. intro X. apply in_app_iff in X. destruct X as [X|[X|[]]]; [tauto|].
    cbn in X. subst a. exact (config_not_numbered _ Nu).
  - assert (Q := addStr_cases t c0 v s K). destruct (addStreaming t c0 v s) as [[s' k] e].
    destruct k; cbn [fst]; try (destruct Q as [Q _]; subst; split; [exists n; split; assumption|exact Na]).
    cbv zeta in Q. destruct Q as [_ [_ [_ [Q _]]]]. subst s'. split; [exists n; cbn; split; [lia|assumption]|].
    cbn [c_aliases]. rewrite map_app. intro X. apply in_app_iff in X. destruct X as [X|[X|[]]]; [tauto|].
    cbn [snd] in X. assert (Z := alias_numbered t c0 (S (c_counter s))). rewrite X in Z.
    assert (Y := numbered_inj a _ _ Nu Z). lia.
  - assert (Q := remove_cases kn c0 s K). destruct (removeStreaming kn c0 s) as [[s' k] e].
    destruct Q as [_ Q]. cbn [fst].
    assert (W : spent (without c0 s) a).
    { split; [exists n; split; assumption|]. cbn [without c_aliases]. intro X. apply Na.
      apply in_map_iff in X. destruct X as [z [E X]]. apply in_map_iff. exists z. split; [exact E|].
      apply in_dremove in X. exact X. }
    destruct k; try contradiction.
    + destruct Q as [v0 [a0 [_ [_ [Q _]]]]]. subst s'. exact W.
    + destruct Q as [Q _]. subst s'. split; [exists n; split; assumption|exact Na].
    + destruct Q as [v0 [_ [_ [Q _]]]]. subst s'. exact W.
  - assert (Q := update_cases c0 v m s K). destruct (updateConnection c0 v m s) as [[s' k] e].
    destruct Q as [_ Q]. cbn [fst].
    destruct k; try contradiction; try (destruct Q as [Q _]; subst s'; split; [exists n; split; assumption|exact Na]).
    destruct Q as [v0 [m0 [a0 [_ [_ [_ [_ [_ [Q _]]]]]]]]]. subst s'. split; [exists n; split; assumption|exact Na].
Qed.

Lemma spent_run : forall kn l s a, kinv s -> spent s a -> spent (crun kn l s) a.
Proof.
  induction l as [|o l IH]; intros s a K H; [exact H|]. cbn [crun].
  apply IH; [apply cstep_inv; exact K|apply spent_step; assumption].
Qed.

Lemma spent_reads : forall s a, spent s a -> cGetStatus s a = None /\ cGetMessage s a = None.
Proof.
  intros s a [[n [_ Nu]] Na]. unfold cGetStatus, cGetMessage.
  assert (E := alias_not_empty a n Nu). apply String.eqb_neq in E. rewrite E.
  split; apply byAlias_out; exact Na.
Qed.

Lemma removed_gone : forall s c a, kinv s -> dget c (c_aliases s) = Some a ->
  ~ In a (map snd (c_aliases (without c s))).
Proof.
  intros s c a K G. assert (I0 := dget_in _ _ _ G).
  cbn [without c_aliases]. intro X. apply in_map_iff in X. destruct X as [[c1 a1] [E X]]. cbn in E. subst a1.
  assert (X1 := in_dremove _ _ _ X).
  assert (Nk : NoDup (map fst (c_aliases s))) by (rewrite <- (k_sa s K); exact (k_nd s K)).
  destruct (String.eqb c1 c) eqn:Ec.
  - apply String.eqb_eq in Ec. subst c1.
    assert (Y := dget_remove_same c (c_aliases s) Nk). apply dget_none in Y. apply Y.
    apply (in_map fst) in X. exact X.
  - apply String.eqb_neq in Ec.
    assert (Al := k_al s K). clear -Al I0 X1 Ec.
    induction (c_aliases s) as [|[k0 a0] d IH]; [destruct I0|].
    cbn [map snd] in Al. inversion Al as [|x y A B]. subst.
    destruct I0 as [I0|I0]; destruct X1 as [X1|X1].
    + inversion I0. inversion X1. congruence.
    + inversion I0. subst. apply A. apply (in_map snd) in X1. exact X1.
    + inversion X1. subst. apply A. apply (in_map snd) in I0. exact I0.
    + apply IH; assumption.
Qed.

Lemma removed_spent : forall s c a, kinv s -> dget c (c_aliases s) = Some a -> a <> configAlias ->
  spent (without c s) a.
Proof.
  intros s c a K G Na. split; [|apply removed_gone; assumption].
  destruct (k_num s K c a (dget_in _ _ _ G)) as [[B _]|[n B]]; [contradiction|]. exists n. exact B.
Qed.

(** A name that was given out is never given out again. *)
Definition used (s : conn) (a : string) : Prop :=
  (a = configAlias /\ c_config s = true) \/ exists n, n <= c_counter s /\ numbered a n.

Lemma grows : forall kn o s, kinv s ->
  c_counter s <= c_counter (fst (fst (cstep kn o s))) /\
  (c_config s = true -> c_config (fst (fst (cstep kn o s))) = true).
Proof.
  intros kn [c0 v|t c0 v|c0|c0 v m] s K; cbn [cstep].
  - assert (Q := addConf_cases c0 v s K). destruct (addConfiguration c0 v s) as [[s' k] e].
    destruct k; cbn [fst]; try (destruct Q as [Q _]; subst; split; [lia|tauto]).
    destruct Q as [_ [_ [_ [_ [Q _]]]]]. subst s'. cbn. split; [lia|tauto].
  - assert (Q := addStr_cases t c0 v s K). destruct (addStreaming t c0 v s) as [[s' k] e].
    destruct k; cbn [fst]; try (destruct Q as [Q _]; subst; split; [lia|tauto]).
    cbv zeta in Q. destruct Q as [_ [_ [_ [Q _]]]]. subst s'. cbn [c_counter c_config]. split; [lia|tauto].
  - assert (Q := remove_cases kn c0 s K). destruct (removeStreaming kn c0 s) as [[s' k] e].
    destruct Q as [_ Q]. cbn [fst]. destruct k; try contradiction.
    + destruct Q as [v0 [a0 [_ [_ [Q _]]]]]. subst s'. cbn. split; [lia|tauto].
    + destruct Q as [Q _]. subst s'. split; [lia|tauto].
    + destruct Q as [v0 [_ [_ [Q _]]]]. subst s'. cbn. split; [lia|tauto].
  - assert (Q := update_cases c0 v m s K). destruct (updateConnection c0 v m s) as [[s' k] e].
    destruct Q as [_ Q]. cbn [fst].
    destruct k; try contradiction; try (destruct Q as [Q _]; subst s'; split; [lia|tauto]).
    destruct Q as [v0 [m0 [a0 [_ [_ [_ [_ [_ [Q _]]]]]]]]]. subst s'. cbn [c_counter c_config]. split; [lia|tauto].
Qed.

Lemma grows_run : forall kn l s, kinv s ->
  c_counter s <= c_counter (crun kn l s) /\ (c_config s = true -> c_config (crun kn l s) = true).
Proof.
  induction l as [|o l IH]; intros s K; [split; [cbn; lia|tauto]|]. cbn [crun].
  destruct (grows kn o s K) as [A B]. destruct (IH _ (cstep_inv kn o s K)) as [C D].
  split; [lia|]. intro H. apply D. apply B. exact H.
Qed.

Lemma used_run : forall kn l s a, kinv s -> used s a -> used (crun kn l s) a.
Proof.
  intros kn l s a K [[E H]|[n [L H]]]; destruct (grows_run kn l s K) as [A B].
  - left. split; [exact E|]. apply B. exact H.
  - right. exists n. split; [lia|exact H].
Qed.

(** What an announcement means. *)
Lemma announced : forall kn l o c v a, announces kn l o c v a ->
  let s := cafter kn l in let s' := fst (fst (cstep kn o s)) in
  kinv s' /\ known s' c a (v, ""%string) /\ used s' a /\ ~ used s a /\ a <> ""%string /\
  dget c (c_statuses s) = None /\ (a = configAlias <-> o = AddConfiguration c v).
Proof.
  intros kn l o c v a [Ho [R [p E]]]. cbv zeta. unfold creply in R. unfold cemits in E.
  assert (K : kinv (cafter kn l)) by (apply crun_inv; apply kinv_none).
  set (s := cafter kn l) in *. destruct Ho as [[t Ho]|Ho]; subst o; cbn [cstep] in *.
  - assert (Q := addStr_cases t c v s K). destruct (addStreaming t c v s) as [[s' k] e].
    cbn [fst snd] in *. subst k. cbv zeta in Q. destruct Q as [K' [Nc [G [Es Ee]]]]. rewrite E in Ee.
    injection Ee as H0 _. assert (Nu := alias_numbered t c (S (c_counter s))). rewrite <- H0 in Nu.
    assert (G2 : dget c (c_messages s) = None) by (apply (same_keys_get c _ _ (k_sm s K)); exact G).
    assert (G3 : dget c (c_aliases s) = None) by (apply (same_keys_get c _ _ (k_sa s K)); exact G).
    split; [exact K'|]. split; [|split; [|split; [|split; [|split]]]].
    + rewrite Es, <- H0. split; [|split]; cbn [c_aliases c_statuses c_messages fst snd]; rewrite dget_snoc by assumption;
        rewrite String.eqb_refl; reflexivity.
    + right. exists (S (c_counter s)). rewrite Es. split; [cbn; lia|exact Nu].
    + intros [[X _]|[n [X Y]]].
      * subst a. rewrite X in Nu. exact (config_not_numbered _ Nu).
      * assert (Z := numbered_inj a _ _ Nu Y). lia.
    + exact (alias_not_empty a _ Nu).
    + exact G.
    + split; [|discriminate]. intro X. rewrite X in Nu. destruct (config_not_numbered _ Nu).
  - assert (Q := addConf_cases c v s K). destruct (addConfiguration c v s) as [[s' k] e].
    cbn [fst snd] in *. subst k. destruct Q as [K' [Nc [Fc [G [Es Ee]]]]]. rewrite E in Ee. injection Ee as H0 _. subst a.
    assert (G2 : dget c (c_messages s) = None) by (apply (same_keys_get c _ _ (k_sm s K)); exact G).
    assert (G3 : dget c (c_aliases s) = None) by (apply (same_keys_get c _ _ (k_sa s K)); exact G).
    split; [exact K'|]. split; [|split; [|split; [|split; [|split]]]].
    + rewrite Es. split; [|split]; cbn [c_aliases c_statuses c_messages fst snd]; rewrite dget_snoc by assumption;
        rewrite String.eqb_refl; reflexivity.
    + left. rewrite Es. split; reflexivity.
    + intros [[_ X]|[n [X Y]]]; [rewrite Fc in X; discriminate X|exact (config_not_numbered _ Y)].
    + discriminate.
    + exact G.
    + split; reflexivity.
Qed.

Lemma cafter_cons : forall kn l o l2, cafter kn (l ++ o :: l2) = crun kn l2 (fst (fst (cstep kn o (cafter kn l)))).
Proof. intros. unfold cafter. rewrite crun_app. reflexivity. Qed.

(** *** Reading back *)
Lemma restore_spec : forall al st ms,
  (forall c a, In (c, a) al -> c <> ""%string /\ dget c st <> None /\ dget c ms <> None) ->
  (byAlias al configAlias st = None /\ byAlias al configAlias ms = None /\ restoreConfig al st ms noConn = Some noConn) \/
  (exists c v m, byAlias al configAlias st = Some v /\ byAlias al configAlias ms = Some m /\
     restoreConfig al st ms noConn = Some (Conn [(c, v)] [(c, m)] [(c, configAlias)] 0 true)).
Proof.
  induction al as [|[c a] al IH]; intros st ms H; [left; repeat split|].
  cbn [byAlias restoreConfig]. destruct (String.eqb a configAlias) eqn:E.
  - right. destruct (H c a (or_introl eq_refl)) as [Nc [G1 G2]].
    destruct (dget c st) as [v|]; [|destruct G1; reflexivity].
    destruct (dget c ms) as [m|]; [|destruct G2; reflexivity].
    exists c, v, m. split; [reflexivity|]. split; [reflexivity|].
    apply String.eqb_neq in Nc. unfold addConfiguration, updateConnection, noConn. rewrite Nc.
    cbn [c_config c_statuses c_messages c_aliases c_counter dhas dget orb dset]. rewrite !String.eqb_refl, Nat.eqb_refl.
    cbn [negb]. unfold eqEnum. rewrite Nat.eqb_refl, String.eqb_refl. cbn [andb].
    destruct (String.eqb "" m) eqn:Em; [|reflexivity].
    apply String.eqb_eq in Em. subst m. reflexivity.
  - apply IH. intros c0 a0 X. apply (H c0 a0). right. exact X.
Qed.
