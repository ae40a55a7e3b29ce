(** * DInfo_Proofs: lemmas for C68 *)
From Coq Require Import String List Bool Arith Lia.
From Verif Require Import DInfo_Model DInfo_Spec.
Import ListNotations.
Open Scope string_scope.
Open Scope nat_scope.
Open Scope list_scope.

Lemma find_put : forall A n (a b : A) l, find n l = Some b -> find n (put n a l) = Some a.
Proof.
  induction l as [|[k c] l IH]; intro H; [discriminate|]. cbn [find put] in *. destruct (String.eqb k n) eqn:E; cbn [find]; rewrite E; [reflexivity|].
  apply IH. exact H.
Qed.

Lemma find_put_other : forall A m n (a : A) l, m <> n -> find m (put n a l) = find m l.
Proof.
  induction l as [|[k c] l IH]; intro H; [reflexivity|]. cbn [find put]. destruct (String.eqb_spec k n) as [->|E]; cbn [find].
  - destruct (String.eqb_spec n m) as [X|X]; [congruence|reflexivity].
  - destruct (String.eqb k m); [reflexivity|]. apply IH. exact H.
Qed.

Lemma find_put_some : forall A m n (a : A) l x, find m l = Some x -> exists y, find m (put n a l) = Some y.
Proof.
  intros A m n a l x H. destruct (string_dec m n) as [->|E]; [exists a; apply (find_put _ n a x); exact H|].
  exists x. rewrite find_put_other by exact E. exact H.
Qed.

Lemma find_snoc : forall A m n (a : A) l, find m (l ++ [(n, a)]) = match find m l with Some x => Some x | None => if String.eqb n m then Some a else None end.
Proof.
  induction l as [|[k c] l IH]; [reflexivity|]. rewrite <- app_comm_cons. cbn [find]. destruct (String.eqb k m); [reflexivity|exact IH].
Qed.

(** Which properties are read only. *)
Definition flag (n : string) (l : list (string * prop)) : option bool := option_map ro (find n l).

Lemma flag_put : forall m n p v l, find n l = Some p -> flag m (put n (P (ro p) v) l) = flag m l.
Proof.
  intros m n p v l H. unfold flag. destruct (string_dec m n) as [->|E].
  - rewrite (find_put _ n _ p _ H), H. reflexivity.
  - rewrite find_put_other by exact E. reflexivity.
Qed.

Lemma readOnly_flag : forall n s, readOnly n s <-> flag n (inf s) = Some true.
Proof.
  intros n s. unfold readOnly, flag. destruct (find n (inf s)) as [[r v]|]; cbn [option_map ro]; split.
  - intros [w E]. injection E as -> _. reflexivity.
  - intro E. injection E as ->. exists v. reflexivity.
  - intros [w E]. discriminate.
  - discriminate.
Qed.

Lemma writable_flag : forall n s, writable n s <-> flag n (inf s) = Some false.
Proof.
  intros n s. unfold writable, flag. destruct (find n (inf s)) as [[r v]|]; cbn [option_map ro]; split.
  - intros [w E]. injection E as -> _. reflexivity.
  - intro E. injection E as ->. exists v. reflexivity.
  - intros [w E]. discriminate.
  - discriminate.
Qed.

Lemma localSet_flag : forall p n v s m, flag m (inf (fst (localSet p n v s))) = flag m (inf s).
Proof.
  intros p n v s m. unfold localSet. destruct (find n (inf s)) as [q|] eqn:F; [|reflexivity].
  destruct (ro q && negb p); [reflexivity|]. cbn [fst withInf inf]. apply flag_put. exact F.
Qed.

Lemma devSet_inf : forall n v s, inf (fst (devSet n v s)) = inf s.
Proof. intros n v s. unfold devSet. destruct (find n (dprops s)); reflexivity. Qed.

Lemma set_flag : forall n v s m, flag m (inf (fst (set n v s))) = flag m (inf s).
Proof. intros n v s m. unfold set. destruct (ofOwner n s); [rewrite devSet_inf; reflexivity|apply localSet_flag]. Qed.

Lemma setProtected_flag : forall n v s m, flag m (inf (fst (setProtected n v s))) = flag m (inf s).
Proof. intros n v s m. unfold setProtected. destruct (ofOwner n s); [rewrite devSet_inf; reflexivity|apply localSet_flag]. Qed.

Lemma devSetName_flag : forall v s m, flag m (inf (fst (devSetName v s))) = flag m (inf s).
Proof.
  intros v s m. unfold devSetName. assert (X := setProtected_flag "name" v s m). destruct (setProtected "name" v s) as [s1 [| | |]]; try exact X.
  destruct (String.eqb (dname s1) v); [exact X|]. destruct (locked s1); exact X.
Qed.

Lemma share_inf : forall n s, inf (share n s) = inf s.
Proof.
  intros n s. unfold share. destruct (find n (inf s)) as [p|]; [|reflexivity]. destruct (ro p); [reflexivity|].
  destruct (find n (dprops s)); reflexivity.
Qed.

Lemma load_flag : forall l s m, flag m (inf (load l s)) = flag m (inf s).
Proof.
  induction l as [|[n v] l IH]; intros s m; [reflexivity|]. cbn [load]. rewrite IH.
  destruct (find n (inf s)) as [p|]; [|reflexivity]. destruct (ro p); [reflexivity|apply setProtected_flag].
Qed.

Lemma step_flag : forall p s m, flag m (inf (fst (step p s))) = flag m (inf s).
Proof.
  intros [n v|n v|v|v|n v|b| |l] s m; cbn [step].
  - unfold setter. destruct (owned s); [apply set_flag|apply localSet_flag].
  - apply set_flag.
  - unfold setName. destruct (owned s); [apply devSetName_flag|apply localSet_flag].
  - apply devSetName_flag.
  - rewrite devSet_inf. reflexivity.
  - reflexivity.
  - unfold attach. destruct (owned s); [reflexivity|]. cbv zeta. cbn [fst]. rewrite !share_inf, setProtected_flag. reflexivity.
  - cbn [fst]. apply load_flag.
Qed.

Lemma run_flag : forall l s m, flag m (inf (run l s)) = flag m (inf s).
Proof. induction l as [|p l IH]; intros s m; [reflexivity|]. cbn [run]. rewrite IH. apply step_flag. Qed.

(** Keys never change. *)
Lemma put_keys : forall A n (a : A) l, map fst (put n a l) = map fst l.
Proof.
  induction l as [|[k c] l IH]; [reflexivity|]. cbn [put]. destruct (String.eqb k n); [reflexivity|]. cbn [map fst]. rewrite IH. reflexivity.
Qed.

(** What a write does to the other parts. *)
Lemma setProtected_frame : forall n v s,
  dname (fst (setProtected n v s)) = dname s /\ locked (fst (setProtected n v s)) = locked s /\ owned (fst (setProtected n v s)) = owned s.
Proof.
  intros n v s. unfold setProtected, devSet, localSet. destruct (ofOwner n s).
  - destruct (find n (dprops s)); repeat split.
  - destruct (find n (inf s)) as [p|]; [|repeat split]. destruct (ro p && negb true); repeat split.
Qed.

Lemma set_frame : forall n v s,
  dname (fst (set n v s)) = dname s /\ locked (fst (set n v s)) = locked s /\ owned (fst (set n v s)) = owned s.
Proof.
  intros n v s. unfold set, devSet, localSet. destruct (ofOwner n s).
  - destruct (find n (dprops s)); repeat split.
  - destruct (find n (inf s)) as [p|]; [|repeat split]. destruct (ro p && negb false); repeat split.
Qed.

Lemma devSet_frame : forall n v s,
  dname (fst (devSet n v s)) = dname s /\ locked (fst (devSet n v s)) = locked s /\ owned (fst (devSet n v s)) = owned s.
Proof. intros n v s. unfold devSet. destruct (find n (dprops s)); repeat split. Qed.

Lemma share_frame : forall n s, dname (share n s) = dname s /\ locked (share n s) = locked s /\ owned (share n s) = owned s.
Proof.
  intros n s. unfold share. destruct (find n (inf s)) as [p|]; [|repeat split]. destruct (ro p); [repeat split|].
  destruct (find n (dprops s)); repeat split.
Qed.

Lemma load_frame : forall l s, dname (load l s) = dname s /\ locked (load l s) = locked s /\ owned (load l s) = owned s.
Proof.
  induction l as [|[n v] l IH]; intro s; [repeat split|]. cbn [load].
  destruct (find n (inf s)) as [p|]; [|apply IH]. destruct (ro p); [apply IH|].
  destruct (IH (fst (setProtected n v s))) as [A [B C]], (setProtected_frame n v s) as [A2 [B2 C2]]. rewrite A, B, C. repeat split; assumption.
Qed.

(** The properties of the device never vanish. *)
Lemma devSet_has : forall n v s m, deviceHas m s -> deviceHas m (fst (devSet n v s)).
Proof.
  intros n v s m [x H]. unfold devSet. destruct (find n (dprops s)); [|exists x; exact H]. unfold deviceHas. cbn [fst withDev dprops]. apply (find_put_some _ m n v _ x H).
Qed.

Lemma localSet_dprops : forall p n v s, dprops (fst (localSet p n v s)) = dprops s.
Proof. intros p n v s. unfold localSet. destruct (find n (inf s)) as [q|]; [|reflexivity]. destruct (ro q && negb p); reflexivity. Qed.

Lemma setProtected_has : forall n v s m, deviceHas m s -> deviceHas m (fst (setProtected n v s)).
Proof.
  intros n v s m H. unfold setProtected. destruct (ofOwner n s); [apply devSet_has; exact H|]. unfold deviceHas. rewrite localSet_dprops. exact H.
Qed.

Lemma set_has : forall n v s m, deviceHas m s -> deviceHas m (fst (set n v s)).
Proof.
  intros n v s m H. unfold set. destruct (ofOwner n s); [apply devSet_has; exact H|]. unfold deviceHas. rewrite localSet_dprops. exact H.
Qed.

Lemma share_has : forall n s m, deviceHas m s -> deviceHas m (share n s).
Proof.
  intros n s m [x H]. unfold share. destruct (find n (inf s)) as [p|]; [|exists x; exact H]. destruct (ro p); [exists x; exact H|].
  destruct (find n (dprops s)); [exists x; exact H|]. exists x. cbn [withDev dprops]. rewrite find_snoc, H. reflexivity.
Qed.

Lemma load_has : forall l s m, deviceHas m s -> deviceHas m (load l s).
Proof.
  induction l as [|[n v] l IH]; intros s m H; [exact H|]. cbn [load]. apply IH.
  destruct (find n (inf s)) as [p|]; [|exact H]. destruct (ro p); [exact H|apply setProtected_has; exact H].
Qed.

Lemma share_gives : forall n s, writable n s -> deviceHas n (share n s).
Proof.
  intros n s [v H]. unfold share. rewrite H. cbn [ro]. destruct (find n (dprops s)) as [x|] eqn:F; [exists x; exact F|].
  eexists. cbn [withDev dprops]. rewrite find_snoc, F, String.eqb_refl. reflexivity.
Qed.

Definition linked (s : st) : Prop := owned s = true -> forall n, common n -> writable n s -> deviceHas n s.

Lemma writable_same : forall n s s', (forall m, flag m (inf s') = flag m (inf s)) -> writable n s' -> writable n s.
Proof. intros n s s' E H. apply writable_flag. apply writable_flag in H. rewrite <- E. exact H. Qed.

Lemma devSetName_frame : forall v s, owned (fst (devSetName v s)) = owned s /\ locked (fst (devSetName v s)) = locked s.
Proof.
  intros v s. unfold devSetName. destruct (setProtected_frame "name" v s) as [_ [B C]]. destruct (setProtected "name" v s) as [s1 r]. cbn [fst] in *.
  destruct r; try (split; assumption). destruct (String.eqb (dname s1) v); [split; assumption|]. destruct (locked s1) eqn:L; cbn [fst owned locked]; split; congruence.
Qed.

Lemma devSetName_has : forall v s m, deviceHas m s -> deviceHas m (fst (devSetName v s)).
Proof.
  intros v s m H. assert (X := setProtected_has "name" v s m H). unfold devSetName. destruct (setProtected "name" v s) as [s1 r]. cbn [fst] in X.
  destruct r; try exact X. destruct (String.eqb (dname s1) v); [exact X|]. destruct (locked s1); exact X.
Qed.

Lemma linked_step : forall p s, linked s -> linked (fst (step p s)).
Proof.
  intros p s H O n C W. assert (W0 := writable_same n s _ (step_flag p s) W).
  destruct p as [k v|k v|v|v|k v|b| |l]; cbn [step] in O |- *.
  - unfold setter in *. destruct (owned s) eqn:Os.
    + apply set_has. apply H; assumption.
    + exfalso. unfold localSet in O. destruct (find k (inf s)) as [q|]; [|cbn [fst] in O; congruence]. destruct (ro q && negb true); cbn [fst withInf owned] in O; congruence.
  - rewrite (proj2 (proj2 (set_frame k v s))) in O. apply set_has. apply H; assumption.
  - unfold setName in *. destruct (owned s) eqn:Os.
    + apply devSetName_has. apply H; assumption.
    + exfalso. unfold localSet in O. destruct (find "name" (inf s)) as [q|]; [|cbn [fst] in O; congruence]. destruct (ro q && negb true); cbn [fst withInf owned] in O; congruence.
  - rewrite (proj1 (devSetName_frame v s)) in O. apply devSetName_has. apply H; assumption.
  - rewrite (proj2 (proj2 (devSet_frame k v s))) in O. apply devSet_has. apply H; assumption.
  - apply H; assumption.
  - unfold attach in *. destruct (owned s) eqn:Os; [apply H; assumption|]. cbv zeta in *. cbn [fst] in *.
    set (s1 := St (dname s) (locked s) (dprops s) (inf s) true) in *. set (s2 := fst (setProtected "name" (dname s1) s1)) in *.
    assert (W2 : writable n s2) by (apply writable_flag; unfold s2; rewrite setProtected_flag; apply writable_flag in W0; exact W0).
    destruct C as [->| ->].
    + apply share_has. apply share_gives. exact W2.
    + apply share_gives. apply writable_flag. rewrite share_inf. apply writable_flag. exact W2.
  - cbn [fst] in *. rewrite (proj2 (proj2 (load_frame l s))) in O. apply load_has. apply H; assumption.
Qed.

Lemma linked_run : forall l s, linked s -> linked (run l s).
Proof. induction l as [|p l IH]; intros s H; [exact H|]. cbn [run]. apply IH, linked_step, H. Qed.

Lemma made_linked : forall s, made s -> linked s.
Proof. intros s [d [dp [ch [nm [cn [sd [l ->]]]]]]]. apply linked_run. intro O. discriminate. Qed.

Lemma made_name : forall s, made s -> readOnly "name" s.
Proof. intros s [d [dp [ch [nm [cn [sd [l ->]]]]]]]. apply readOnly_flag. rewrite run_flag. reflexivity. Qed.

(** Writing and reading one property. *)
Lemma ofOwner_true : forall n s, ofOwner n s = true <-> owned s = true /\ common n /\ writable n s.
Proof.
  intros n s. unfold ofOwner. rewrite !andb_true_iff, orb_true_iff, !String.eqb_eq. unfold common, writable. split.
  - intros [[O C] F]. split; [exact O|]. split; [exact C|]. destruct (find n (inf s)) as [[[] v]|]; try discriminate. exists v. reflexivity.
  - intros [O [C [v ->]]]. repeat split; assumption.
Qed.

Lemma ofOwner_same : forall n s s', owned s' = owned s -> (forall m, flag m (inf s') = flag m (inf s)) -> ofOwner n s' = ofOwner n s.
Proof.
  intros n s s' O F. destruct (ofOwner n s) eqn:E; destruct (ofOwner n s') eqn:E'; try reflexivity.
  - apply ofOwner_true in E. destruct E as [A [B C]]. assert (X : ofOwner n s' = true).
    { apply ofOwner_true. split; [congruence|]. split; [exact B|]. apply writable_flag. rewrite F. apply writable_flag. exact C. }
    congruence.
  - apply ofOwner_true in E'. destruct E' as [A [B C]]. assert (X : ofOwner n s = true).
    { apply ofOwner_true. split; [congruence|]. split; [exact B|]. apply writable_flag. rewrite <- F. apply writable_flag. exact C. }
    congruence.
Qed.

(** A local write that is allowed. *)
Lemma local_effect : forall p n v s q, find n (inf s) = Some q -> ro q && negb p = false -> ofOwner n s = false ->
  exists s', localSet p n v s = (s', Ok) /\ get n s' = Some v /\ (forall m, m <> n -> get m s' = get m s) /\ dname s' = dname s /\ dprops s' = dprops s.
Proof.
  intros p n v s q F R O. unfold localSet. rewrite F, R. eexists. split; [reflexivity|].
  set (s' := withInf (put n (P (ro q) (Some v)) (inf s)) s).
  assert (Same : forall m, ofOwner m s' = ofOwner m s) by (intro m; apply ofOwner_same; [reflexivity|intro k; apply flag_put; exact F]).
  split; [|split; [|split; reflexivity]].
  - unfold get. rewrite Same, O. unfold localGet, s'. cbn [withInf inf]. rewrite (find_put _ n _ q _ F). reflexivity.
  - intros m N. unfold get. rewrite Same. destruct (ofOwner m s); [reflexivity|]. unfold localGet, s'. cbn [withInf inf]. rewrite find_put_other by exact N. reflexivity.
Qed.

Lemma dev_effect : forall n v s, deviceHas n s -> ofOwner n s = true ->
  exists s', devSet n v s = (s', Ok) /\ get n s' = Some v /\ (forall m, m <> n -> get m s' = get m s) /\ dname s' = dname s /\
    (forall m, m <> n -> find m (dprops s') = find m (dprops s)) /\ find n (dprops s') = Some v.
Proof.
  intros n v s [x H] O. unfold devSet. rewrite H. eexists. split; [reflexivity|]. set (s' := withDev (put n v (dprops s)) s).
  assert (Same : forall m, ofOwner m s' = ofOwner m s) by (intro m; reflexivity).
  assert (V : find n (dprops s') = Some v) by (unfold s'; cbn [withDev dprops]; apply (find_put _ n v x); exact H).
  split; [unfold get; rewrite Same, O; exact V|]. split.
  - intros m N. unfold get. rewrite Same. destruct (ofOwner m s); [|reflexivity]. unfold s'. cbn [withDev dprops]. apply find_put_other. exact N.
  - split; [reflexivity|]. split; [|exact V]. intros m N. unfold s'. cbn [withDev dprops]. apply find_put_other. exact N.
Qed.

Lemma protected_effect : forall n v s, linked s -> writable n s ->
  exists s', setProtected n v s = (s', Ok) /\ get n s' = Some v /\ (forall m, m <> n -> get m s' = get m s) /\ dname s' = dname s.
Proof.
  intros n v s L W. unfold setProtected. destruct (ofOwner n s) eqn:O.
  - apply ofOwner_true in O as O2. destruct O2 as [A [B C]]. destruct (dev_effect n v s (L A n B C) O) as [s' [E [G1 [G2 [G3 _]]]]].
    exists s'. tauto.
  - destruct W as [x F]. destruct (local_effect true n v s _ F (andb_false_r _) O) as [s' [E [G1 [G2 [G3 _]]]]]. exists s'. tauto.
Qed.

Lemma get_local : forall n s, ~ common n -> get n s = localGet n s.
Proof.
  intros n s C. unfold get. destruct (ofOwner n s) eqn:O; [|reflexivity]. apply ofOwner_true in O. destruct O as [_ [X _]]. contradiction.
Qed.

Lemma localGet_inf : forall n s s', inf s' = inf s -> localGet n s' = localGet n s.
Proof. intros n s s' E. unfold localGet. rewrite E. reflexivity. Qed.

Lemma local_other : forall p n v s m, m <> n -> get m (fst (localSet p n v s)) = get m s.
Proof.
  intros p n v s m N. assert (S1 : ofOwner m (fst (localSet p n v s)) = ofOwner m s).
  { apply ofOwner_same; [|intro k; apply localSet_flag]. unfold localSet. destruct (find n (inf s)) as [q|]; [|reflexivity]. destruct (ro q && negb p); reflexivity. }
  unfold get. rewrite S1, localSet_dprops. destruct (ofOwner m s); [reflexivity|]. unfold localGet, localSet.
  destruct (find n (inf s)) as [q|]; [|reflexivity]. destruct (ro q && negb p); [reflexivity|]. cbn [fst withInf inf]. rewrite find_put_other by exact N. reflexivity.
Qed.

Lemma dev_other : forall n v s m, m <> n -> get m (fst (devSet n v s)) = get m s.
Proof.
  intros n v s m N. unfold devSet. destruct (find n (dprops s)); [|reflexivity]. cbn [fst]. unfold get.
  change (ofOwner m (withDev (put n v (dprops s)) s)) with (ofOwner m s). destruct (ofOwner m s); [|reflexivity].
  cbn [withDev dprops]. apply find_put_other. exact N.
Qed.

Lemma set_other : forall n v s m, m <> n -> get m (fst (set n v s)) = get m s.
Proof. intros n v s m N. unfold set. destruct (ofOwner n s); [apply dev_other|apply local_other]; exact N. Qed.

Lemma protected_other : forall n v s m, m <> n -> get m (fst (setProtected n v s)) = get m s.
Proof. intros n v s m N. unfold setProtected. destruct (ofOwner n s); [apply dev_other|apply local_other]; exact N. Qed.

Lemma denied : forall n v s, readOnly n s -> set n v s = (s, AccessDenied).
Proof.
  intros n v s [x H]. unfold set. destruct (ofOwner n s) eqn:O.
  - apply ofOwner_true in O. destruct O as [_ [_ [y E]]]. congruence.
  - unfold localSet. rewrite H. reflexivity.
Qed.

Lemma load_other : forall l s n, readOnly n s \/ ~ In n (map fst l) -> get n (load l s) = get n s.
Proof.
  induction l as [|[k v] l IH]; intros s n H; [reflexivity|]. cbn [load].
  assert (K : forall s', (forall m, flag m (inf s') = flag m (inf s)) -> readOnly n s' \/ ~ In n (map fst l)).
  { intros s' F. destruct H as [H|H]; [left; apply readOnly_flag; rewrite F; apply readOnly_flag; exact H|right; intro X; apply H; right; exact X]. }
  destruct (find k (inf s)) as [[r x]|] eqn:E; [|apply IH, K; reflexivity]. cbn [ro]. destruct r; [apply IH, K; reflexivity|].
  rewrite IH by (apply K; intro m; apply setProtected_flag). apply protected_other. intro X. subst k.
  destruct H as [[y H]|H]; [congruence|]. apply H. left. reflexivity.
Qed.

Lemma load_value : forall l s n v, linked s -> NoDup (map fst l) -> In (n, v) l -> writable n s -> get n (load l s) = Some v.
Proof.
  induction l as [|[k x] l IH]; intros s n v L D H W; [destruct H|]. cbn [load map fst] in *. inversion D as [|? ? N D2]; subst.
  destruct H as [H|H].
  - injection H as -> ->. rewrite load_other by (right; exact N). destruct W as [y F]. rewrite F. cbn [ro].
    destruct (protected_effect n v s L (ex_intro _ y F)) as [s' [E [G _]]]. rewrite E. exact G.
  - apply IH; [|exact D2|exact H|].
    + destruct (find k (inf s)) as [p|]; [|exact L]. destruct (ro p); [exact L|]. intros O m C Wm.
      rewrite (proj2 (proj2 (setProtected_frame k x s))) in O. apply setProtected_has. apply L; [exact O|exact C|].
      apply (writable_same m s _ (setProtected_flag k x s) Wm).
    + apply writable_flag. apply writable_flag in W. destruct (find k (inf s)) as [p|]; [|exact W]. destruct (ro p); [exact W|]. rewrite setProtected_flag. exact W.
Qed.

(** The keys of the info. *)
Definition keys (s : st) : list string := map fst (inf s).

Lemma localSet_keys : forall p n v s, keys (fst (localSet p n v s)) = keys s.
Proof.
  intros p n v s. unfold localSet, keys. destruct (find n (inf s)) as [q|]; [|reflexivity]. destruct (ro q && negb p); [reflexivity|]. apply put_keys.
Qed.

Lemma set_keys : forall n v s, keys (fst (set n v s)) = keys s.
Proof. intros n v s. unfold set. destruct (ofOwner n s); [unfold keys; rewrite devSet_inf; reflexivity|apply localSet_keys]. Qed.

Lemma setProtected_keys : forall n v s, keys (fst (setProtected n v s)) = keys s.
Proof. intros n v s. unfold setProtected. destruct (ofOwner n s); [unfold keys; rewrite devSet_inf; reflexivity|apply localSet_keys]. Qed.

Lemma devSetName_keys : forall v s, keys (fst (devSetName v s)) = keys s.
Proof.
  intros v s. unfold devSetName. assert (X := setProtected_keys "name" v s). destruct (setProtected "name" v s) as [s1 r]. cbn [fst] in X.
  destruct r; try exact X. destruct (String.eqb (dname s1) v); [exact X|]. destruct (locked s1); exact X.
Qed.

Lemma load_keys : forall l s, keys (load l s) = keys s.
Proof.
  induction l as [|[n v] l IH]; intro s; [reflexivity|]. cbn [load]. rewrite IH. destruct (find n (inf s)) as [p|]; [|reflexivity].
  destruct (ro p); [reflexivity|apply setProtected_keys].
Qed.

Lemma step_keys : forall p s, keys (fst (step p s)) = keys s.
Proof.
  intros [n v|n v|v|v|n v|b| |l] s; cbn [step].
  - unfold setter. destruct (owned s); [apply set_keys|apply localSet_keys].
  - apply set_keys.
  - unfold setName. destruct (owned s); [apply devSetName_keys|apply localSet_keys].
  - apply devSetName_keys.
  - unfold keys. rewrite devSet_inf. reflexivity.
  - reflexivity.
  - unfold attach. destruct (owned s); [reflexivity|]. cbv zeta. cbn [fst]. unfold keys. rewrite !share_inf. apply setProtected_keys.
  - apply load_keys.
Qed.

Lemma run_keys : forall l s, keys (run l s) = keys s.
Proof. induction l as [|p l IH]; intro s; [reflexivity|]. cbn [run]. rewrite IH. apply step_keys. Qed.

Lemma create_keys : forall ch name conn sdk, map fst (create ch name conn sdk) = early ++ late.
Proof. intros. unfold create. rewrite map_app, map_map. reflexivity. Qed.

Fixpoint distinct (l : list string) : bool :=
  match l with [] => true | x :: r => negb (existsb (String.eqb x) r) && distinct r end.

Lemma distinct_nodup : forall l, distinct l = true -> NoDup l.
Proof.
  induction l as [|x l IH]; intro H; [constructor|]. cbn [distinct] in H. apply andb_true_iff in H. destruct H as [A B].
  constructor; [|exact (IH B)]. intro X. apply negb_true_iff in A. assert (Y : existsb (String.eqb x) l = true).
  { apply existsb_exists. exists x. split; [exact X|apply String.eqb_refl]. }
  congruence.
Qed.

Lemma made_keys : forall s, made s -> keys s = early ++ late /\ NoDup (keys s).
Proof.
  intros s [d [dp [ch [nm [cn [sd [l ->]]]]]]]. assert (E : keys (run l (device d dp ch nm cn sd)) = early ++ late).
  { rewrite run_keys. unfold keys. cbn [device inf]. apply create_keys. }
  split; [exact E|]. rewrite E. apply distinct_nodup. vm_compute. reflexivity.
Qed.

Lemma find_in : forall A n (a : A) l, NoDup (map fst l) -> (In (n, a) l <-> find n l = Some a).
Proof.
  induction l as [|[k b] l IH]; intro D; [split; [intros []|discriminate]|]. cbn [map fst find] in *. inversion D as [|? ? N D2]; subst.
  destruct (String.eqb_spec k n) as [->|E].
  - split; intro H.
    + destruct H as [H|H]; [injection H as ->; reflexivity|]. destruct N. apply in_map_iff. exists (n, a). split; [reflexivity|exact H].
    + injection H as ->. left. reflexivity.
  - rewrite <- (IH D2). split; intro H; [destruct H as [H|H]; [injection H as -> _; contradiction|exact H]|right; exact H].
Qed.

Lemma save_in : forall s n v, NoDup (keys s) -> (In (n, v) (save s) <-> find n (inf s) = Some (P false (Some v))).
Proof.
  intros s n v D. rewrite <- (find_in _ n (P false (Some v)) (inf s) D). unfold save. rewrite in_flat_map. split.
  - intros [[k [r x]] [H I1]]. cbn [snd ro val fst] in I1. destruct r; [destruct I1|]. destruct x as [w|]; [|destruct I1].
    destruct I1 as [E|[]]. injection E as -> ->. exact H.
  - intro H. exists (n, P false (Some v)). split; [exact H|]. left. reflexivity.
Qed.

Lemma save_keys_in : forall l n,
  In n (map fst (flat_map (fun p : string * prop => if ro (snd p) then [] else match val (snd p) with Some v => [(fst p, v)] | None => [] end) l)) -> In n (map fst l).
Proof.
  induction l as [|[k [r x]] l IH]; intros n H; [destruct H|]. cbn [flat_map snd ro val fst] in H. rewrite map_app, in_app_iff in H.
  destruct H as [H|H]; [|right; exact (IH n H)]. left. destruct r; [destruct H|]. destruct x; [|destruct H]. destruct H as [H|[]]. exact H.
Qed.

Lemma save_nodup : forall s, NoDup (keys s) -> NoDup (map fst (save s)).
Proof.
  intros s. unfold keys, save. induction (inf s) as [|[k [r x]] l IH]; intro D; [constructor|]. cbn [map fst flat_map snd ro val] in *.
  inversion D as [|? ? N D2]; subst. destruct r; [exact (IH D2)|]. destruct x as [w|]; [|exact (IH D2)].
  cbn [app map fst]. constructor; [|exact (IH D2)]. intro X. apply N. apply (save_keys_in l k X).
Qed.

Lemma loadDev_inf : forall l s, inf (loadDev l s) = inf s /\ owned (loadDev l s) = owned s.
Proof.
  induction l as [|[n v] l IH]; intro s; [split; reflexivity|]. cbn [loadDev]. destruct (IH (fst (devSet n v s))) as [A B].
  rewrite A, B, devSet_inf. split; [reflexivity|]. apply devSet_frame.
Qed.

Lemma loadDev_linked : forall l s, linked s -> linked (loadDev l s).
Proof.
  induction l as [|[n v] l IH]; intros s L; [exact L|]. cbn [loadDev]. apply IH. intros O m C W.
  rewrite (proj2 (proj2 (devSet_frame n v s))) in O. apply devSet_has. apply L; [exact O|exact C|]. apply writable_flag. apply writable_flag in W. rewrite devSet_inf in W. exact W.
Qed.

Lemma not_common_name : ~ common "name".
Proof. intros [H|H]; discriminate. Qed.

Definition agreed (s : st) : Prop := readOnly "name" s /\ locked s = false /\ (owned s = true -> get "name" s = Some (dname s)).

Lemma devSetName_agreed : forall v s, agreed s -> agreed (fst (devSetName v s)).
Proof.
  intros v s [R [L A]]. split; [|split].
  - apply readOnly_flag. rewrite devSetName_flag. apply readOnly_flag. exact R.
  - rewrite (proj2 (devSetName_frame v s)). exact L.
  - intros _. unfold devSetName. assert (O : ofOwner "name" s = false).
    { destruct (ofOwner "name" s) eqn:X; [|reflexivity]. apply ofOwner_true in X. destruct X as [_ [X _]]. destruct (not_common_name X). }
    destruct R as [x F]. destruct (local_effect true "name" v s _ F (andb_false_r _) O) as [s' [E [G [_ [Dn _]]]]].
    unfold setProtected. rewrite O, E. assert (Ls : locked s' = false).
    { unfold localSet in E. rewrite F in E. cbn [ro negb andb] in E. injection E as <-. exact L. }
    destruct (String.eqb_spec (dname s') v) as [X|X]; [cbn [fst]; rewrite X; exact G|]. rewrite Ls. cbn [fst dname].
    rewrite get_local by exact not_common_name. rewrite get_local in G by exact not_common_name. exact G.
Qed.

Lemma agreed_step : forall p s, unlocking p -> agreed s -> agreed (fst (step p s)).
Proof.
  intros p s U A. assert (A0 := A). destruct A as [R [L G]].
  assert (Rp : readOnly "name" (fst (step p s))) by (apply readOnly_flag; rewrite step_flag; apply readOnly_flag; exact R).
  destruct p as [n v|n v|v|v|n v|b| |l]; cbn [step] in *.
  - split; [exact Rp|]. unfold setter. destruct (owned s) eqn:Os.
    + destruct (set_frame n v s) as [B [C D]]. split; [congruence|]. intros _. rewrite B. destruct (string_dec "name" n) as [<-|N].
      * rewrite denied by exact R. exact (G eq_refl).
      * rewrite set_other by exact N. exact (G eq_refl).
    + assert (X : owned (fst (localSet true n v s)) = owned s /\ locked (fst (localSet true n v s)) = locked s).
      { unfold localSet. destruct (find n (inf s)) as [q|]; [|split; reflexivity]. destruct (ro q && negb true); split; reflexivity. }
      destruct X as [X Y]. split; [congruence|]. intro O. congruence.
  - split; [exact Rp|]. destruct (set_frame n v s) as [B [C D]]. split; [congruence|]. intro O. rewrite D in O. rewrite B. destruct (string_dec "name" n) as [<-|N].
    + rewrite denied by exact R. exact (G O).
    + rewrite set_other by exact N. exact (G O).
  - unfold setName in *. destruct (owned s) eqn:Os; [apply devSetName_agreed; exact A0|]. split; [exact Rp|].
    assert (X : owned (fst (localSet true "name" v s)) = owned s /\ locked (fst (localSet true "name" v s)) = locked s).
    { unfold localSet. destruct (find "name" (inf s)) as [q|]; [|split; reflexivity]. destruct (ro q && negb true); split; reflexivity. }
    destruct X as [X Y]. split; [congruence|]. intro O. congruence.
  - apply devSetName_agreed. exact A0.
  - split; [exact Rp|]. destruct (devSet_frame n v s) as [B [C D]]. split; [congruence|]. intro O. rewrite D in O. rewrite B, <- (G O).
    rewrite !get_local by exact not_common_name. apply localGet_inf, devSet_inf.
  - cbn [unlocking] in U. subst b. split; [exact Rp|]. split; [reflexivity|exact G].
  - unfold attach in *. destruct (owned s) eqn:Os; [exact A0|]. cbv zeta in *. cbn [fst] in *. split; [exact Rp|].
    set (s1 := St (dname s) (locked s) (dprops s) (inf s) true) in *.
    destruct (share_frame "location" (share "userName" (fst (setProtected "name" (dname s1) s1)))) as [B [C D]].
    destruct (share_frame "userName" (fst (setProtected "name" (dname s1) s1))) as [B2 [C2 D2]].
    destruct (setProtected_frame "name" (dname s1) s1) as [B3 [C3 D3]]. split; [rewrite C, C2, C3; exact L|]. intros _.
    rewrite B, B2, B3. rewrite get_local by exact not_common_name. unfold localGet. rewrite !share_inf. fold (localGet "name" (fst (setProtected "name" (dname s1) s1))).
    rewrite <- get_local by exact not_common_name.
    assert (O : ofOwner "name" s1 = false).
    { destruct (ofOwner "name" s1) eqn:X; [|reflexivity]. apply ofOwner_true in X. destruct X as [_ [X _]]. destruct (not_common_name X). }
    destruct R as [x F]. destruct (local_effect true "name" (dname s1) s1 _ F (andb_false_r _) O) as [s' [E [Q _]]].
    unfold setProtected. rewrite O, E. exact Q.
  - cbn [fst] in *. split; [exact Rp|]. destruct (load_frame l s) as [B [C D]]. split; [congruence|]. intro O. rewrite D in O. rewrite B.
    rewrite load_other by (left; exact R). exact (G O).
Qed.

Lemma agreed_run : forall l s, Forall unlocking l -> agreed s -> agreed (run l s).
Proof. induction l as [|p l IH]; intros s F A; [exact A|]. inversion F; subst. cbn [run]. apply IH; [assumption|]. apply agreed_step; assumption. Qed.

(** Letters. *)
Definition chars : list Ascii.ascii := map Ascii.ascii_of_nat (seq 0 256).

Lemma all_chars : forall c, In c chars.
Proof.
  intro c. unfold chars. apply in_map_iff. exists (Ascii.nat_of_ascii c). split; [apply Ascii.ascii_nat_embedding|]. apply in_seq. split; [apply Nat.le_0_l|]. apply Ascii.nat_ascii_bounded.
Qed.

Definition pairEq (a b : string * string) : bool := String.eqb (fst a) (fst b) && String.eqb (snd a) (snd b).

Lemma pairEq_in : forall p l, existsb (pairEq p) l = true <-> In p l.
Proof.
  intros [a b] l. rewrite existsb_exists. split.
  - intros [[c d] [H E]]. unfold pairEq in E. cbn [fst snd] in E. apply andb_true_iff in E. rewrite !String.eqb_eq in E. destruct E as [-> ->]. exact H.
  - intro H. exists (a, b). split; [exact H|]. unfold pairEq. cbn [fst snd]. rewrite !String.eqb_refl. reflexivity.
Qed.

Definition sameChar (x y : Ascii.ascii) : bool :=
  Ascii.eqb x y || (existsb (pairEq (String x "", String y "")) letters || existsb (pairEq (String y "", String x "")) letters).

Lemma lower_char : forall x y, lowerChar x = lowerChar y <->
  (x = y \/ In (String x "", String y "") letters \/ In (String y "", String x "") letters).
Proof.
  assert (C : forallb (fun x => forallb (fun y => Bool.eqb (Ascii.eqb (lowerChar x) (lowerChar y)) (sameChar x y)) chars) chars = true) by (vm_compute; reflexivity).
  intros x y. rewrite forallb_forall in C. specialize (C x (all_chars x)). cbv beta in C. rewrite forallb_forall in C. specialize (C y (all_chars y)). cbv beta in C.
  apply Bool.eqb_prop in C. rewrite <- !pairEq_in. rewrite <- Ascii.eqb_eq. rewrite C. unfold sameChar. rewrite !orb_true_iff, Ascii.eqb_eq. reflexivity.
Qed.

Lemma lower_name : forall a b, lower a = lower b <-> sameName a b.
Proof.
  induction a as [|x a IH]; intros [|y b]; cbn [lower sameName]; try (split; [discriminate|intros []]).
  - split; [intro; exact Coq.Init.Logic.I|reflexivity].
  - rewrite <- lower_char, <- IH. split; [intro H; injection H as H1 H2; split; assumption|intros [-> ->]; reflexivity].
Qed.
