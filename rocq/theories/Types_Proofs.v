(** Proofs for C33 and C41. *)
From Coq Require Import String Ascii.
From Verif Require Import Base Types_Model Types_Spec.
Local Open Scope Z_scope.

Lemma name_eqb_spec : forall a b, reflect (a = b) (name_eqb a b).
Proof.
  induction a as [|x a IH]; intros [|y b]; cbn [name_eqb]; try (constructor; congruence).
  destruct (Z.eqb_spec x y); cbn [andb]; [|constructor; congruence]. destruct (IH b); constructor; congruence.
Qed.
Lemma name_eqb_refl : forall a, name_eqb a a = true.
Proof. intros a. destruct (name_eqb_spec a a); congruence. Qed.

(** ** Names *)
Lemma same_letter_lower : forall a b, same_letter a b <-> tolower a = tolower b.
Proof.
  intros a b. unfold same_letter, tolower.
  destruct (Z.leb_spec 65 a), (Z.leb_spec a 90), (Z.leb_spec 65 b), (Z.leb_spec b 90); cbn [andb]; lia.
Qed.
Lemma same_letters_lower : forall a b, Forall2 same_letter a b <-> toLowerCase a = toLowerCase b.
Proof.
  induction a as [|x a IH]; intros [|y b]; cbn [toLowerCase map].
  - split; auto.
  - split; intros H; [inversion H|discriminate].
  - split; intros H; [inversion H|discriminate].
  - split; intros H.
    + inversion H; subst. apply same_letter_lower in H3. apply IH in H5. unfold toLowerCase in H5. congruence.
    + inversion H. constructor; [now apply same_letter_lower|]. now apply IH.
Qed.

Lemma reserved_iff : forall n, existsb (name_eqb (toLowerCase n)) reservedTypeNames = true <-> reserved n.
Proof.
  intros n. assert (E : reservedTypeNames = map (fun b => toLowerCase (bytes b)) builtin) by reflexivity. rewrite E.
  rewrite existsb_exists. unfold reserved. split.
  - intros (x & I & H). apply in_map_iff in I. destruct I as (b & <- & I). exists b. split; auto. apply same_letters_lower.
    destruct (name_eqb_spec (toLowerCase n) (toLowerCase (bytes b))); congruence.
  - intros (b & I & H). exists (toLowerCase (bytes b)). split; [apply in_map_iff; eauto|]. apply same_letters_lower in H. rewrite H. apply name_eqb_refl.
Qed.

Lemma isalpha_iff : forall c, isalpha c = true <-> letter c.
Proof. intros c. unfold isalpha, letter. lia. Qed.

Lemma identifier_iff : forall n, validateTypeName n = true <-> identifier n.
Proof.
  intros [|c r]; cbn [validateTypeName].
  - split; [discriminate|]. intros (c & r & H & _). discriminate.
  - rewrite andb_true_iff, orb_true_iff, isalpha_iff, forallb_forall, Z.eqb_eq. split.
    + intros [A B]. exists c, r. split; [reflexivity|]. split; [exact A|]. apply Forall_forall. intros x X. apply B in X.
      rewrite !orb_true_iff, isalpha_iff, Z.eqb_eq in X. destruct X as [[X|X]|X]; auto. unfold isdigit in X. right. left. lia.
    + intros (c' & r' & E & A & B). inversion E; subst. split; [exact A|].
      intros x X. rewrite Forall_forall in B. apply B in X. rewrite !orb_true_iff, isalpha_iff, Z.eqb_eq. unfold isdigit.
      destruct X as [X|[X|X]]; auto. left. right. lia.
Qed.

(** ** The dictionary *)
Lemma get_app : forall n m t k, get n (m ++ [(k, t)]) = match get n m with Some x => Some x | None => if name_eqb k n then Some t else None end.
Proof. induction m as [|[k' t'] m IH]; intros t k; cbn [get app]; auto. destruct (name_eqb k' n); auto. Qed.

Lemma get_filter : forall n k m, get n (filter (fun e => negb (name_eqb (fst e) k)) m) = if name_eqb k n then None else get n m.
Proof.
  induction m as [|[k' t'] m IH]; cbn [get filter fst]; [now destruct (name_eqb k n)|].
  destruct (name_eqb_spec k' k) as [->|NE]; cbn [negb get].
  - rewrite IH. destruct (name_eqb k n) eqn:E; auto.
  - rewrite IH. destruct (name_eqb_spec k' n) as [->|]; auto. destruct (name_eqb_spec k n); congruence.
Qed.

Lemma get_In : forall n t m, get n m = Some t -> In (n, t) m.
Proof. induction m as [|[k t'] m IH]; cbn [get]; [discriminate|]. destruct (name_eqb_spec k n); intros H; [inversion H; subst; now left|right; auto]. Qed.
Lemma get_None : forall n m, get n m = None <-> ~ In n (map fst m).
Proof.
  induction m as [|[k t'] m IH]; cbn [get map fst In]; [tauto|]. destruct (name_eqb_spec k n); split; intros H; try discriminate; try tauto.
Qed.

Lemma add_cases : forall t m,
  (admissible (tname t) /\ get (tname t) m = None /\ addType t m = (m ++ [(tname t, t)], Success))
  \/ (fst (addType t m) = m /\ (admissible (tname t) -> exists t', get (tname t) m = Some t'
        /\ snd (addType t m) = if ty_equal t' t then Success else AlreadyExists)
      /\ (~ admissible (tname t) -> snd (addType t m) <> Success /\ snd (addType t m) <> AlreadyExists)).
Proof.
  intros t m. unfold addType, admissible. destruct (tname t) as [|c r] eqn:N.
  - right. split; auto. split; [intros [(c & r & H & _) _]; discriminate|]. intros _. split; discriminate.
  - rewrite <- N. destruct (existsb (name_eqb (toLowerCase (tname t))) reservedTypeNames) eqn:R.
    + right. split; auto. apply reserved_iff in R. split; [tauto|]. split; discriminate.
    + assert (NR : ~ reserved (tname t)) by (rewrite <- reserved_iff; congruence).
      destruct (validateTypeName (tname t)) eqn:V; cbn [negb].
      * apply identifier_iff in V. destruct (get (tname t) m) as [t'|] eqn:G.
        -- right. assert (F : fst (if ty_equal t' t then (m, Success) else (m, AlreadyExists)) = m) by (destruct (ty_equal t' t); auto).
           split; auto. split; [|tauto]. intros _. exists t'. split; auto. destruct (ty_equal t' t); auto.
        -- left. auto.
      * right. split; auto. assert (~ identifier (tname t)) by (rewrite <- identifier_iff; congruence). split; [tauto|]. split; discriminate.
Qed.

Lemma holds_get : forall h n t, holds h n t <-> get n (after h) = Some t.
Proof.
  induction h as [|o h IH]; intros n t; cbn [holds after step]; [split; [intros []|discriminate]|]. destruct o as [x|k]; cbn [step].
  - destruct (add_cases x (after h)) as [(A & G & E)|(E & A & _)].
    + rewrite E. cbn [fst]. rewrite get_app. rewrite IH. split.
      * intros [H|(-> & -> & _)]; [now rewrite H|]. now rewrite G, name_eqb_refl.
      * destruct (get n (after h)) eqn:GN; auto. destruct (name_eqb_spec (tname x) n) as [<-|]; [|discriminate]. intros H. inversion H; subst. right.
        repeat split; auto; try apply A. intros t' H'. apply IH in H'. congruence.
    + rewrite E, <- (IH n t). split; [|auto]. intros [H|(-> & -> & AD & NO)]; auto. destruct (A AD) as (t' & G & _). exfalso. apply (NO t'). now apply IH.
  - unfold removeType. destruct (get k (after h)) eqn:G; cbn [fst].
    + rewrite get_filter. rewrite (IH n t). destruct (name_eqb_spec k n); split; try tauto; try discriminate.
    + rewrite <- (IH n t). split; [tauto|]. intros H. split; auto. intros ->. apply IH in H. congruence.
Qed.

Lemma keys_nodup : forall h, NoDup (getTypes (after h)).
Proof.
  induction h as [|o h IH]; cbn [after]; [constructor|]. destruct o as [x|k]; cbn [step].
  - destruct (add_cases x (after h)) as [(A & G & E)|(E & _)]; rewrite E; auto. cbn [fst]. unfold getTypes. rewrite map_app. cbn [map fst].
    apply get_None in G. apply NoDup_rev in IH. rewrite <- (rev_involutive (map fst (after h) ++ _)). apply NoDup_rev. rewrite rev_app_distr. cbn [rev app].
    constructor; auto. now rewrite <- in_rev.
  - unfold removeType. destruct (get k (after h)); cbn [fst]; auto. unfold getTypes in *. revert IH. generalize (after h). intros m IH.
    induction m as [|[k' t'] m IHm]; cbn [filter map fst]; [constructor|]. cbn [map fst] in IH. inversion IH; subst.
    destruct (negb (name_eqb k' k)); cbn [map fst]; auto. constructor; auto. intros K. apply H1. apply in_map_iff in K.
    destruct K as (e & <- & K). apply filter_In in K. apply in_map. tauto.
Qed.

(** ** Property object classes *)
Lemma find_In : forall n p l, NoDup (map fst l) -> (find_prop n l = Some p <-> In (n, p) l).
Proof.
  induction l as [|[k q] l IH]; intros N; cbn [find_prop]; [split; [discriminate|intros []]|]. cbn [map fst] in N. inversion N; subst.
  destruct (name_eqb_spec k n) as [->|NE].
  - split; [intros E; inversion E; now left|]. intros [E|E]; [now inversion E|]. exfalso. apply H1. now apply (in_map fst) in E.
  - rewrite IH by auto. split; [now right|]. intros [E|E]; auto. inversion E; congruence.
Qed.
Lemma find_None : forall n l, find_prop n l = None <-> forall p, ~ In (n, p) l.
Proof.
  induction l as [|[k q] l IH]; cbn [find_prop]; [split; auto|]. destruct (name_eqb_spec k n) as [->|NE].
  - split; [discriminate|]. intros H. exfalso. apply (H q). now left.
  - rewrite IH. split; intros H p; [intros [E|E]; [inversion E; congruence|apply (H p E)]|]. intros E. apply (H p). now right.
Qed.

Lemma parent_wf : forall m c c', well_formed m -> parent_class m c c' -> distinct_props c'.
Proof. intros m c c' W (q & t & _ & G & B). eapply W; eauto. Qed.

Lemma getProperty_sound : forall d m c n p, well_formed m -> distinct_props c -> getProperty d m c n = Found p -> offers m c n p.
Proof.
  induction d as [|d IH]; intros m c n p W D H; cbn [getProperty] in H; [discriminate|].
  destruct (find_prop n (props c)) as [x|] eqn:F.
  - inversion H; subst. apply Own. apply find_In in F; auto.
  - destruct (parent c) as [q|] eqn:P; [|discriminate]. destruct (get q m) as [t|] eqn:G; [|discriminate]. destruct (tbody t) as [|c'] eqn:B; [discriminate|].
    assert (PC : parent_class m c c') by (exists q, t; auto).
    apply (Inherited m c c'); auto; [now apply find_None|]. apply IH in H; auto. eapply parent_wf; eauto.
Qed.

Lemma parent_class_get : forall m c c', parent_class m c c' -> exists q t, parent c = Some q /\ get q m = Some t /\ tbody t = Class c'.
Proof. auto. Qed.

Lemma getProperty_complete : forall m c n p, well_formed m -> distinct_props c -> offers m c n p ->
  exists d, forall d', (d <= d')%nat -> getProperty d' m c n = Found p.
Proof.
  intros m c n p W D H. induction H as [c n p H|c c' n p NO PC H IH].
  - exists 1%nat. intros [|d'] L; [lia|]. cbn [getProperty]. apply find_In in H; auto. now rewrite H.
  - destruct (IH (parent_wf _ _ _ W PC)) as (d & K). exists (S d). intros [|d'] L; [lia|]. cbn [getProperty].
    apply find_None in NO. rewrite NO. destruct PC as (q & t & -> & G & B). unfold getType in G. rewrite G, B. apply K. lia.
Qed.

Lemma getProperty_terminates : forall m c n, complete m c -> exists d, forall d', (d <= d')%nat -> getProperty d' m c n <> OutOfStack.
Proof.
  intros m c n H. induction H as [c P|c c' PC H (d & K)].
  - exists 1%nat. intros [|d'] L; [lia|]. cbn [getProperty]. rewrite P. destruct (find_prop n (props c)); discriminate.
  - exists (S d). intros [|d'] L; [lia|]. cbn [getProperty]. destruct (find_prop n (props c)); [discriminate|].
    destruct PC as (q & t & -> & G & B). unfold getType in G. rewrite G, B. apply K. lia.
Qed.

Lemma getProperty_missing : forall m c n, well_formed m -> distinct_props c -> complete m c -> (forall p, ~ offers m c n p) ->
  exists d, forall d', (d <= d')%nat -> getProperty d' m c n = Fails NotFound.
Proof.
  intros m c n W D H. induction H as [c P|c c' PC H IH]; intros NO.
  - exists 1%nat. intros [|d'] L; [lia|]. cbn [getProperty]. rewrite P. destruct (find_prop n (props c)) as [p|] eqn:F; auto.
    exfalso. apply (NO p). apply Own. apply find_In in F; auto.
  - assert (F : find_prop n (props c) = None).
    { destruct (find_prop n (props c)) as [p|] eqn:F; auto. exfalso. apply (NO p). apply Own. apply find_In in F; auto. }
    destruct IH as (d & K); [eapply parent_wf; eauto| |].
    { intros p O. apply (NO p). apply (Inherited m c c'); auto. now apply find_None. }
    exists (S d). intros [|d'] L; [lia|]. cbn [getProperty]. rewrite F. destruct PC as (q & t & -> & G & B). unfold getType in G. rewrite G, B. apply K. lia.
Qed.

Lemma hasProperty_get : forall d m c n, complete m c ->
  hasProperty d m c n = match getProperty d m c n with Found _ => Found true | Fails _ => Found false | OutOfStack => OutOfStack end.
Proof.
  induction d as [|d IH]; intros m c n H; cbn [hasProperty getProperty]; auto. destruct (find_prop n (props c)); auto.
  inversion H as [c0 P|c0 c' (q & t & P & G & B) H']; subst; rewrite P; auto. unfold getType in G. rewrite G, B. now apply IH.
Qed.

(** *** The property list *)
Fixpoint last_find (n : name) (l : list (name * Z)) : option Z :=
  match l with
  | [] => None
  | (k, p) :: r => match last_find n r with Some q => Some q | None => if name_eqb k n then Some p else None end
  end.

Lemma last_find_app : forall n l l', last_find n (l ++ l') = match last_find n l' with Some q => Some q | None => last_find n l end.
Proof. induction l as [|[k p] l IH]; intros l'; cbn [last_find app]; [now destruct (last_find n l')|]. rewrite IH. destruct (last_find n l'); auto. Qed.

Lemma last_find_None : forall n l, last_find n l = None <-> ~ In n (map fst l).
Proof.
  induction l as [|[k p] l IH]; cbn [last_find map fst In]; [tauto|]. destruct (last_find n l); [split; [discriminate|]; intros H|].
  - exfalso. apply H. right. destruct (in_dec (list_eq_dec Z.eq_dec) n (map fst l)) as [I|I]; auto. apply IH in I. discriminate.
  - destruct (name_eqb_spec k n); split; try discriminate; tauto.
Qed.

Lemma last_find_nodup : forall n l, NoDup (map fst l) -> last_find n l = find_prop n l.
Proof.
  induction l as [|[k p] l IH]; intros N; cbn [last_find find_prop]; auto. cbn [map fst] in N. inversion N; subst. rewrite <- IH by auto.
  destruct (name_eqb_spec k n) as [->|]; [|now destruct (last_find n l)]. apply last_find_None in H1. now rewrite H1.
Qed.

Lemma find_assign : forall x n p l, find_prop x (assign n p l) = if name_eqb n x then Some p else find_prop x l.
Proof.
  induction l as [|[k q] l IH]; cbn [assign find_prop]; auto. destruct (name_eqb_spec k n) as [->|NE]; cbn [find_prop].
  - destruct (name_eqb n x); auto.
  - rewrite IH. destruct (name_eqb_spec k x) as [->|]; auto. destruct (name_eqb_spec n x); congruence.
Qed.
Lemma keys_assign : forall x n p l, In x (map fst (assign n p l)) <-> x = n \/ In x (map fst l).
Proof.
  induction l as [|[k q] l IH]; cbn [assign map fst In]; [intuition congruence|]. destruct (name_eqb_spec k n) as [->|NE]; cbn [map fst In]; [intuition congruence|].
  rewrite IH. intuition congruence.
Qed.
Lemma assign_nodup : forall n p l, NoDup (map fst l) -> NoDup (map fst (assign n p l)).
Proof.
  induction l as [|[k q] l IH]; intros N; cbn [assign map fst]; [repeat constructor; auto|]. cbn [map fst] in N. inversion N; subst.
  destruct (name_eqb_spec k n) as [->|NE]; cbn [map fst]; constructor; auto. rewrite keys_assign. intros [E|E]; congruence.
Qed.

Lemma merge_ok : forall l a, NoDup (map fst a) ->
  let r := fold_left (fun a e => assign (fst e) (snd e) a) l a in
  NoDup (map fst r) /\ forall n, find_prop n r = match last_find n l with Some p => Some p | None => find_prop n a end.
Proof.
  induction l as [|[k p] l IH]; intros a N; cbn [fold_left last_find fst snd]; cbv zeta; auto.
  destruct (IH (assign k p a) (assign_nodup k p a N)) as [I1 I2]. split; auto. intros n. rewrite I2, find_assign. destruct (last_find n l); auto. now destruct (name_eqb k n).
Qed.

Lemma remove_key_find : forall x n l, find_prop x (remove_key n l) = if name_eqb n x then None else find_prop x l.
Proof.
  induction l as [|[k q] l IH]; cbn [remove_key filter find_prop fst]; [now destruct (name_eqb n x)|]. fold (remove_key n l).
  destruct (name_eqb_spec k n) as [->|NE]; cbn [negb find_prop].
  - rewrite IH. destruct (name_eqb n x) eqn:E; auto.
  - rewrite IH. destruct (name_eqb_spec k x) as [->|]; auto. destruct (name_eqb_spec n x); congruence.
Qed.
Lemma remove_key_keys : forall x n l, In x (map fst (remove_key n l)) <-> In x (map fst l) /\ x <> n.
Proof.
  intros x n l. unfold remove_key. rewrite !in_map_iff. split.
  - intros (e & <- & H). apply filter_In in H. destruct H as [H1 H2]. split; [eauto|]. destruct (name_eqb_spec (fst e) n); [discriminate|auto].
  - intros ((e & <- & H) & N). exists e. split; auto. apply filter_In. split; auto. destruct (name_eqb_spec (fst e) n); [congruence|auto].
Qed.
Lemma remove_key_nodup : forall n l, NoDup (map fst l) -> NoDup (map fst (remove_key n l)).
Proof.
  induction l as [|[k q] l IH]; intros N; cbn [remove_key filter map fst]; auto. fold (remove_key n l). cbn [map fst] in N. inversion N; subst.
  destruct (negb (name_eqb k n)); cbn [map fst]; auto. constructor; auto. rewrite remove_key_keys. tauto.
Qed.

Lemma take_ok : forall ord l, NoDup (map fst l) ->
  NoDup (map fst (take_ordered ord l)) /\ (forall n, find_prop n (take_ordered ord l) = find_prop n l)
  /\ forall x, In x (map fst (take_ordered ord l)) <-> In x (map fst l).
Proof.
  induction ord as [|o ord IH]; intros l N; cbn [take_ordered]; [split; auto; split; auto; tauto|].
  destruct (find_prop o l) as [p|] eqn:F; [|auto]. destruct (IH (remove_key o l) (remove_key_nodup o l N)) as (A & B & C).
  assert (IO : In o (map fst l)). { apply find_In in F; auto. now apply (in_map fst) in F. }
  split; [|split].
  - cbn [map fst]. constructor; auto. rewrite C, remove_key_keys. tauto.
  - intros n. cbn [find_prop]. rewrite B, remove_key_find. destruct (name_eqb_spec o n) as [->|]; auto.
  - intros x. cbn [map fst In]. rewrite C, remove_key_keys. destruct (list_eq_dec Z.eq_dec x o); subst; tauto || (split; [intros [E|E]; [subst; auto|tauto]|]; intros; right; auto).
Qed.

Lemma find_keys : forall n l, NoDup (map fst l) -> (In n (map fst l) <-> exists p, find_prop n l = Some p).
Proof.
  intros n l N. split.
  - intros H. apply in_map_iff in H. destruct H as ([k p] & E & H). cbn [fst] in E. subst. exists p. now apply find_In.
  - intros (p & H). apply find_In in H; auto. now apply (in_map fst) in H.
Qed.

Lemma offers_fun : forall m c n p q, well_formed m -> distinct_props c -> offers m c n p -> offers m c n q -> p = q.
Proof.
  intros m c n p q W D A B. destruct (getProperty_complete m c n p W D A) as (d & K). destruct (getProperty_complete m c n q W D B) as (d' & K').
  specialize (K (Nat.max d d') ltac:(lia)). specialize (K' (Nat.max d d') ltac:(lia)). congruence.
Qed.

Lemma getProperties_ok : forall m c, well_formed m -> distinct_props c -> complete m c ->
  exists d l, (forall d', (d <= d')%nat -> getProperties d' m c = Found l)
    /\ (forall n p, last_find n l = Some p <-> offers m c n p)
    /\ (order c <> [] -> NoDup (map fst l)).
Proof.
  intros m c W D H. induction H as [c P|c c' PC H IH].
  - assert (OF : forall n p, find_prop n (props c) = Some p <-> offers m c n p).
    { intros n p. rewrite find_In by auto. split; [apply Own|]. intros O. inversion O as [|? ? ? ? ? (q & t & E & _)]; subst; auto. congruence. }
    exists 1%nat. destruct (order c) as [|o ord] eqn:OC.
    + exists (props c). split; [|split; [|congruence]].
      * intros [|d'] L; [lia|]. cbn [getProperties]. now rewrite P, OC.
      * intros n p. rewrite last_find_nodup by auto. apply OF.
    + pose proof (merge_ok (props c) [] ltac:(constructor)) as K. cbv zeta in K.
      set (M := fold_left (fun a e => assign (fst e) (snd e) a) (props c) []) in *. destruct K as [K1 K2].
      destruct (take_ok (o :: ord) M K1) as (T1 & T2 & T3). exists (take_ordered (o :: ord) M). split; [|split; auto].
      * intros [|d'] L; [lia|]. cbn [getProperties]. now rewrite P, OC.
      * intros n p. rewrite last_find_nodup, T2, K2 by auto. rewrite last_find_nodup by auto. rewrite <- OF. cbn [find_prop]. destruct (find_prop n (props c)); split; congruence.
  - destruct (IH (parent_wf _ _ _ W PC)) as (d & l & K & L0 & _).
    assert (OF : forall n p, last_find n (l ++ props c) = Some p <-> offers m c n p).
    { intros n p. rewrite last_find_app, last_find_nodup by auto. destruct (find_prop n (props c)) as [x|] eqn:F.
      - split.
        + intros E. inversion E; subst. apply Own. apply find_In in F; auto.
        + intros O. inversion O as [|? ? ? ? NO]; subst.
          * apply find_In in H0; auto. congruence.
          * exfalso. apply find_In in F; auto. now apply NO in F.
      - rewrite L0. pose proof (proj1 (find_None _ _) F) as F'. clear F. rename F' into F. split; [now apply Inherited|]. intros O. inversion O as [|? c2 ? ? _ PC2 O2]; subst.
        + now apply F in H0.
        + destruct PC as (q & t & P & G & B). destruct PC2 as (q2 & t2 & P2 & G2 & B2). congruence. }
    exists (S d). destruct PC as (q & t & P & G & B). unfold getType in G. destruct (order c) as [|o ord] eqn:OC.
    + exists (l ++ props c). split; [|split; [auto|congruence]].
      intros [|d'] LE; [lia|]. cbn [getProperties]. rewrite P, G, B, K by lia. now rewrite OC.
    + pose proof (merge_ok (l ++ props c) [] ltac:(constructor)) as KM. cbv zeta in KM.
      set (M := fold_left (fun a e => assign (fst e) (snd e) a) (l ++ props c) []) in *. destruct KM as [K1 K2].
      destruct (take_ok (o :: ord) M K1) as (T1 & T2 & T3). exists (take_ordered (o :: ord) M). split; [|split; auto].
      * intros [|d'] LE; [lia|]. cbn [getProperties]. rewrite P, G, B, K by lia. now rewrite OC.
      * intros n p. rewrite last_find_nodup, T2, K2 by auto. rewrite <- OF. cbn [find_prop]. destruct (last_find n (l ++ props c)); split; congruence.
Qed.

(** *** Careful histories *)
Lemma complete_mono : forall m m' c, (forall q t, get q m = Some t -> get q m' = Some t) -> complete m c -> complete m' c.
Proof.
  intros m m' c E H. induction H as [c P|c c' (q & t & P & G & B) H IH]; [now apply Root|]. apply (Child m' c c'); auto. exists q, t. auto.
Qed.

Lemma careful_complete : forall h, careful_history h -> forall n t c, get n (after h) = Some t -> tbody t = Class c -> complete (after h) c.
Proof.
  induction h as [|o h IH]; intros CH n t c G B; [discriminate|]. destruct CH as [C CH]. specialize (IH CH). cbn [after] in *. destruct o as [x|k]; cbn [step careful] in *.
  - destruct (add_cases x (after h)) as [(A & GN & E)|(E & _)]; [|rewrite E in *; eauto]. rewrite E in *. cbn [fst] in *. rewrite get_app in G.
    assert (MONO : forall q t', get q (after h) = Some t' -> get q (after h ++ [(tname x, x)]) = Some t') by (intros q t' Q; rewrite get_app, Q; auto).
    destruct (get n (after h)) eqn:GO.
    + inversion G; subst. eapply complete_mono; eauto.
    + destruct (name_eqb (tname x) n); [|discriminate]. inversion G; subst t. rewrite B in C. destruct (parent c) as [q|] eqn:P; [|now apply Root].
      destruct C as (t' & c' & G' & B'). unfold getType in G'. apply (Child _ c c'); [exists q, t'; unfold getType; auto|]. eapply complete_mono; eauto.
  - unfold removeType in *. destruct (get k (after h)) eqn:GK; cbn [fst] in *; [|eauto]. rewrite get_filter in G. destruct (name_eqb_spec k n); [discriminate|].
    specialize (IH n t c G B). pose proof (C n t c G B) as CP. clear G B. induction IH as [c P|c c' (q & t' & P & G & B) H IHc]; [now apply Root|].
    apply (Child _ c c'); [|apply IHc; eauto]. exists q, t'. split; auto. split; auto. unfold getType in *. rewrite get_filter. destruct (name_eqb_spec k q); [congruence|auto].
Qed.

Lemma take_order : forall ord l, NoDup (map fst l) -> exists front rest, map fst (take_ordered ord l) = front ++ rest
  /\ subseq front ord /\ (forall n, In n front <-> In n ord /\ In n (map fst l)).
Proof.
  induction ord as [|o ord IH]; intros l N; cbn [take_ordered].
  - exists [], (map fst l). split; auto. split; [constructor|]. intros n. cbn [In]. tauto.
  - destruct (find_prop o l) as [p|] eqn:F.
    + destruct (IH (remove_key o l) (remove_key_nodup o l N)) as (front & rest & E & S & I). exists (o :: front), rest. cbn [map fst app]. rewrite E. split; auto. split; [now constructor|].
      assert (IO : In o (map fst l)) by (apply find_keys; eauto). intros n. cbn [In]. rewrite I, remove_key_keys.
      destruct (list_eq_dec Z.eq_dec n o) as [->|]; [tauto|]. intuition congruence.
    + destruct (IH l N) as (front & rest & E & S & I). exists front, rest. split; auto. split; [now constructor|]. intros n. rewrite I. cbn [In].
      assert (NO : ~ In o (map fst l)) by (rewrite find_keys by auto; intros (p & H); congruence). intuition congruence.
Qed.

Lemma properties_order : forall m c d l, order c <> [] -> getProperties d m c = Found l ->
  exists front rest, map fst l = front ++ rest /\ subseq front (order c) /\ forall n, In n front <-> In n (order c) /\ In n (map fst l).
Proof.
  intros m c [|d] l NE H; cbn [getProperties] in H; [discriminate|].
  destruct (match parent c with None => _ | Some _ => _ end) as [l0| |]; try discriminate.
  destruct (order c) as [|o ord] eqn:OC; [congruence|]. inversion H as [E]. clear H.
  pose proof (merge_ok (l0 ++ props c) [] ltac:(constructor)) as KM. cbv zeta in KM.
  set (M := fold_left (fun a e => assign (fst e) (snd e) a) (l0 ++ props c) []) in *. destruct KM as [K1 _].
  destruct (take_order (o :: ord) M K1) as (front & rest & E' & S & I). destruct (take_ok (o :: ord) M K1) as (_ & _ & T3).
  exists front, rest. split; auto. split; auto. intros n. rewrite I, T3. tauto.
Qed.
