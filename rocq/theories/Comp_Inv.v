From Coq Require Import String.
From Verif Require Import Base Comp_Model Comp_Spec Comp_Proofs.
Local Open Scope nat_scope.

Record Inv (h : heap) : Prop := {
  i_coh : forall f x, get h f = Some x -> coherent x;
  i_rem : forall f x, get h f = Some x -> removed x = true -> active x = false;
  i_par : forall f x, get h f = Some x -> match parent x with None => parentActive x = true | Some p => p < f end;
  i_nod : forall f x, get h f = Some x -> NoDup (items x);
  i_fold : forall f x, get h f = Some x -> accepts x = None -> items x = [];
  i_its : forall f x i, get h f = Some x -> In i (items x) -> exists y, get h i = Some y /\ parent y = Some f /\ f < i /\ removed y = false /\ parentActive y = active x }.

Lemma inv_local : forall h c, Inv h -> Local h c.
Proof. intros h c HI f x _ Ef. split; [exact (i_nod h HI f x Ef)|]. intros i Hi. destruct (i_its h HI f x i Ef Hi) as (y & A & B & C & D & _). eauto 6. Qed.
Lemma inv_linked : forall h c, Inv h -> Linked h c.
Proof. intros h c HI f x i y _ Ef Hi Ey. destruct (i_its h HI f x i Ef Hi) as (y' & A & _ & _ & _ & E). rewrite Ey in A. injection A as <-. exact E. Qed.
Lemma inv_coh : forall h c, Inv h -> Coh h c.
Proof. intros h c HI f x _ Ef. exact (i_coh h HI f x Ef). Qed.
Lemma inv_parent : forall h p k y, Inv h -> In k (content h p) -> get h k = Some y -> parent y = Some p /\ p < k /\ removed y = false.
Proof.
  intros h p k y HI Hk Ey. apply content_in in Hk. destruct Hk as (x & Ex & Hx). destruct (i_its h HI p x k Ex Hx) as (y' & A & B & C & D & _).
  rewrite Ey in A. injection A as <-. auto.
Qed.
Lemma same_get : forall h h' k, length h' = length h -> get h' k = None <-> get h k = None.
Proof. intros h h' k H. unfold get. rewrite !nth_error_None, H. reflexivity. Qed.

Lemma inv_nil : Inv [].
Proof. constructor; intros f x; try (intros i); unfold get; destruct f; discriminate. Qed.

(** ** Components taken out *)
Lemma dead_facts : forall y, coherent y -> coherent (dead y) /\ active (dead y) = false /\ parent (dead y) = parent y /\ parentActive (dead y) = parentActive y /\ lid (dead y) = lid y /\ removed (dead y) = true /\ items (dead y) = [] /\ accepts (dead y) = accepts y.
Proof.
  intros y H. unfold coherent, dead in *. destruct (active y) eqn:E; cbn [set_items set_flags set_active active parentActive localActive parent lid removed items accepts]; repeat split; auto using andb_false_r.
  congruence.
Qed.

Lemma inv_kill : forall h h' (D : nat -> Prop), Inv h -> length h' = length h ->
  (forall k p, In k (content h p) -> D p -> D k) -> (forall k, D k \/ ~ D k) ->
  (forall k y, get h k = Some y -> D k -> get h' k = Some (dead y)) ->
  (forall k y, get h k = Some y -> ~ D k -> exists l, get h' k = Some (set_items l y) /\ NoDup l /\ incl l (items y) /\ (forall i, In i l -> ~ D i)) -> Inv h'.
Proof.
  intros h h' D HI Hlen Hclos Hdec Hin Hout.
  assert (G : forall f x', get h' f = Some x' -> exists x, get h f = Some x /\ ((D f /\ x' = dead x) \/ (~ D f /\ exists l, x' = set_items l x /\ NoDup l /\ incl l (items x) /\ (forall i, In i l -> ~ D i)))).
  { intros f x' E. destruct (get h f) as [x|] eqn:Ex.
    - exists x. split; [reflexivity|]. destruct (Hdec f) as [Hd|Hd].
      + left. rewrite (Hin f x Ex Hd) in E. injection E as <-. auto.
      + right. split; [exact Hd|]. destruct (Hout f x Ex Hd) as (l & El & R). rewrite El in E. injection E as <-. eauto.
    - apply (same_get h h' f Hlen) in Ex. congruence. }
  constructor.
  - intros f x' E. destruct (G f x' E) as (x & Ex & [[_ ->]|[_ (l & -> & _)]]); [apply dead_facts|]; exact (i_coh h HI f x Ex).
  - intros f x' E R. destruct (G f x' E) as (x & Ex & [[_ ->]|[_ (l & -> & _)]]); [apply dead_facts; exact (i_coh h HI f x Ex)|]. exact (i_rem h HI f x Ex R).
  - intros f x' E. destruct (G f x' E) as (x & Ex & [[_ ->]|[_ (l & -> & _)]]).
    + destruct (dead_facts x (i_coh h HI f x Ex)) as (_ & _ & -> & -> & _). exact (i_par h HI f x Ex).
    + exact (i_par h HI f x Ex).
  - intros f x' E. destruct (G f x' E) as (x & Ex & [[_ ->]|[_ (l & -> & N & _)]]); [|exact N].
    destruct (dead_facts x (i_coh h HI f x Ex)) as (_ & _ & _ & _ & _ & _ & -> & _). constructor.
  - intros f x' E A. destruct (G f x' E) as (x & Ex & [[_ ->]|[_ (l & -> & N & I & _)]]).
    + apply (dead_facts x (i_coh h HI f x Ex)).
    + cbn [set_items items accepts] in *. rewrite (i_fold h HI f x Ex A) in I. destruct l as [|a l]; [reflexivity|]. destruct (I a (or_introl eq_refl)).
  - intros f x' i E Hi. destruct (G f x' E) as (x & Ex & [[_ ->]|[Hf (l & -> & N & I & Nd)]]).
    + destruct (dead_facts x (i_coh h HI f x Ex)) as (_ & _ & _ & _ & _ & _ & H & _). rewrite H in Hi. destruct Hi.
    + cbn [set_items items active] in *. destruct (i_its h HI f x i Ex (I i Hi)) as (y & Ey & P & L & R & A).
      destruct (Hout i y Ey (Nd i Hi)) as (l' & El' & _). exists (set_items l' y). auto.
Qed.

Lemma among_dec : forall h l k, Inv h -> among h l k \/ ~ among h l k.
Proof.
  intros h l k HI. induction l as [|i l IH]; [right; intros (j & [] & _)|].
  destruct (inside_dec h i (inv_local h i HI) k) as [H|H]; [left; exists i; split; [now left|exact H]|].
  destruct IH as [(j & Hj & Hk)|N]; [left; exists j; split; [now right|exact Hk]|right]. intros (j & [->|Hj] & Hk); [auto|]. apply N. exists j. auto.
Qed.
Lemma among_closed : forall h l k p, In k (content h p) -> among h l p -> among h l k.
Proof. intros h l k p Hk (i & Hi & Hp). exists i. split; [exact Hi|]. eapply inside_item; eassumption. Qed.
Lemma among_up : forall h f x l i, Inv h -> get h f = Some x -> incl l (items x) -> In i (items x) -> among h l i -> In i l.
Proof.
  intros h f x l i HI Ex Hl Hi (j & Hj & Hk). assert (i = j); [|now subst].
  eapply (siblings h f i i j); [apply inv_local; exact HI| | |constructor|exact Hk]; rewrite (content_get _ _ _ Ex); auto.
Qed.
Lemma among_not_f : forall h f x l, Inv h -> get h f = Some x -> incl l (items x) -> ~ among h l f.
Proof. intros h f x l HI Ex Hl (j & Hj & Hk). apply (not_up h f j (inv_local h f HI)); [rewrite (content_get _ _ _ Ex); auto|exact Hk]. Qed.

Lemma inv_remove : forall h c, Inv h -> (forall f, ~ In c (content h f)) -> Inv (fst (remove (S (length h)) h c)).
Proof.
  intros h c HI Hc. destruct (get h c) as [x|] eqn:Ex; [|cbn [remove]; rewrite Ex; exact HI].
  destruct (removed x) eqn:Rm; [cbn [remove]; rewrite Ex, Rm; exact HI|].
  destruct (remove_spec (S (length h)) h c x (inv_local h c HI) Ex Rm ltac:(lia)) as (h' & E & L & I & O). rewrite E. cbn [fst].
  apply (inv_kill h h' (fun k => inside h k c) HI L).
  - intros k p Hk Hp. eapply inside_item; eassumption.
  - intros k. destruct (inside_dec h c (inv_local h c HI) k); auto.
  - intros k y Ey Hk. exact (I k y Hk Ey).
  - intros k y Ey Hk. exists (items y). rewrite (O k Hk), Ey. split; [now destruct y|]. split; [exact (i_nod h HI k y Ey)|]. split; [apply incl_refl|].
    intros i Hi Hin. inversion Hin as [|i' p c' Hi' Hp]; subst; [apply (Hc k); rewrite (content_get _ _ _ Ey); exact Hi|].
    destruct (i_its h HI k y i Ey Hi) as (z & Ez & P & _). destruct (inv_parent h p i z HI Hi' Ez) as [P' _]. rewrite P in P'. injection P' as <-. auto.
Qed.

(** the items of [l] of the folder [f] are removed and [rest] are left *)
Lemma inv_take : forall h f x l rest h1, Inv h -> get h f = Some x -> incl l (items x) -> NoDup rest -> incl rest (items x) -> (forall i, In i rest -> ~ In i l) ->
  length h1 = length h -> (forall k y, among h l k -> get h k = Some y -> get h1 k = Some (dead y)) -> (forall k, ~ among h l k -> get h1 k = get h k) ->
  (forall k y, get h k = Some y -> k <> f -> ~ among h l k -> forall i, In i (items y) -> ~ In i l) ->
  Inv (put h1 f (set_items rest x)).
Proof.
  intros h f x l rest h1 HI Ex Hl Nd Hr Hlr L I O Hoth. pose proof (among_not_f h f x l HI Ex Hl) as Nf.
  apply (inv_kill h _ (among h l) HI).
  - now rewrite len_put.
  - intros k p. apply among_closed.
  - intros k. now apply among_dec.
  - intros k y Ey Hk. rewrite get_put_other; [now apply I|]. intros ->. auto.
  - intros k y Ey Hk. destruct (Nat.eq_dec k f) as [->|N].
    + rewrite Ex in Ey. injection Ey as <-. exists rest. split; [rewrite get_put, Nat.eqb_refl, O, Ex by exact Nf; reflexivity|]. split; [exact Nd|]. split; [exact Hr|].
      intros i Hi Ha. apply (Hlr i Hi). eapply among_up; eauto.
    + exists (items y). rewrite get_put_other, (O k Hk), Ey by exact N. split; [now destruct y|]. split; [exact (i_nod h HI k y Ey)|]. split; [apply incl_refl|].
      intros i Hi (j & Hj & Hin). inversion Hin as [|i' p c' Hi' Hp]; subst; [exact (Hoth k y Ey N Hk j Hi Hj)|].
      destruct (i_its h HI k y i Ey Hi) as (z & Ez & P & _). destruct (inv_parent h p i z HI Hi' Ez) as [P' _]. rewrite P in P'. injection P' as <-. apply Hk. exists j. auto.
Qed.
Lemma other_folder : forall h f x k y i, Inv h -> get h f = Some x -> get h k = Some y -> k <> f -> In i (items y) -> ~ In i (items x).
Proof.
  intros h f x k y i HI Ex Ey N Hi Hi'. destruct (i_its h HI k y i Ey Hi) as (z & Ez & P & _). destruct (i_its h HI f x i Ex Hi') as (z' & Ez' & P' & _). congruence.
Qed.

Lemma take_one : forall h f x i, Inv h -> get h f = Some x -> In i (items x) -> exists h1, remove (S (length h)) h i = (h1, Success) /\ get h1 f = Some x /\ length h1 = length h /\
  (forall k y, among h [i] k -> get h k = Some y -> get h1 k = Some (dead y)) /\ (forall k, ~ among h [i] k -> get h1 k = get h k).
Proof.
  intros h f x i HI Ex Hi. destruct (i_its h HI f x i Ex Hi) as (y & Ey & P & Lt & Rm & _).
  destruct (remove_spec (S (length h)) h i y (inv_local h i HI) Ey Rm ltac:(lia)) as (h1 & E & L & I & O). exists h1. split; [exact E|].
  assert (A : forall k, among h [i] k <-> inside h k i) by (intros k; split; [intros (j & [->|[]] & Hj); exact Hj|intros Hk; exists i; split; [now left|exact Hk]]).
  split; [rewrite O; [exact Ex|]; apply (not_up h f i (inv_local h f HI)); rewrite (content_get _ _ _ Ex); exact Hi|]. split; [exact L|]. split.
  - intros k z Hk. apply I. now apply A.
  - intros k Hk. apply O. intros H. apply Hk. now apply A.
Qed.

Lemma filter_not : forall i l, NoDup l -> NoDup (filter (fun j => negb (j =? i)) l) /\ incl (filter (fun j => negb (j =? i)) l) l /\ (forall k, In k (filter (fun j => negb (j =? i)) l) -> ~ In k [i]).
Proof.
  intros i l N. split; [now apply NoDup_filter|]. split; [intros k Hk; apply filter_In in Hk; apply Hk|]. intros k Hk [->|[]]. apply filter_In in Hk. destruct Hk as [_ H]. rewrite Nat.eqb_refl in H. discriminate.
Qed.

Lemma find_facts : forall h l s i, findItem h l s = Some i -> In i l /\ lidOf h i = s.
Proof. intros h l s i H. apply find_some in H. destruct H as [H1 H2]. apply String.eqb_eq in H2. auto. Qed.

Lemma inv_removeById : forall h f s, Inv h -> Inv (fst (removeById h f s)).
Proof.
  intros h f s HI. unfold removeById. destruct (get h f) as [x|] eqn:Ex; [|exact HI]. destruct (accepts x); [|exact HI].
  destruct (findItem h (items x) s) as [i|] eqn:Ef; [|exact HI]. apply find_facts in Ef. destruct Ef as [Hi _].
  destruct (take_one h f x i HI Ex Hi) as (h1 & E & Exf & L & I & O). rewrite E. cbn [fails fst]. rewrite Exf.
  destruct (filter_not i (items x) (i_nod h HI f x Ex)) as (F1 & F2 & F3).
  apply (inv_take h f x [i] _ h1 HI Ex); auto.
  - intros j [<-|[]]. exact Hi.
  - intros k y Ey N _ j Hj [<-|[]]. exact (other_folder h f x k y i HI Ex Ey N Hj Hi).
Qed.

Lemma take_all : forall h f x, Inv h -> get h f = Some x -> exists h1, each (remove (S (length h))) h (items x) = (h1, Success) /\ get h1 f = Some x /\ length h1 = length h /\
  (forall k y, among h (items x) k -> get h k = Some y -> get h1 k = Some (dead y)) /\ (forall k, ~ among h (items x) k -> get h1 k = get h k).
Proof.
  intros h f x HI Ex. pose proof (get_lt _ _ _ Ex) as Lf.
  destruct (each_remove (S (length h)) (remove_spec (S (length h))) h f (inv_local h f HI) ltac:(lia) (items x) (i_nod h HI f x Ex) ltac:(rewrite (content_get _ _ _ Ex); auto) h eq_refl ltac:(reflexivity)) as (h1 & E & L & I & O).
  exists h1. split; [exact E|]. split; [rewrite O; [exact Ex|]; apply (among_not_f h f x); auto using incl_refl|]. auto.
Qed.

Lemma inv_clear : forall h f, Inv h -> Inv (fst (clear h f)).
Proof.
  intros h f HI. unfold clear. destruct (get h f) as [x|] eqn:Ex; [|exact HI]. destruct (accepts x); [|exact HI].
  destruct (take_all h f x HI Ex) as (h1 & E & Exf & L & I & O). rewrite E. cbn [fails fst]. rewrite Exf.
  apply (inv_take h f x (items x) [] h1 HI Ex); auto using incl_refl; try constructor.
  - intros i [].
  - intros k y Ey N _ j Hj. exact (other_folder h f x k y j HI Ex Ey N Hj).
Qed.

(** ** Activity *)
Lemma inv_notify : forall u h c x b, Inv h -> get h c = Some x -> removed x = false ->
  let x' := set_active b (parentActive x) x in
  let h1 := put h c x' in
  let r := if Bool.eqb (active x) (active x') then (h1, Success) else notifyActiveChanged u h1 c (items x) in
  Inv (fst r) /\ fails (snd r) = false /\ length (fst r) = length h /\
  (forall k y, get h k = Some y -> exists l p, get (fst r) k = Some (set_active l p y) /\ l = (if k =? c then b else localActive y)).
Proof.
  intros u h c x b HI Ex Rm x' h1 r. pose proof (get_lt _ _ _ Ex) as Lc.
  assert (E1 : get h1 c = Some x') by (apply (get_put_same _ _ _ _ Ex)).
  assert (O1 : forall k, k <> c -> get h1 k = get h k) by (intros k N; now apply get_put_other).
  pose proof (inv_local h c HI) as HL. assert (Cx : content h c = items x) by (apply content_get; exact Ex).
  assert (Fin : forall g, length g = length h -> (forall k, among h (items x) k -> notified h g k) -> (forall k, ~ among h (items x) k -> get g k = get h1 k) ->
     (forall i y, In i (items x) -> get g i = Some y -> parentActive y = active x') -> (forall i, In i (items x) -> Linked g i) -> Inv g /\
     (forall k y, get h k = Some y -> exists l p, get g k = Some (set_active l p y) /\ l = (if k =? c then b else localActive y))).
  { intros g Lg Hin Hout Hb Hlk.
    assert (Nc : ~ among h (items x) c) by (apply (among_not_f h c x); auto using incl_refl).
    assert (G : forall k y, get h k = Some y -> exists l p, get g k = Some (set_active l p y) /\ l = (if k =? c then b else localActive y) /\ (~ among h (items x) k -> p = parentActive y)).
    { intros k y Ey. destruct (among_dec h (items x) k HI) as [Ha|Ha].
      - destruct (Hin k Ha y Ey) as [p Ep]. exists (localActive y), p. split; [exact Ep|]. split; [|contradiction]. destruct (k =? c) eqn:Ek; [|reflexivity]. apply Nat.eqb_eq in Ek. subst k. contradiction.
      - rewrite (Hout k Ha). destruct (Nat.eq_dec k c) as [->|N].
        + rewrite Nat.eqb_refl, E1. rewrite Ex in Ey. injection Ey as <-. exists b, (parentActive x). auto.
        + rewrite (O1 k N), Ey. apply Nat.eqb_neq in N. rewrite N. exists (localActive y), (parentActive y). rewrite set_active_id by exact (i_coh h HI k y Ey). auto. }
    split; [|intros k y Ey; destruct (G k y Ey) as (l & p & A & B & _); eauto].
    assert (Gi : forall k z, get g k = Some z -> exists y l p, get h k = Some y /\ z = set_active l p y /\ (~ among h (items x) k -> p = parentActive y)).
    { intros k z E. destruct (get h k) as [y|] eqn:Ey; [|apply (same_get h g k Lg) in Ey; congruence]. destruct (G k y Ey) as (l & p & A & _ & C). rewrite A in E. injection E as <-. eauto 6. }
    constructor.
    - intros f z E. destruct (Gi f z E) as (y & l & p & _ & -> & _). reflexivity.
    - intros f z E R. destruct (Gi f z E) as (y & l & p & Ey & -> & _). cbn [set_active removed] in R.
      assert (Ha : ~ among h (items x) f).
      { intros (i & Hi & Hk). inversion Hk as [|k' q i' Hk' Hp]; subst.
        - destruct (i_its h HI c x i Ex Hi) as (w & Ew & _ & _ & Rw & _). congruence.
        - destruct (inv_parent h q f y HI Hk' Ey) as (_ & _ & Rw). congruence. }
      rewrite (Hout f Ha) in E. destruct (Nat.eq_dec f c) as [->|N]; [rewrite Ex in Ey; injection Ey as <-; congruence|]. rewrite (O1 f N), Ey in E. injection E as E. rewrite <- E. exact (i_rem h HI f y Ey R).
    - intros f z E. destruct (Gi f z E) as (y & l & p & Ey & -> & Hp). cbn [set_active parent parentActive]. pose proof (i_par h HI f y Ey) as P. destruct (parent y) as [q|] eqn:Eq; [exact P|].
      rewrite Hp; [exact P|]. intros (i & Hi & Hk). inversion Hk as [|k' q i' Hk' Hq]; subst.
      + destruct (i_its h HI c x i Ex Hi) as (w & Ew & Pw & _). congruence.
      + destruct (inv_parent h q f y HI Hk' Ey) as (Pw & _). congruence.
    - intros f z E. destruct (Gi f z E) as (y & l & p & Ey & -> & _). exact (i_nod h HI f y Ey).
    - intros f z E A. destruct (Gi f z E) as (y & l & p & Ey & -> & _). exact (i_fold h HI f y Ey A).
    - intros f z i E Hi. destruct (Gi f z E) as (y & l & p & Ey & Ez & _). assert (Hi' : In i (items y)) by (subst z; exact Hi).
      destruct (i_its h HI f y i Ey Hi') as (w & Ew & Pw & Lw & Rw & Aw). destruct (G i w Ew) as (l' & p' & Eg & _ & Hp'). exists (set_active l' p' w).
      split; [exact Eg|]. split; [exact Pw|]. split; [exact Lw|]. split; [exact Rw|].
      destruct (Nat.eq_dec f c) as [->|N].
      + assert (Hz : z = x') by (rewrite (Hout c Nc), E1 in E; congruence). rewrite Hz. assert (Exy : y = x) by congruence. subst y. apply (Hb i _ Hi' Eg).
      + destruct (among_dec h (items x) f HI) as [(j & Hj & Hf)|Ha].
        * eapply (Hlk j Hj f z i); try eassumption. apply (inside_agree h g j); [|exact Hf]. intros k Hk.
          assert (Hak : among h (items x) k) by (exists j; auto). apply notified_content; [now apply Hin|]. inversion Hk as [|k' q j' Hk' Hq]; subst.
          -- destruct (i_its h HI c x j Ex Hj) as (v & -> & _). discriminate.
          -- apply content_in in Hk'. destruct Hk' as (v & Ev & Hv). destruct (i_its h HI q v k Ev Hv) as (v' & -> & _). discriminate.
        * assert (Hai : ~ among h (items x) i).
          { intros (j & Hj & Hij). inversion Hij as [|k' q j' Hk' Hq]; subst; [exact (other_folder h c x f y j HI Ex Ey N Hi' Hj)|].
            destruct (inv_parent h q i w HI Hk' Ew) as (Pw' & _). rewrite Pw in Pw'. injection Pw' as <-. apply Ha. exists j. auto. }
          rewrite (Hout f Ha), (O1 f N), Ey in E. injection E as E. cbn [set_active parentActive]. rewrite (Hp' Hai), <- E. exact Aw. }
  subst r. destruct (Bool.eqb (active x) (active x')) eqn:Ea.
  - apply Bool.eqb_prop in Ea. cbn [fst snd]. destruct (Fin h1) as [F1 F2].
    + apply len_put.
    + intros k (i & Hi & Hk) y Ey. assert (k <> c) by (intros ->; apply (not_up h c i HL); [rewrite Cx; exact Hi|exact Hk]). rewrite (O1 k) by assumption. rewrite Ey. exists (parentActive y). rewrite set_active_id; [reflexivity|]. exact (i_coh h HI k y Ey).
    + reflexivity.
    + intros i y Hi Ey. rewrite O1 in Ey; [|intros ->; destruct (i_its h HI c x c Ex Hi) as (w & _ & _ & L & _); lia]. rewrite <- Ea. exact (inv_linked h c HI c x i y (inside_self h c) Ex Hi Ey).
    + intros i Hi. assert (Agr : forall k, inside h k i -> get h1 k = get h k) by (intros k Hk; apply O1; intros ->; apply (not_up h c i HL); [rewrite Cx; exact Hi|exact Hk]).
      intros f z j w Hf Ef Hj Ew. apply (inside_agree h h1 i) in Hf; [|intros k Hk; unfold content; now rewrite (Agr k Hk)]. rewrite (Agr f Hf) in Ef.
      rewrite Agr in Ew; [exact (inv_linked h i HI f z j w Hf Ef Hj Ew)|]. eapply inside_item; [|exact Hf]. rewrite (content_get _ _ _ Ef). exact Hj.
    + split; [exact F1|]. split; [reflexivity|]. split; [apply len_put|exact F2].
  - unfold notifyActiveChanged.
    assert (HLC : forall i, In i (content h c) -> Linked h i /\ Coh h i) by (intros i _; split; [now apply inv_linked|now apply inv_coh]).
    destruct (each_notify u (S (length h1)) (spa_spec u (S (length h1))) h c HL (or_intror Logic.I) HLC ltac:(unfold h1; rewrite len_put; lia) (items x) (i_nod h HI c x Ex) ltac:(rewrite Cx; auto) h1 (active x') ltac:(apply len_put) ltac:(unfold activeOf; now rewrite E1)) as (g & E & L & I & O & B & Lk).
    { intros i k Hi Hk. apply O1. intros ->. apply (not_up h c i HL); [rewrite Cx; exact Hi|exact Hk]. }
    rewrite E. cbn [fst snd fails]. destruct (Fin g L I O B Lk) as [F1 F2]. auto.
Qed.

Lemma inv_setActive : forall h c b, Inv h -> Inv (fst (setActive h c b)).
Proof.
  intros h c b HI. unfold setActive. destruct (get h c) as [x|] eqn:Ex; [|exact HI]. destruct (frozen x); [exact HI|]. destruct (removed x) eqn:Rm; [exact HI|].
  destruct (Bool.eqb b (localActive x)); [exact HI|]. destruct (lockedActive x); [exact HI|].
  pose proof (inv_notify false h c x b HI Ex Rm) as H. cbv zeta in H |- *. destruct (Bool.eqb (active x) _); apply H.
Qed.
Lemma inv_update : forall h c o, Inv h -> ~ is_removed h c -> Inv (fst (update h c o)).
Proof.
  intros h c o HI Hr. unfold update. destruct (get h c) as [x|] eqn:Ex; [|exact HI]. destruct (lockedActive x); [exact HI|].
  assert (Rm : removed x = false). { destruct (removed x) eqn:E; [|reflexivity]. exfalso. apply Hr. unfold is_removed. cbn [step]. unfold with_comp. rewrite Ex, E. reflexivity. }
  pose proof (inv_notify true h c x (match o with Some b => b | None => true end) HI Ex Rm) as H. cbv zeta in H |- *. destruct (Bool.eqb (active x) _); apply H.
Qed.

(** ** The rest *)
Lemma inv_same : forall h h', Inv h -> length h' = length h ->
  (forall k y, get h k = Some y -> exists z, get h' k = Some z /\ parent z = parent y /\ accepts z = accepts y /\ items z = items y /\ active z = active y /\ parentActive z = parentActive y /\ localActive z = localActive y /\ removed z = removed y) -> Inv h'.
Proof.
  intros h h' HI L H.
  assert (G : forall k z, get h' k = Some z -> exists y, get h k = Some y /\ parent z = parent y /\ accepts z = accepts y /\ items z = items y /\ active z = active y /\ parentActive z = parentActive y /\ localActive z = localActive y /\ removed z = removed y).
  { intros k z E. destruct (get h k) as [y|] eqn:Ey; [|apply (same_get h h' k L) in Ey; congruence]. destruct (H k y Ey) as (z' & E' & R). rewrite E in E'. injection E' as <-. eauto. }
  constructor.
  - intros f z E. destruct (G f z E) as (y & Ey & A & B & C & D & F & K & M). unfold coherent. rewrite D, F, K. exact (i_coh h HI f y Ey).
  - intros f z E R. destruct (G f z E) as (y & Ey & A & B & C & D & F & K & M). rewrite D. apply (i_rem h HI f y Ey). congruence.
  - intros f z E. destruct (G f z E) as (y & Ey & A & B & C & D & F & K & M). rewrite A, F. exact (i_par h HI f y Ey).
  - intros f z E. destruct (G f z E) as (y & Ey & A & B & C & D & F & K & M). rewrite C. exact (i_nod h HI f y Ey).
  - intros f z E Ac. destruct (G f z E) as (y & Ey & A & B & C & D & F & K & M). rewrite C. apply (i_fold h HI f y Ey). congruence.
  - intros f z i E Hi. destruct (G f z E) as (y & Ey & A & B & C & D & F & K & M). rewrite C in Hi. destruct (i_its h HI f y i Ey Hi) as (w & Ew & P1 & P2 & P3 & P4).
    destruct (H i w Ew) as (w' & Ew' & A' & B' & C' & D' & F' & K' & M'). exists w'. split; [exact Ew'|]. split; [congruence|]. split; [exact P2|]. split; congruence.
Qed.
Lemma inv_flags : forall h c x f la lv v, Inv h -> get h c = Some x -> Inv (put h c (set_flags (removed x) f la lv v x)).
Proof.
  intros h c x f la lv v HI Ex. apply (inv_same h _ HI); [apply len_put|]. intros k y Ey. destruct (Nat.eq_dec k c) as [->|N].
  - rewrite (get_put_same _ _ _ _ Ex). rewrite Ex in Ey. injection Ey as <-. eexists. split; [reflexivity|]. repeat split.
  - rewrite get_put_other by exact N. exists y. repeat split; assumption.
Qed.

Lemma get_app : forall h x k, get (h ++ [x]) k = if k =? length h then Some x else get h k.
Proof.
  intros h x k. unfold get. destruct (lt_eq_lt_dec k (length h)) as [[L|E]|L].
  - rewrite nth_error_app1 by exact L. destruct (k =? length h) eqn:E; [apply Nat.eqb_eq in E; lia|reflexivity].
  - subst k. rewrite nth_error_app2, Nat.sub_diag, Nat.eqb_refl by lia. reflexivity.
  - destruct (k =? length h) eqn:E; [apply Nat.eqb_eq in E; lia|]. rewrite !(proj2 (nth_error_None _ _)); [reflexivity|lia|rewrite app_length; cbn [length]; lia].
Qed.
Lemma inv_app : forall h x, Inv h -> items x = [] -> coherent x -> (removed x = true -> active x = false) -> match parent x with None => parentActive x = true | Some p => p < length h end -> Inv (h ++ [x]).
Proof.
  intros h x HI Hi Hc Hr Hp.
  assert (G : forall k z, get (h ++ [x]) k = Some z -> (k = length h /\ z = x) \/ get h k = Some z).
  { intros k z. rewrite get_app. destruct (k =? length h) eqn:E; [apply Nat.eqb_eq in E; intros [= <-]; now left|now right]. }
  assert (Gm : forall k z, get h k = Some z -> get (h ++ [x]) k = Some z).
  { intros k z E. rewrite get_app. pose proof (get_lt _ _ _ E). destruct (k =? length h) eqn:E'; [apply Nat.eqb_eq in E'; lia|exact E]. }
  constructor.
  - intros f z E. destruct (G f z E) as [[-> ->]|E']; [exact Hc|exact (i_coh h HI f z E')].
  - intros f z E. destruct (G f z E) as [[-> ->]|E']; [exact Hr|exact (i_rem h HI f z E')].
  - intros f z E. destruct (G f z E) as [[-> ->]|E']; [exact Hp|exact (i_par h HI f z E')].
  - intros f z E. destruct (G f z E) as [[-> ->]|E']; [rewrite Hi; constructor|exact (i_nod h HI f z E')].
  - intros f z E. destruct (G f z E) as [[-> ->]|E']; [intros _; exact Hi|exact (i_fold h HI f z E')].
  - intros f z i E Hin. destruct (G f z E) as [[-> ->]|E']; [rewrite Hi in Hin; destruct Hin|]. destruct (i_its h HI f z i E' Hin) as (y & Ey & R). exists y. split; [now apply Gm|exact R].
Qed.

Lemma inv_create : forall h p s t a, Inv h -> Inv (fst (create h p s t a)).
Proof.
  intros h p s t a HI. unfold create. destruct (String.eqb s EmptyString); [exact HI|]. destruct p as [q|].
  - destruct (get h q) as [x|] eqn:Ex; [|exact HI]. cbn [fst]. apply inv_app; cbn; try reflexivity; try assumption; try discriminate.
    + unfold coherent. cbn. now rewrite andb_true_r.
    + exact (get_lt _ _ _ Ex).
  - cbn [fst]. apply inv_app; cbn; try reflexivity; try assumption; discriminate.
Qed.

Lemma find_none : forall h l s i, findItem h l s = None -> In i l -> lidOf h i <> s.
Proof. intros h l s i H Hi E. pose proof (find_none _ _ H i Hi) as F. cbn beta in F. rewrite E, String.eqb_refl in F. discriminate. Qed.

Lemma inv_add : forall h f c, Inv h -> tidy_op h (AddItem f c) -> Inv (fst (addItem h f c)).
Proof.
  intros h f c HI (Hp & Hr & Ha). unfold addItem. destruct (get h f) as [x|] eqn:Ex; [|exact HI]. destruct (get h c) as [y|] eqn:Ey; [|exact HI].
  destruct (accepts x) as [t|] eqn:Ac; [|exact HI]. destruct (negb _); [exact HI|]. destruct (findItem h (items x) (lid y)) eqn:Ef; [exact HI|]. cbn [fst].
  unfold parent_of in Hp. rewrite Ey in Hp. cbn [step] in Ha. unfold with_comp in Ha. rewrite Ex, Ey in Ha. injection Ha as Ha.
  assert (Rm : removed y = false). { destruct (removed y) eqn:E; [|reflexivity]. exfalso. apply Hr. unfold is_removed. cbn [step]. unfold with_comp. rewrite Ey, E. reflexivity. }
  assert (Nin : ~ In c (items x)). { intros Hin. apply (find_none h _ _ c Ef Hin). unfold lidOf. now rewrite Ey. }
  pose proof (i_par h HI c y Ey) as Lt. rewrite Hp in Lt.
  set (x' := set_items (items x ++ [c]) x). assert (E1 : get (put h f x') f = Some x') by (apply (get_put_same _ _ _ _ Ex)).
  assert (O1 : forall k, k <> f -> get (put h f x') k = get h k) by (intros k N; now apply get_put_other).
  assert (G : forall k z, get (put h f x') k = Some z -> exists w, get h k = Some w /\ ((k = f /\ z = x' /\ w = x) \/ (k <> f /\ z = w))).
  { intros k z E. destruct (Nat.eq_dec k f) as [->|N]; [rewrite E1 in E; injection E as <-; exists x; split; [exact Ex|left; auto]|rewrite (O1 k N) in E; exists z; split; [exact E|right; auto]]. }
  constructor.
  - intros k z E. destruct (G k z E) as (w & Ew & [(-> & -> & ->)|(N & ->)]); exact (i_coh h HI _ _ Ew).
  - intros k z E. destruct (G k z E) as (w & Ew & [(-> & -> & ->)|(N & ->)]); exact (i_rem h HI _ _ Ew).
  - intros k z E. destruct (G k z E) as (w & Ew & [(-> & -> & ->)|(N & ->)]); exact (i_par h HI _ _ Ew).
  - intros k z E. destruct (G k z E) as (w & Ew & [(-> & -> & ->)|(N & ->)]); [|exact (i_nod h HI _ _ Ew)]. cbn [x' set_items items].
    assert (P : NoDup (c :: items x)) by (constructor; [exact Nin|exact (i_nod h HI _ _ Ew)]). apply (NoDup_Add (a := c) (l := items x)); [|split; [exact (i_nod h HI _ _ Ew)|exact Nin]].
    pose proof (Add_app c (items x) []) as HA. rewrite app_nil_r in HA. exact HA.
  - intros k z E A. destruct (G k z E) as (w & Ew & [(-> & -> & ->)|(N & ->)]); [cbn in A; congruence|exact (i_fold h HI _ _ Ew A)].
  - intros k z i E Hi.
    assert (Old : forall v, get h i = Some v -> exists v', get (put h f x') i = Some v' /\ parent v' = parent v /\ removed v' = removed v /\ parentActive v' = parentActive v).
    { intros v Ev. destruct (Nat.eq_dec i f) as [->|Ni]; [rewrite E1; rewrite Ex in Ev; injection Ev as <-; eauto|rewrite (O1 i Ni); eauto]. }
    destruct (G k z E) as (w & Ew & [(-> & -> & ->)|(N & ->)]).
    + cbn [x' set_items items] in Hi. apply in_app_iff in Hi. destruct Hi as [Hi|[<-|[]]].
      * destruct (i_its h HI f x i Ex Hi) as (v & Ev & P1 & P2 & P3 & P4). destruct (Old v Ev) as (v' & Ev' & Q1 & Q2 & Q3). exists v'. cbn [x' set_items active]. repeat split; congruence.
      * destruct (Old y Ey) as (v' & Ev' & Q1 & Q2 & Q3). exists v'. cbn [x' set_items active]. repeat split; congruence.
    + destruct (i_its h HI k w i Ew Hi) as (v & Ev & P1 & P2 & P3 & P4). destruct (Old v Ev) as (v' & Ev' & Q1 & Q2 & Q3). exists v'. repeat split; congruence.
Qed.

Lemma inv_step : forall h o, Inv h -> tidy_op h o -> Inv (fst (step h o)).
Proof.
  intros h o HI T. destruct o; cbn [step]; unfold with_folder, with_comp.
  - now apply inv_create.
  - now apply inv_add.
  - destruct (get h c) as [y|]; [now apply inv_removeById|exact HI].
  - now apply inv_removeById.
  - now apply inv_clear.
  - now apply inv_remove.
  - now apply inv_setActive.
  - now apply inv_update.
  - destruct (get h c) as [x|] eqn:E; [|exact HI]. destruct (removed x) eqn:R; [exact HI|]. rewrite <- R. now apply inv_flags.
  - destruct (get h c) as [x|] eqn:E; [|exact HI]. destruct (removed x) eqn:R; [exact HI|]. rewrite <- R. now apply inv_flags.
  - destruct (get h c) as [x|] eqn:E; [|exact HI]. destruct (frozen x); [exact HI|]. destruct (removed x) eqn:R; [exact HI|]. destruct (lockedVisible x); [exact HI|]. cbn [fst]. rewrite <- R. now apply inv_flags.
  - destruct (get h c) as [x|] eqn:E; [|exact HI]. destruct (frozen x); [exact HI|]. now apply inv_flags.
  - destruct (get h c); exact HI.
  - destruct (get h c); exact HI.
  - destruct (get h c); exact HI.
  - destruct (get h c); exact HI.
  - destruct (get h f) as [x|]; [destruct (accepts x)|]; exact HI.
  - destruct (get h f) as [x|]; [destruct (accepts x)|]; exact HI.
  - destruct (get h f) as [x|]; [destruct (accepts x)|]; exact HI.
Qed.
Lemma inv_after : forall l, tidy l -> Inv (after l).
Proof. induction l as [|o l IH]; intros T; [exact inv_nil|]. destruct T as [T1 T2]. cbn [after]. apply inv_step; auto. Qed.

(** ** What is kept, for any history: local ids and no two items with one local id *)
Definition Kept (h h' : heap) : Prop := length h <= length h' /\
  forall k y, get h k = Some y -> exists z keep, get h' k = Some z /\ lid z = lid y /\ accepts z = accepts y /\ items z = filter keep (items y).
Lemma kept_refl : forall h, Kept h h.
Proof. intros h. split; [lia|]. intros k y E. exists y, (fun _ => true). repeat split; auto. symmetry. clear E. induction (items y) as [|a l IH]; cbn [filter]; congruence. Qed.
Lemma filter_filter : forall (f g : nat -> bool) l, filter f (filter g l) = filter (fun x => g x && f x) l.
Proof. intros f g l. induction l as [|a l IH]; [reflexivity|]. cbn [filter]. destruct (g a); cbn [filter andb]; [destruct (f a)|]; congruence. Qed.
Lemma kept_trans : forall a b c, Kept a b -> Kept b c -> Kept a c.
Proof.
  intros a b c [L1 H1] [L2 H2]. split; [lia|]. intros k y E. destruct (H1 k y E) as (z & f & E1 & A1 & B1 & C1). destruct (H2 k z E1) as (w & g & E2 & A2 & B2 & C2).
  exists w, (fun x => f x && g x). rewrite C2, C1, filter_filter. repeat split; congruence.
Qed.
Lemma kept_put : forall h c x x' keep, get h c = Some x -> lid x' = lid x -> accepts x' = accepts x -> items x' = filter keep (items x) -> Kept h (put h c x').
Proof.
  intros h c x x' keep Ex A B C. split; [rewrite len_put; lia|]. intros k y Ey. destruct (Nat.eq_dec k c) as [->|N].
  - rewrite (get_put_same _ _ _ _ Ex). rewrite Ex in Ey. injection Ey as <-. exists x', keep. auto.
  - rewrite get_put_other by exact N. destruct (kept_refl h) as [_ H]. destruct (H k y Ey) as (z & f & E & R). exists z, f. auto.
Qed.
Lemma filter_true : forall l : list nat, l = filter (fun _ => true) l.
Proof. induction l as [|a l IH]; cbn [filter]; congruence. Qed.
Lemma filter_false : forall l : list nat, [] = filter (fun _ => false) l.
Proof. induction l as [|a l IH]; cbn [filter]; congruence. Qed.
Lemma kept_each : forall f, (forall h c, Kept h (fst (f h c))) -> forall l h, Kept h (fst (each f h l)).
Proof.
  intros f Hf l. induction l as [|i l IH]; intros h; [apply kept_refl|]. cbn [each]. pose proof (Hf h i) as K. destruct (f h i) as [h' o]. cbn [fst] in K.
  destruct (fails o); [exact K|]. eapply kept_trans; [exact K|apply IH].
Qed.
Lemma kept_spa : forall u n h c b, Kept h (fst (setParentActive n u h c b)).
Proof.
  intros u n. induction n as [|n IH]; intros h c b; [apply kept_refl|]. cbn [setParentActive]. destruct (get h c) as [x|] eqn:Ex; [|apply kept_refl].
  destruct (negb u && removed x); [apply kept_refl|]. destruct (Bool.eqb b (parentActive x)); [apply kept_refl|]. cbv zeta.
  assert (K : Kept h (put h c (set_active (localActive x) b x))) by (apply (kept_put h c x _ (fun _ => true) Ex); try reflexivity; apply filter_true).
  destruct (Bool.eqb (active x) _); [exact K|]. eapply kept_trans; [exact K|]. apply kept_each. intros g i. apply IH.
Qed.
Lemma kept_remove : forall n h c, Kept h (fst (remove n h c)).
Proof.
  induction n as [|n IH]; intros h c; [apply kept_refl|]. cbn [remove]. destruct (get h c) as [x|] eqn:Ex; [|apply kept_refl]. destruct (removed x); [apply kept_refl|].
  set (x1 := set_flags true (frozen x) (lockedActive x) (lockedVisible x) (visible x) (if active x then set_active false (parentActive x) x else x)).
  assert (K1 : Kept h (put h c x1)) by (apply (kept_put h c x _ (fun _ => true) Ex); unfold x1; destruct (active x); try reflexivity; apply filter_true).
  pose proof (kept_each (remove n) IH (items x) (put h c x1)) as K2. destruct (each (remove n) (put h c x1) (items x)) as [h2 o]. cbn [fst] in K2.
  pose proof (kept_trans _ _ _ K1 K2) as K. destruct (fails o); [exact K|]. cbn [fst]. destruct (get h2 c) as [y|] eqn:Ey; [|exact K].
  eapply kept_trans; [exact K|]. apply (kept_put h2 c y _ (fun _ => false) Ey); try reflexivity. apply filter_false.
Qed.

Record Uniq (h : heap) : Prop := {
  u_its : forall f x i, get h f = Some x -> In i (items x) -> get h i <> None;
  u_nod : forall f x, get h f = Some x -> NoDup (items x);
  u_lid : forall f x i j, get h f = Some x -> In i (items x) -> In j (items x) -> lidOf h i = lidOf h j -> i = j;
  u_fold : forall f x, get h f = Some x -> accepts x = None -> items x = [] }.
Lemma kept_lid : forall h h' i, Kept h h' -> get h i <> None -> lidOf h' i = lidOf h i /\ get h' i <> None.
Proof. intros h h' i [_ H] E. destruct (get h i) as [y|] eqn:Ey; [|contradiction]. destruct (H i y Ey) as (z & keep & Ez & L & _). unfold lidOf. rewrite Ez, Ey. split; [exact L|discriminate]. Qed.
Lemma uniq_kept : forall h h', Uniq h -> Kept h h' -> length h' = length h -> Uniq h'.
Proof.
  intros h h' U K L. pose proof K as [_ H].
  assert (G : forall f z, get h' f = Some z -> exists y keep, get h f = Some y /\ lid z = lid y /\ accepts z = accepts y /\ items z = filter keep (items y)).
  { intros f z E. destruct (get h f) as [y|] eqn:Ey; [|apply (same_get h h' f L) in Ey; congruence]. destruct (H f y Ey) as (z' & keep & E' & R). rewrite E in E'. injection E' as <-. eauto. }
  constructor.
  - intros f z i E Hi. destruct (G f z E) as (y & keep & Ey & _ & _ & C). rewrite C in Hi. apply filter_In in Hi. apply (kept_lid h h' i K). apply (u_its h U f y i Ey). apply Hi.
  - intros f z E. destruct (G f z E) as (y & keep & Ey & _ & _ & C). rewrite C. apply NoDup_filter. exact (u_nod h U f y Ey).
  - intros f z i j E Hi Hj. destruct (G f z E) as (y & keep & Ey & _ & _ & C). rewrite C in Hi, Hj. apply filter_In in Hi. apply filter_In in Hj.
    destruct (kept_lid h h' i K (u_its h U f y i Ey (proj1 Hi))) as [-> _]. destruct (kept_lid h h' j K (u_its h U f y j Ey (proj1 Hj))) as [-> _]. apply (u_lid h U f y); [exact Ey|apply Hi|apply Hj].
  - intros f z E A. destruct (G f z E) as (y & keep & Ey & _ & B & C). rewrite C, (u_fold h U f y Ey) by congruence. reflexivity.
Qed.
Lemma len_each : forall f, (forall h c, length (fst (f h c)) = length h) -> forall l h, length (fst (each f h l)) = length h.
Proof. intros f Hf l. induction l as [|i l IH]; intros h; [reflexivity|]. cbn [each]. pose proof (Hf h i) as K. destruct (f h i) as [h' o]. cbn [fst] in K. destruct (fails o); [exact K|]. rewrite IH. exact K. Qed.
Lemma len_spa : forall u n h c b, length (fst (setParentActive n u h c b)) = length h.
Proof.
  intros u n. induction n as [|n IH]; intros h c b; [reflexivity|]. cbn [setParentActive]. destruct (get h c) as [x|]; [|reflexivity]. destruct (negb u && removed x); [reflexivity|].
  destruct (Bool.eqb b (parentActive x)); [reflexivity|]. cbv zeta. destruct (Bool.eqb (active x) _); [apply len_put|]. rewrite len_each; [apply len_put|]. intros g i. apply IH.
Qed.
Lemma len_remove : forall n h c, length (fst (remove n h c)) = length h.
Proof.
  induction n as [|n IH]; intros h c; [reflexivity|]. cbn [remove]. destruct (get h c) as [x|]; [|reflexivity]. destruct (removed x); [reflexivity|].
  match goal with |- context [each (remove n) ?g (items x)] => pose proof (len_each (remove n) IH (items x) g) as K; destruct (each (remove n) g (items x)) as [h2 o] end.
  cbn [fst] in K. rewrite len_put in K. destruct (fails o); [exact K|]. cbn [fst]. destruct (get h2 c); [now rewrite len_put|exact K].
Qed.
Lemma kept_notify : forall u h c l, Kept h (fst (notifyActiveChanged u h c l)).
Proof. intros. apply kept_each. intros. apply kept_spa. Qed.
Lemma len_notify : forall u h c l, length (fst (notifyActiveChanged u h c l)) = length h.
Proof. intros. apply len_each. intros. apply len_spa. Qed.
Lemma kept_active : forall h c x l p, get h c = Some x -> Kept h (put h c (set_active l p x)).
Proof. intros. apply (kept_put h c x _ (fun _ => true)); try reflexivity; [assumption|apply filter_true]. Qed.
Lemma kept_flags : forall h c x r f la lv v, get h c = Some x -> Kept h (put h c (set_flags r f la lv v x)).
Proof. intros. apply (kept_put h c x _ (fun _ => true)); try reflexivity; [assumption|apply filter_true]. Qed.

Lemma kept_removeById : forall h f s, Kept h (fst (removeById h f s)) /\ length (fst (removeById h f s)) = length h.
Proof.
  intros h f s. unfold removeById. destruct (get h f) as [x|] eqn:Ex; [|split; [apply kept_refl|reflexivity]]. destruct (accepts x); [|split; [apply kept_refl|reflexivity]].
  destruct (findItem h (items x) s) as [i|]; [|split; [apply kept_refl|reflexivity]]. pose proof (kept_remove (S (length h)) h i) as K. pose proof (len_remove (S (length h)) h i) as L.
  destruct (remove (S (length h)) h i) as [h' o]. cbn [fst] in K, L. destruct (fails o); [auto|]. cbn [fst]. destruct (get h' f) as [y|] eqn:Ey; [|auto]. rewrite len_put. split; [|exact L].
  eapply kept_trans; [exact K|]. eapply kept_put; [exact Ey|reflexivity..].
Qed.
Lemma kept_clear : forall h f, Kept h (fst (clear h f)) /\ length (fst (clear h f)) = length h.
Proof.
  intros h f. unfold clear. destruct (get h f) as [x|] eqn:Ex; [|split; [apply kept_refl|reflexivity]]. destruct (accepts x); [|split; [apply kept_refl|reflexivity]].
  pose proof (kept_each (remove (S (length h))) (kept_remove (S (length h))) (items x) h) as K. pose proof (len_each (remove (S (length h))) (len_remove (S (length h))) (items x) h) as L.
  destruct (each (remove (S (length h))) h (items x)) as [h' o]. cbn [fst] in K, L. destruct (fails o); [auto|]. cbn [fst]. destruct (get h' f) as [y|] eqn:Ey; [|auto]. rewrite len_put. split; [|exact L].
  eapply kept_trans; [exact K|]. eapply (kept_put h' f y _ (fun _ => false)); [exact Ey|reflexivity|reflexivity|apply filter_false].
Qed.

Lemma uniq_add : forall h f c, Uniq h -> Uniq (fst (addItem h f c)).
Proof.
  intros h f c U. unfold addItem. destruct (get h f) as [x|] eqn:Ex; [|exact U]. destruct (get h c) as [y|] eqn:Ey; [|exact U]. destruct (accepts x) as [t|] eqn:Ac; [|exact U].
  destruct (negb _); [exact U|]. destruct (findItem h (items x) (lid y)) eqn:Ef; [exact U|]. cbn [fst].
  set (x' := set_items (items x ++ [c]) x). assert (E1 : get (put h f x') f = Some x') by (apply (get_put_same _ _ _ _ Ex)).
  assert (O1 : forall k, k <> f -> get (put h f x') k = get h k) by (intros k N; now apply get_put_other).
  assert (Lid : forall i, lidOf (put h f x') i = lidOf h i).
  { intros i. unfold lidOf. destruct (Nat.eq_dec i f) as [->|N]; [rewrite E1, Ex; reflexivity|now rewrite O1]. }
  assert (Nin : forall i, In i (items x) -> lidOf h i <> lid y) by (intros i; apply find_none; exact Ef).
  assert (Lc : lidOf h c = lid y) by (unfold lidOf; now rewrite Ey).
  assert (G : forall k z, get (put h f x') k = Some z -> (k = f /\ z = x') \/ (k <> f /\ get h k = Some z)).
  { intros k z E. destruct (Nat.eq_dec k f) as [->|N]; [rewrite E1 in E; injection E as <-; auto|rewrite (O1 k N) in E; auto]. }
  assert (Ne : forall i, get h i <> None -> get (put h f x') i <> None) by (intros i Hi H; apply Hi; apply (same_get h (put h f x') i); [apply len_put|exact H]).
  constructor.
  - intros k z i E Hi. apply Ne. destruct (G k z E) as [[-> ->]|[N E']]; [|exact (u_its h U k z i E' Hi)]. cbn [x' set_items items] in Hi. apply in_app_iff in Hi. destruct Hi as [Hi|[<-|[]]]; [exact (u_its h U f x i Ex Hi)|congruence].
  - intros k z E. destruct (G k z E) as [[-> ->]|[N E']]; [|exact (u_nod h U k z E')]. cbn [x' set_items items].
    apply (NoDup_Add (a := c) (l := items x)); [pose proof (Add_app c (items x) []) as HA; rewrite app_nil_r in HA; exact HA|]. split; [exact (u_nod h U f x Ex)|]. intros Hin. exact (Nin c Hin Lc).
  - intros k z i j E Hi Hj. rewrite !Lid. destruct (G k z E) as [[-> ->]|[N E']]; [|exact (u_lid h U k z i j E' Hi Hj)]. cbn [x' set_items items] in Hi, Hj. apply in_app_iff in Hi. apply in_app_iff in Hj.
    destruct Hi as [Hi|[<-|[]]], Hj as [Hj|[<-|[]]]; intros El; [exact (u_lid h U f x i j Ex Hi Hj El)|exfalso; apply (Nin i Hi); congruence|exfalso; apply (Nin j Hj); congruence|reflexivity].
  - intros k z E A. destruct (G k z E) as [[-> ->]|[N E']]; [cbn in A; congruence|exact (u_fold h U k z E' A)].
Qed.
Lemma uniq_app : forall h x, Uniq h -> items x = [] -> Uniq (h ++ [x]).
Proof.
  intros h x U Hi.
  assert (G : forall k z, get (h ++ [x]) k = Some z -> z = x \/ get h k = Some z).
  { intros k z. rewrite get_app. destruct (k =? length h) eqn:E; [intros [= <-]; now left|now right]. }
  assert (Gm : forall k, get h k <> None -> get (h ++ [x]) k = get h k).
  { intros k E. rewrite get_app. destruct (k =? length h) eqn:E'; [|reflexivity]. apply Nat.eqb_eq in E'. exfalso. apply E. subst k. apply nth_error_None. lia. }
  constructor.
  - intros f z i E Hin. destruct (G f z E) as [->|E']; [rewrite Hi in Hin; destruct Hin|]. pose proof (u_its h U f z i E' Hin) as N. rewrite (Gm i N). exact N.
  - intros f z E. destruct (G f z E) as [->|E']; [rewrite Hi; constructor|exact (u_nod h U f z E')].
  - intros f z i j E H1 H2. destruct (G f z E) as [->|E']; [rewrite Hi in H1; destruct H1|]. unfold lidOf. rewrite !Gm by (apply (u_its h U f z); assumption). exact (u_lid h U f z i j E' H1 H2).
  - intros f z E A. destruct (G f z E) as [->|E']; [exact Hi|exact (u_fold h U f z E' A)].
Qed.

Lemma uniq_step : forall h o, Uniq h -> Uniq (fst (step h o)).
Proof.
  intros h o U. assert (KL : forall h', Kept h h' /\ length h' = length h -> Uniq h') by (intros h' [K L]; exact (uniq_kept h h' U K L)).
  destruct o; cbn [step]; unfold with_folder, with_comp.
  - unfold create. destruct (String.eqb s EmptyString); [exact U|]. destruct p as [q|]; [destruct (get h q); [|exact U]|]; cbn [fst]; now apply uniq_app.
  - now apply uniq_add.
  - destruct (get h c) as [y|]; [|exact U]. apply KL, kept_removeById.
  - apply KL, kept_removeById.
  - apply KL, kept_clear.
  - apply KL. split; [apply kept_remove|apply len_remove].
  - unfold setActive. destruct (get h c) as [x|] eqn:Ex; [|exact U]. destruct (frozen x); [exact U|]. destruct (removed x); [exact U|]. destruct (Bool.eqb b (localActive x)); [exact U|]. destruct (lockedActive x); [exact U|]. cbv zeta.
    apply KL. destruct (Bool.eqb (active x) _); [split; [now apply kept_active|apply len_put]|]. split; [eapply kept_trans; [apply kept_active; exact Ex|apply kept_notify]|rewrite len_notify; apply len_put].
  - unfold update. destruct (get h c) as [x|] eqn:Ex; [|exact U]. destruct (lockedActive x); [exact U|]. cbv zeta.
    apply KL. destruct (Bool.eqb (active x) _); [split; [now apply kept_active|apply len_put]|]. split; [eapply kept_trans; [apply kept_active; exact Ex|apply kept_notify]|rewrite len_notify; apply len_put].
  - destruct (get h c) as [x|] eqn:E; [|exact U]. destruct (removed x); [exact U|]. apply KL. split; [now apply kept_flags|apply len_put].
  - destruct (get h c) as [x|] eqn:E; [|exact U]. destruct (removed x); [exact U|]. apply KL. split; [now apply kept_flags|apply len_put].
  - destruct (get h c) as [x|] eqn:E; [|exact U]. destruct (frozen x); [exact U|]. destruct (removed x); [exact U|]. destruct (lockedVisible x); [exact U|]. apply KL. split; [now apply kept_flags|apply len_put].
  - destruct (get h c) as [x|] eqn:E; [|exact U]. destruct (frozen x); [exact U|]. apply KL. split; [now apply kept_flags|apply len_put].
  - destruct (get h c); exact U.
  - destruct (get h c); exact U.
  - destruct (get h c); exact U.
  - destruct (get h c); exact U.
  - destruct (get h f) as [x|]; [destruct (accepts x)|]; exact U.
  - destruct (get h f) as [x|]; [destruct (accepts x)|]; exact U.
  - destruct (get h f) as [x|]; [destruct (accepts x)|]; exact U.
Qed.
Lemma uniq_after : forall l, Uniq (after l).
Proof.
  induction l as [|o l IH]; [|cbn [after]; now apply uniq_step]. constructor; intros f x; try (intros i); try (intros j); cbn [after]; unfold get; destruct f; discriminate.
Qed.

(** ** Activity, for any history *)
Definition AllCoh (h : heap) : Prop := forall k y, get h k = Some y -> coherent y.
Lemma coh_put : forall h c x, AllCoh h -> coherent x -> AllCoh (put h c x).
Proof. intros h c x H Hx k y. rewrite get_put. destruct (k =? c); [|apply H]. destruct (get h c); [|discriminate]. intros [= <-]. exact Hx. Qed.
Lemma coh_each : forall f, (forall h c, AllCoh h -> AllCoh (fst (f h c))) -> forall l h, AllCoh h -> AllCoh (fst (each f h l)).
Proof. intros f Hf l. induction l as [|i l IH]; intros h H; [exact H|]. cbn [each]. pose proof (Hf h i H) as K. destruct (f h i) as [h' o]. cbn [fst] in K. destruct (fails o); [exact K|]. now apply IH. Qed.
Lemma coh_spa : forall u n h c b, AllCoh h -> AllCoh (fst (setParentActive n u h c b)).
Proof.
  intros u n. induction n as [|n IH]; intros h c b H; [exact H|]. cbn [setParentActive]. destruct (get h c) as [x|] eqn:Ex; [|exact H]. destruct (negb u && removed x); [exact H|].
  destruct (Bool.eqb b (parentActive x)); [exact H|]. cbv zeta. assert (K : AllCoh (put h c (set_active (localActive x) b x))) by (apply coh_put; [exact H|reflexivity]).
  destruct (Bool.eqb (active x) _); [exact K|]. apply coh_each; [|exact K]. intros g i Hg. now apply IH.
Qed.
Lemma coh_remove : forall n h c, AllCoh h -> AllCoh (fst (remove n h c)).
Proof.
  induction n as [|n IH]; intros h c H; [exact H|]. cbn [remove]. destruct (get h c) as [x|] eqn:Ex; [|exact H]. destruct (removed x); [exact H|].
  set (x1 := set_flags true (frozen x) (lockedActive x) (lockedVisible x) (visible x) (if active x then set_active false (parentActive x) x else x)).
  assert (K1 : AllCoh (put h c x1)) by (apply coh_put; [exact H|]; unfold x1; destruct (active x); [reflexivity|exact (H c x Ex)]).
  pose proof (coh_each (remove n) IH (items x) (put h c x1) K1) as K. destruct (each (remove n) (put h c x1) (items x)) as [h2 o]. cbn [fst] in K. destruct (fails o); [exact K|].
  cbn [fst]. destruct (get h2 c) as [y|] eqn:Ey; [|exact K]. apply coh_put; [exact K|]. exact (K c y Ey).
Qed.
Lemma coh_step : forall h o, AllCoh h -> AllCoh (fst (step h o)).
Proof.
  intros h o H.
  assert (FB : forall f s, AllCoh (fst (removeById h f s))).
  { intros f s. unfold removeById. destruct (get h f) as [x|]; [|exact H]. destruct (accepts x); [|exact H]. destruct (findItem h (items x) s) as [i|]; [|exact H].
    pose proof (coh_remove (S (length h)) h i H) as K. destruct (remove (S (length h)) h i) as [h' o']. cbn [fst] in K. destruct (fails o'); [exact K|]. cbn [fst].
    destruct (get h' f) as [y|] eqn:Ey; [|exact K]. apply coh_put; [exact K|exact (K f y Ey)]. }
  destruct o; cbn [step]; unfold with_folder, with_comp.
  - unfold create. destruct (String.eqb s EmptyString); [exact H|].
    assert (A : forall x, coherent x -> AllCoh (h ++ [x])) by (intros x Hx k y; rewrite get_app; destruct (k =? length h); [intros [= <-]; exact Hx|apply H]).
    destruct p as [q|]; [destruct (get h q); [|exact H]|]; cbn [fst]; apply A; unfold coherent; cbn [active parentActive localActive]; now rewrite andb_true_r.
  - unfold addItem. destruct (get h f) as [x|] eqn:Ex; [|exact H]. destruct (get h c) as [y|]; [|exact H]. destruct (accepts x); [|exact H]. destruct (negb _); [exact H|].
    destruct (findItem h (items x) (lid y)); [exact H|]. apply coh_put; [exact H|exact (H f x Ex)].
  - destruct (get h c); [apply FB|exact H].
  - apply FB.
  - unfold clear. destruct (get h f) as [x|]; [|exact H]. destruct (accepts x); [|exact H].
    pose proof (coh_each (remove (S (length h))) (coh_remove (S (length h))) (items x) h H) as K. destruct (each (remove (S (length h))) h (items x)) as [h' o']. cbn [fst] in K. destruct (fails o'); [exact K|]. cbn [fst].
    destruct (get h' f) as [y|] eqn:Ey; [|exact K]. apply coh_put; [exact K|exact (K f y Ey)].
  - now apply coh_remove.
  - unfold setActive. destruct (get h c) as [x|] eqn:Ex; [|exact H]. destruct (frozen x); [exact H|]. destruct (removed x); [exact H|]. destruct (Bool.eqb b (localActive x)); [exact H|]. destruct (lockedActive x); [exact H|]. cbv zeta.
    assert (K : AllCoh (put h c (set_active b (parentActive x) x))) by (apply coh_put; [exact H|reflexivity]).
    destruct (Bool.eqb (active x) _); [exact K|]. apply coh_each; [intros; now apply coh_spa|exact K].
  - unfold update. destruct (get h c) as [x|] eqn:Ex; [|exact H]. destruct (lockedActive x); [exact H|]. cbv zeta.
    match goal with |- context [put h c ?y] => assert (K : AllCoh (put h c y)) by (apply coh_put; [exact H|reflexivity]) end.
    destruct (Bool.eqb (active x) _); [exact K|]. apply coh_each; [intros; now apply coh_spa|exact K].
  - destruct (get h c) as [x|] eqn:E; [|exact H]. destruct (removed x); [exact H|]. apply coh_put; [exact H|exact (H c x E)].
  - destruct (get h c) as [x|] eqn:E; [|exact H]. destruct (removed x); [exact H|]. apply coh_put; [exact H|exact (H c x E)].
  - destruct (get h c) as [x|] eqn:E; [|exact H]. destruct (frozen x); [exact H|]. destruct (removed x); [exact H|]. destruct (lockedVisible x); [exact H|]. apply coh_put; [exact H|exact (H c x E)].
  - destruct (get h c) as [x|] eqn:E; [|exact H]. destruct (frozen x); [exact H|]. apply coh_put; [exact H|exact (H c x E)].
  - destruct (get h c); exact H.
  - destruct (get h c); exact H.
  - destruct (get h c); exact H.
  - destruct (get h c); exact H.
  - destruct (get h f) as [x|]; [destruct (accepts x)|]; exact H.
  - destruct (get h f) as [x|]; [destruct (accepts x)|]; exact H.
  - destruct (get h f) as [x|]; [destruct (accepts x)|]; exact H.
Qed.
Lemma coh_after : forall l, AllCoh (after l).
Proof. induction l as [|o l IH]; [|cbn [after]; now apply coh_step]. intros k y. unfold get. destruct k; discriminate. Qed.

(** ** What an operation takes *)
Definition Took (h h' : heap) (T : nat -> Prop) : Prop :=
  (forall k y, get h k = Some y -> (exists t, T t /\ inside h k t) -> get h' k = Some (dead y)) /\
  (forall k y, get h k = Some y -> ~ (exists t, T t /\ inside h k t) -> exists z keep, get h' k = Some z /\ removed z = removed y /\ items z = filter keep (items y) /\ (forall i, In i (items y) -> keep i = true <-> ~ T i)) /\
  (forall k z, get h k = None -> get h' k = Some z -> items z = []) /\
  (forall k, (exists t, T t /\ inside h k t) \/ ~ (exists t, T t /\ inside h k t)).
Lemma took_none : forall h h' T, (forall k, ~ T k) -> (forall k y, get h k = Some y -> exists z, get h' k = Some z /\ removed z = removed y /\ items z = items y) -> (forall k z, get h k = None -> get h' k = Some z -> items z = []) -> Took h h' T.
Proof.
  intros h h' T N H H3. split; [intros k y _ (t & Ht & _); destruct (N t Ht)|]. split; [|split; [exact H3|intros k; right; intros (t & Ht & _); exact (N t Ht)]]. intros k y Ey _. destruct (H k y Ey) as (z & Ez & R & I). exists z, (fun _ => true). rewrite I. split; [exact Ez|]. split; [exact R|]. split; [apply filter_true|]. intros i _. split; auto.
Qed.
Lemma took_id : forall h T, (forall k, ~ T k) -> Took h h T.
Proof. intros h T N. apply took_none; [exact N|intros k y E; eauto|intros; congruence]. Qed.
Lemma took_put : forall h c x x' T, (forall k, ~ T k) -> get h c = Some x -> removed x' = removed x -> items x' = items x -> Took h (put h c x') T.
Proof.
  intros h c x x' T N Ex R I. apply took_none; [exact N| |].
  - intros k y Ey. rewrite get_put. destruct (k =? c) eqn:E; [|eauto]. apply Nat.eqb_eq in E. subst k. rewrite Ex in *. injection Ey as <-. eauto.
  - intros k z E. rewrite get_put. destruct (k =? c) eqn:Ek; [|congruence]. apply Nat.eqb_eq in Ek. subst k. congruence.
Qed.

Lemma took_removeById : forall h f s, Inv h -> Uniq h -> Took h (fst (removeById h f s)) (fun k => In k (content h f) /\ id_of h k = s) /\ snd (removeById h f s) <> Endless.
Proof.
  intros h f s HI U. unfold removeById. unfold content. destruct (get h f) as [x|] eqn:Ex; [|split; [apply took_id; intros k [[] _]|discriminate]].
  destruct (accepts x) eqn:Ac; [|split; [apply took_id; rewrite (i_fold h HI f x Ex Ac); intros k [[] _]|discriminate]].
  destruct (findItem h (items x) s) as [i|] eqn:Ef; [|split; [apply took_id; intros k [Hk Es]; apply (find_none h _ _ k Ef Hk); exact Es|discriminate]].
  apply find_facts in Ef. destruct Ef as [Hi Ei]. destruct (take_one h f x i HI Ex Hi) as (h1 & E & Exf & L & I & O). rewrite E. cbn [fails fst snd]. rewrite Exf. split; [|discriminate].
  assert (T : forall t, In t (items x) /\ id_of h t = s <-> t = i).
  { intros t. split; [intros [A B]; apply (u_lid h U f x t i Ex A Hi); rewrite Ei; exact B|intros ->; auto]. }
  assert (Am : forall k, (exists t, (In t (items x) /\ id_of h t = s) /\ inside h k t) <-> among h [i] k).
  { intros k. split; [intros (t & Ht & Hk); apply T in Ht; subst t; exists i; split; [now left|exact Hk]|intros (t & [<-|[]] & Hk); exists i; split; [now apply T|exact Hk]]. }
  assert (Nf : ~ among h [i] f) by (apply (among_not_f h f x); [exact HI|exact Ex|intros j [<-|[]]; exact Hi]).
  split; [|split; [|split]].
  - intros k y Ey Hk. apply Am in Hk. rewrite get_put_other by (intros ->; contradiction). now apply I.
  - intros k y Ey Hk. assert (Hk' : ~ among h [i] k) by (intros Ha; apply Hk; now apply Am). destruct (Nat.eq_dec k f) as [->|N].
    + rewrite Ex in Ey. injection Ey as <-. rewrite (get_put_same _ _ _ _ Exf). exists (set_items (filter (fun j => negb (j =? i)) (items x)) x), (fun j => negb (j =? i)). repeat split; auto.
      * intros Hj Ht. apply T in Ht. subst i0. rewrite Nat.eqb_refl in Hj. discriminate.
      * intros Ht. apply negb_true_iff, Nat.eqb_neq. intros ->. apply Ht. now apply T.
    + rewrite get_put_other, (O k Hk'), Ey by exact N. exists y, (fun _ => true). split; [reflexivity|]. split; [reflexivity|]. split; [apply filter_true|]. intros j Hj. split; [intros _ Ht|reflexivity].
      exact (other_folder h f x k y j HI Ex Ey N Hj (proj1 Ht)).
  - intros k z Ek Hz. rewrite get_put_other in Hz by (intros ->; congruence). apply (same_get h h1 k L) in Ek. congruence.
  - intros k. rewrite (Am k). now apply among_dec.
Qed.
Lemma took_clear : forall h f, Inv h -> Took h (fst (clear h f)) (fun k => In k (content h f)) /\ snd (clear h f) <> Endless.
Proof.
  intros h f HI. unfold clear, content. destruct (get h f) as [x|] eqn:Ex; [|split; [apply took_id; intros k []|discriminate]].
  destruct (accepts x) eqn:Ac; [|split; [apply took_id; rewrite (i_fold h HI f x Ex Ac); intros k []|discriminate]].
  destruct (take_all h f x HI Ex) as (h1 & E & Exf & L & I & O). rewrite E. cbn [fails fst snd]. rewrite Exf. split; [|discriminate].
  assert (Nf : ~ among h (items x) f) by (apply (among_not_f h f x); [exact HI|exact Ex|apply incl_refl]).
  split; [|split; [|split]].
  - intros k y Ey Hk. rewrite get_put_other by (intros ->; apply Nf; exact Hk). now apply I.
  - intros k y Ey Hk. destruct (Nat.eq_dec k f) as [->|N].
    + rewrite Ex in Ey. injection Ey as <-. rewrite (get_put_same _ _ _ _ Exf). exists (set_items [] x), (fun _ => false). split; [reflexivity|]. split; [reflexivity|]. split; [apply filter_false|]. intros i Hi. split; [discriminate|contradiction].
    + rewrite get_put_other, (O k Hk), Ey by exact N. exists y, (fun _ => true). split; [reflexivity|]. split; [reflexivity|]. split; [apply filter_true|]. intros j Hj. split; [intros _ Ht|reflexivity].
      exact (other_folder h f x k y j HI Ex Ey N Hj Ht).
  - intros k z Ek Hz. rewrite get_put_other in Hz by (intros ->; congruence). apply (same_get h h1 k L) in Ek. congruence.
  - intros k. exact (among_dec h (items x) k HI).
Qed.
Lemma removed_iff : forall h c x, get h c = Some x -> is_removed h c <-> removed x = true.
Proof. intros h c x E. unfold is_removed. cbn [step]. unfold with_comp. rewrite E. cbn [snd]. split; [congruence|intros ->; reflexivity]. Qed.
Lemma took_remove : forall h c, Inv h -> (forall f, ~ In c (content h f)) -> Took h (fst (remove (S (length h)) h c)) (fun k => k = c /\ exists_ h c /\ ~ is_removed h c) /\ snd (remove (S (length h)) h c) <> Endless.
Proof.
  intros h c HI Hc. destruct (get h c) as [x|] eqn:Ex.
  2: { cbn [remove]. rewrite Ex. split; [|discriminate]. apply took_id. intros k (_ & H & _). contradiction. }
  destruct (removed x) eqn:Rm; [cbn [remove]; rewrite Ex, Rm; split; [|discriminate]; apply took_id; intros k (_ & _ & H); apply H; now apply (removed_iff h c x Ex)|].
  destruct (remove_spec (S (length h)) h c x (inv_local h c HI) Ex Rm ltac:(lia)) as (h' & E & L & I & O). rewrite E. cbn [fst snd]. split; [|discriminate].
  assert (Tc : exists_ h c /\ ~ is_removed h c) by (split; [unfold exists_; congruence|]; intros H; apply (removed_iff h c x Ex) in H; congruence).
  split; [|split; [|split]].
  - intros k y Ey (t & (-> & _) & Hk). now apply I.
  - intros k y Ey Hk. rewrite O, Ey by (intros H; apply Hk; exists c; auto). exists y, (fun _ => true). split; [reflexivity|]. split; [reflexivity|]. split; [apply filter_true|]. intros j Hj. split; [|reflexivity].
    intros _ (-> & _). apply (Hc k). rewrite (content_get _ _ _ Ey). exact Hj.
  - intros k z Ek Hz. apply (same_get h h' k L) in Ek. congruence.
  - intros k. destruct (inside_dec h c (inv_local h c HI) k) as [H|H]; [left; exists c; auto|right; intros (t & (-> & _) & H'); auto].
Qed.
Lemma took_notify : forall u h c x b T, (forall k, ~ T k) -> Inv h -> get h c = Some x -> removed x = false ->
  let x' := set_active b (parentActive x) x in
  let h1 := put h c x' in
  let r := if Bool.eqb (active x) (active x') then (h1, Success) else notifyActiveChanged u h1 c (items x) in
  Took h (fst r) T /\ snd r <> Endless.
Proof.
  intros u h c x b T N HI Ex Rm x' h1 r. destruct (inv_notify u h c x b HI Ex Rm) as (_ & F & L & H). fold x' in F, L, H. fold h1 in F, L, H. fold r in F, L, H. split.
  - apply took_none; [exact N| |].
    + intros k y Ey. destruct (H k y Ey) as (l & p & E & _). rewrite E. exists (set_active l p y). auto.
    + intros k z Ek Hz. apply (same_get h (fst r) k L) in Ek. congruence.
  - intros E. rewrite E in F. discriminate.
Qed.

Lemma took_step : forall h o, Inv h -> Uniq h -> tidy_op h o -> (forall f c, o <> AddItem f c) -> Took h (fst (step h o)) (taken h o) /\ snd (step h o) <> Endless.
Proof.
  intros h o HI U T NA. assert (Id : forall T r, (forall k, ~ T k) -> r <> Endless -> Took h (fst (h, r)) T /\ snd (h, r) <> Endless) by (intros T0 r N E; split; [now apply took_id|exact E]).
  destruct o; cbn [step]; unfold with_folder, with_comp.
  - unfold create. assert (N : forall k, ~ taken h (Create p s t a) k) by (intros k []). destruct (String.eqb s EmptyString); [now apply Id|].
    assert (A : forall x r, items x = [] -> r <> Endless -> Took h (fst (h ++ [x], r)) (taken h (Create p s t a)) /\ snd (h ++ [x], r) <> Endless).
    { intros x r Hx Hr. split; [|exact Hr]. apply took_none; [exact N| |].
      - intros k y Ey. cbn [fst]. rewrite get_app. pose proof (get_lt _ _ _ Ey) as Lt. destruct (k =? length h) eqn:E; [apply Nat.eqb_eq in E; lia|]. eauto.
      - intros k z Ek. cbn [fst]. rewrite get_app. destruct (k =? length h); [intros [= <-]; exact Hx|congruence]. }
    destruct p as [q|]; [destruct (get h q); [|apply Id; [exact N|discriminate]]|]; apply A; try reflexivity; discriminate.
  - destruct (NA f c eq_refl).
  - destruct (get h c) as [y|] eqn:Ey.
    + destruct (took_removeById h f (lid y) HI U) as [(T1 & T2 & T3 & T4) R]. split; [|exact R].
      assert (Q : forall k, taken h (RemoveItem f c) k <-> In k (content h f) /\ id_of h k = lid y).
      { intros k. cbn [taken]. unfold exists_. unfold id_of at 2. rewrite Ey. split; [intros (A & B & _)|intros (A & B)]; repeat split; auto. discriminate. }
      split; [|split; [|split; [exact T3|]]].
      3: { intros k. destruct (T4 k) as [(t & Ht & Hk)|N]; [left; exists t; split; [now apply Q|exact Hk]|right; intros (t & Ht & Hk); apply N; exists t; split; [now apply Q|exact Hk]]. }
      * intros k z Ez (t & Ht & Hk). apply T1; [exact Ez|]. exists t. split; [now apply Q|exact Hk].
      * intros k z Ez Hk. destruct (T2 k z Ez) as (w & keep & A & B & C & D); [intros (t & Ht & Hk'); apply Hk; exists t; split; [now apply Q|exact Hk']|].
        exists w, keep. split; [exact A|]. split; [exact B|]. split; [exact C|]. intros i Hi. rewrite (D i Hi). now rewrite (Q i).
    + apply Id; [|discriminate]. intros k (_ & _ & H). apply H. exact Ey.
  - now apply took_removeById.
  - now apply took_clear.
  - now apply took_remove.
  - assert (N : forall k, ~ taken h (SetActive c b) k) by (intros k []). unfold setActive. destruct (get h c) as [x|] eqn:Ex; [|apply Id; [exact N|discriminate]]. destruct (frozen x); [apply Id; [exact N|discriminate]|]. destruct (removed x) eqn:Rm; [apply Id; [exact N|discriminate]|].
    destruct (Bool.eqb b (localActive x)); [apply Id; [exact N|discriminate]|]. destruct (lockedActive x); [apply Id; [exact N|discriminate]|].
    pose proof (took_notify false h c x b _ N HI Ex Rm) as H. cbv zeta in H |- *. destruct (Bool.eqb (active x) _); [split; [apply H|discriminate]|exact H].
  - assert (N : forall k, ~ taken h (Update c o) k) by (intros k []). unfold update. destruct (get h c) as [x|] eqn:Ex; [|apply Id; [exact N|discriminate]]. destruct (lockedActive x); [apply Id; [exact N|discriminate]|].
    assert (Rm : removed x = false) by (destruct (removed x) eqn:E; [|reflexivity]; exfalso; apply T; now apply (removed_iff h c x Ex)).
    pose proof (took_notify true h c x (match o with Some b => b | None => true end) _ N HI Ex Rm) as H. cbv zeta in H |- *. destruct (Bool.eqb (active x) _); exact H.
  - destruct (get h c) as [x|] eqn:E; [|apply Id; [intros k []|discriminate]]. destruct (removed x) eqn:Rm; [apply Id; [intros k []|discriminate]|]. split; [|discriminate]. apply (took_put h c x); [intros k []|exact E|symmetry; exact Rm|reflexivity].
  - destruct (get h c) as [x|] eqn:E; [|apply Id; [intros k []|discriminate]]. destruct (removed x) eqn:Rm; [apply Id; [intros k []|discriminate]|]. split; [|discriminate]. apply (took_put h c x); [intros k []|exact E|symmetry; exact Rm|reflexivity].
  - destruct (get h c) as [x|] eqn:E; [|apply Id; [intros k []|discriminate]]. destruct (frozen x); [apply Id; [intros k []|discriminate]|]. destruct (removed x) eqn:Rm; [apply Id; [intros k []|discriminate]|].
    destruct (lockedVisible x); [apply Id; [intros k []|discriminate]|]. split; [|discriminate]. apply (took_put h c x); [intros k []|exact E|symmetry; exact Rm|reflexivity].
  - destruct (get h c) as [x|] eqn:E; [|apply Id; [intros k []|discriminate]]. destruct (frozen x); [apply Id; [intros k []|discriminate]|]. split; [|discriminate]. apply (took_put h c x); [intros k []|exact E|reflexivity|reflexivity].
  - destruct (get h c); (apply Id; [intros k []|discriminate]).
  - destruct (get h c); (apply Id; [intros k []|discriminate]).
  - destruct (get h c); (apply Id; [intros k []|discriminate]).
  - destruct (get h c); (apply Id; [intros k []|discriminate]).
  - destruct (get h f) as [x|]; [destruct (accepts x)|]; (apply Id; [intros k []|try discriminate]). destruct (findItem h (items x) s); discriminate.
  - destruct (get h f) as [x|]; [destruct (accepts x)|]; (apply Id; [intros k []|try discriminate]).
  - destruct (get h f) as [x|]; [destruct (accepts x)|]; (apply Id; [intros k []|try discriminate]).
Qed.
