From Coq Require Import String.
From Verif Require Import Base Comp_Model Comp_Spec.
Local Open Scope nat_scope.

Lemma get_put : forall h c x k, get (put h c x) k = if k =? c then match get h c with Some _ => Some x | None => None end else get h k.
Proof.
  unfold get. induction h as [|y h IH]; intros c x k.
  - destruct c, k; cbn [put nth_error Nat.eqb]; try reflexivity. destruct (k =? c); reflexivity.
  - destruct c as [|c], k as [|k]; cbn [put nth_error Nat.eqb]; try reflexivity. apply IH.
Qed.
Lemma get_put_same : forall h c x y, get h c = Some y -> get (put h c x) c = Some x.
Proof. intros h c x y E. rewrite get_put, Nat.eqb_refl, E. reflexivity. Qed.
Lemma get_put_other : forall h c x k, k <> c -> get (put h c x) k = get h k.
Proof. intros h c x k N. rewrite get_put. apply Nat.eqb_neq in N. now rewrite N. Qed.
Lemma len_put : forall h c x, length (put h c x) = length h.
Proof. induction h as [|y h IH]; intros [|c] x; cbn [put length]; auto. Qed.
Lemma get_lt : forall h c x, get h c = Some x -> c < length h.
Proof. intros h c x E. apply nth_error_Some. unfold get in E. congruence. Qed.

(** ** Shape *)
Definition Local (h : heap) (c : nat) : Prop := forall f x, inside h f c -> get h f = Some x -> NoDup (items x) /\
  forall i, In i (items x) -> exists y, get h i = Some y /\ parent y = Some f /\ f < i /\ removed y = false.

Lemma content_get : forall h f x, get h f = Some x -> content h f = items x.
Proof. intros h f x E. unfold content. now rewrite E. Qed.
Lemma content_in : forall h f i, In i (content h f) -> exists x, get h f = Some x /\ In i (items x).
Proof. intros h f i H. unfold content in H. destruct (get h f) as [x|]; [eauto|destruct H]. Qed.

Lemma inside_le : forall h k c, Local h c -> inside h k c -> c <= k.
Proof.
  intros h k c HL H. induction H as [c|k p c Hk Hp IH]; [lia|]. specialize (IH HL). apply content_in in Hk. destruct Hk as (x & Ex & Hx).
  destruct (HL p x Hp Ex) as [_ H]. destruct (H k Hx) as (y & _ & _ & Hlt & _). lia.
Qed.
Lemma inside_trans : forall h a b c, inside h a b -> inside h b c -> inside h a c.
Proof. intros h a b c H1 H2. induction H1 as [b|a p b Ha Hp IH]; [exact H2|]. eapply inside_item; [exact Ha|auto]. Qed.
Lemma local_sub : forall h c i, Local h c -> inside h i c -> Local h i.
Proof. intros h c i HL Hi f x Hf. apply HL. eapply inside_trans; eassumption. Qed.
Lemma local_parent : forall h c p k y, Local h c -> inside h p c -> In k (content h p) -> get h k = Some y -> parent y = Some p /\ p < k.
Proof.
  intros h c p k y HL Hp Hk Ey. apply content_in in Hk. destruct Hk as (x & Ex & Hx). destruct (HL p x Hp Ex) as [_ H]. destruct (H k Hx) as (y' & Ey' & P & L & _).
  rewrite Ey in Ey'. injection Ey' as <-. auto.
Qed.
Lemma local_get : forall h c p k, Local h c -> inside h p c -> In k (content h p) -> exists y, get h k = Some y /\ parent y = Some p /\ p < k /\ removed y = false.
Proof. intros h c p k HL Hp Hk. apply content_in in Hk. destruct Hk as (x & Ex & Hx). destruct (HL p x Hp Ex) as [_ H]. exact (H k Hx). Qed.

Lemma inside_linear : forall h c k i j, Local h c -> inside h i c -> inside h j c -> inside h k i -> inside h k j -> inside h i j \/ inside h j i.
Proof.
  intros h c k i j HL Hi Hj H1. revert j Hj. induction H1 as [i|k p i Hk Hp IH]; intros j Hj H2; [now left|].
  inversion H2 as [|k' p' j' Hk' Hp']; subst.
  - right. eapply inside_item; eassumption.
  - assert (Hpc : inside h p c) by (eapply inside_trans; eassumption). assert (Hpc' : inside h p' c) by (eapply inside_trans; eassumption).
    destruct (local_get h c p k HL Hpc Hk) as (y & Ey & P1 & _). destruct (local_parent h c p' k y HL Hpc' Hk' Ey) as [P2 _].
    rewrite P1 in P2. injection P2 as <-. auto.
Qed.
Lemma siblings : forall h c k i j, Local h c -> In i (content h c) -> In j (content h c) -> inside h k i -> inside h k j -> i = j.
Proof.
  intros h c k i j HL Hi Hj H1 H2. destruct (Nat.eq_dec i j) as [E|N]; [exact E|exfalso].
  assert (Hic : inside h i c) by (eapply inside_item; [exact Hi|constructor]). assert (Hjc : inside h j c) by (eapply inside_item; [exact Hj|constructor]).
  assert (G : forall a b, In a (content h c) -> In b (content h c) -> a <> b -> inside h a b -> False).
  { intros a b Ha Hb Nab Hab. assert (Hbc : inside h b c) by (eapply inside_item; [exact Hb|constructor]).
    inversion Hab as [|a' p b' Ha' Hp]; subst; [congruence|].
    destruct (local_get h c c a HL (inside_self h c) Ha) as (y & Ey & P & _).
    destruct (local_parent h c p a y HL (inside_trans _ _ _ _ Hp Hbc) Ha' Ey) as [P' _]. rewrite P in P'. injection P' as <-.
    pose proof (inside_le h c b (local_sub _ _ _ HL Hbc) Hp). destruct (local_get h c c b HL (inside_self h c) Hb) as (z & _ & _ & L & _). lia. }
  destruct (inside_linear h c k i j HL Hic Hjc H1 H2) as [H|H]; eauto.
Qed.
Lemma not_up : forall h c i, Local h c -> In i (content h c) -> ~ inside h c i.
Proof.
  intros h c i HL Hi H. destruct (local_get h c c i HL (inside_self h c) Hi) as (y & _ & _ & L & _).
  pose proof (inside_le h c i (local_sub _ _ _ HL (inside_item _ _ _ _ Hi (inside_self h c))) H). lia.
Qed.

Lemma inside_agree : forall h g c, (forall k, inside h k c -> content g k = content h k) -> forall k, inside g k c <-> inside h k c.
Proof.
  intros h g c H k. split; intros Hk.
  - induction Hk as [c|k p c Hk Hp IH]; [constructor|]. specialize (IH H). rewrite (H p IH) in Hk. eapply inside_item; eassumption.
  - induction Hk as [c|k p c Hk Hp IH]; [constructor|]. eapply inside_item; [rewrite (H p Hp); exact Hk|auto].
Qed.
Lemma local_agree : forall h g c, (forall k, inside h k c -> get g k = get h k) -> Local h c -> Local g c.
Proof.
  intros h g c H HL f x Hf Ef. assert (Hf' : inside h f c).
  { apply (inside_agree h g c); [|exact Hf]. intros k Hk. unfold content. now rewrite (H k Hk). }
  rewrite (H f Hf') in Ef. destruct (HL f x Hf' Ef) as [N I]. split; [exact N|]. intros i Hi. destruct (I i Hi) as (y & Ey & R). exists y. split; [|exact R].
  rewrite H; [exact Ey|]. eapply inside_item; [|exact Hf']. rewrite (content_get h f x Ef). exact Hi.
Qed.

Lemma inside_dec : forall h c, Local h c -> forall k, {inside h k c} + {~ inside h k c}.
Proof.
  intros h c HL k. induction k as [k IH] using lt_wf_rec.
  destruct (Nat.eq_dec k c) as [->|N]; [left; constructor|].
  destruct (get h k) as [y|] eqn:Ey.
  - destruct (parent y) as [p|] eqn:Ep.
    + destruct (lt_dec p k) as [L|L].
      * destruct (in_dec Nat.eq_dec k (content h p)) as [Hk|Hk].
        -- destruct (IH p L) as [Hp|Hp]; [left; eapply inside_item; eassumption|right]. intros H. inversion H as [|k' p' c' Hk' Hp']; subst; [congruence|].
           destruct (local_parent h c p' k y HL Hp' Hk' Ey) as [E _]. rewrite Ep in E. injection E as <-. auto.
        -- right. intros H. inversion H as [|k' p' c' Hk' Hp']; subst; [congruence|]. destruct (local_parent h c p' k y HL Hp' Hk' Ey) as [E _]. rewrite Ep in E. injection E as <-. auto.
      * right. intros H. inversion H as [|k' p' c' Hk' Hp']; subst; [congruence|]. destruct (local_parent h c p' k y HL Hp' Hk' Ey) as [E L']. rewrite Ep in E. injection E as <-. auto.
    + right. intros H. inversion H as [|k' p' c' Hk' Hp']; subst; [congruence|]. destruct (local_parent h c p' k y HL Hp' Hk' Ey) as [E _]. congruence.
  - right. intros H. inversion H as [|k' p' c' Hk' Hp']; subst; [congruence|]. destruct (local_get h c p' k HL Hp' Hk') as (y & E & _). congruence.
Qed.

(** ** Removing *)
Definition dead (y : comp) : comp :=
  set_items [] (set_flags true (frozen y) (lockedActive y) (lockedVisible y) (visible y) (if active y then set_active false (parentActive y) y else y)).
Definition among (h : heap) (l : list nat) (k : nat) : Prop := exists i, In i l /\ inside h k i.

Lemma each_remove : forall n, (forall h c x, Local h c -> get h c = Some x -> removed x = false -> length h - c < n ->
    exists h', remove n h c = (h', Success) /\ length h' = length h /\ (forall k y, inside h k c -> get h k = Some y -> get h' k = Some (dead y)) /\ (forall k, ~ inside h k c -> get h' k = get h k)) ->
  forall h c, Local h c -> length h - c <= n -> forall l, NoDup l -> (forall i, In i l -> In i (content h c)) ->
  forall g, length g = length h -> (forall i k, In i l -> inside h k i -> get g k = get h k) ->
  exists g', each (remove n) g l = (g', Success) /\ length g' = length h /\
    (forall k y, among h l k -> get h k = Some y -> get g' k = Some (dead y)) /\ (forall k, ~ among h l k -> get g' k = get g k).
Proof.
  intros n REM h c HL Hn l. induction l as [|i l IH]; intros ND Hin g Hg Hag.
  - exists g. cbn [each]. split; [reflexivity|]. split; [exact Hg|]. split; [intros k y (i & [] & _)|reflexivity].
  - cbn [each]. assert (Hi : In i (content h c)) by (apply Hin; now left). destruct (local_get h c c i HL (inside_self h c) Hi) as (y & Ey & _ & Lt & Rm).
    assert (Agr : forall k, inside h k i -> get g k = get h k) by (intros k Hk; apply (Hag i k); [now left|exact Hk]).
    assert (HLi : Local h i) by (eapply local_sub; [exact HL|eapply inside_item; [exact Hi|constructor]]).
    pose proof (local_agree h g i Agr HLi) as HLg.
    assert (Iff : forall k, inside g k i <-> inside h k i) by (apply inside_agree; intros k Hk; unfold content; now rewrite (Agr k Hk)).
    pose proof (get_lt _ _ _ Ey) as Li.
    destruct (REM g i y HLg ltac:(rewrite Agr by constructor; exact Ey) Rm ltac:(lia)) as (g1 & E1 & Len1 & In1 & Out1).
    rewrite E1. cbn [fails]. inversion ND as [|? ? Nin ND']; subst.
    destruct (IH ND' (fun j Hj => Hin j (or_intror Hj)) g1 ltac:(congruence)) as (g2 & E2 & Len2 & In2 & Out2).
    { intros j k Hj Hk. rewrite Out1; [apply (Hag j k); [now right|exact Hk]|]. rewrite Iff. intros Hki.
      assert (i = j) by (eapply siblings; [exact HL|exact Hi|apply Hin; now right|exact Hki|exact Hk]). subst j. contradiction. }
    exists g2. split; [exact E2|]. split; [exact Len2|]. split.
    + intros k z (j & [->|Hj] & Hk) Ez.
      * rewrite Out2; [apply In1; [now apply Iff|rewrite Agr by exact Hk; exact Ez]|]. intros (j' & Hj' & Hk').
        assert (j = j') by (eapply siblings; [exact HL|exact Hi|apply Hin; now right|exact Hk|exact Hk']). subst j'. contradiction.
      * apply In2; [exists j; auto|exact Ez].
    + intros k Hk. rewrite Out2 by (intros (j & Hj & H); apply Hk; exists j; split; [now right|exact H]). apply Out1. rewrite Iff. intros H. apply Hk. exists i. split; [now left|exact H].
Qed.

Lemma inside_cases : forall h c x k, get h c = Some x -> inside h k c <-> (k = c \/ among h (items x) k).
Proof.
  intros h c x k Ex. split.
  - intros H. induction H as [c|k p c Hk Hp IH]; [now left|]. right. destruct (IH Ex) as [->|(i & Hi & H)].
    + exists k. split; [now rewrite (content_get _ _ _ Ex) in Hk|constructor].
    + exists i. split; [exact Hi|]. eapply inside_item; eassumption.
  - intros [->|(i & Hi & H)]; [constructor|]. eapply inside_trans; [exact H|]. eapply inside_item; [|constructor]. rewrite (content_get _ _ _ Ex). exact Hi.
Qed.

Lemma remove_spec : forall n h c x, Local h c -> get h c = Some x -> removed x = false -> length h - c < n ->
  exists h', remove n h c = (h', Success) /\ length h' = length h /\ (forall k y, inside h k c -> get h k = Some y -> get h' k = Some (dead y)) /\ (forall k, ~ inside h k c -> get h' k = get h k).
Proof.
  induction n as [|n IH]; intros h c x HL Ex Rm Hn; [lia|]. cbn [remove]. rewrite Ex, Rm.
  set (x1 := set_flags true (frozen x) (lockedActive x) (lockedVisible x) (visible x) (if active x then set_active false (parentActive x) x else x)).
  assert (Cx : content h c = items x) by (apply content_get; exact Ex). pose proof (get_lt _ _ _ Ex) as Lc.
  assert (Up : forall i k, In i (items x) -> inside h k i -> k <> c).
  { intros i k Hi Hk ->. apply (not_up h c i HL); [rewrite Cx; exact Hi|exact Hk]. }
  destruct (HL c x (inside_self h c) Ex) as [ND _].
  destruct (each_remove n IH h c HL ltac:(lia) (items x) ND ltac:(rewrite Cx; auto) (put h c x1)) as (h2 & E2 & L2 & I2 & O2).
  { apply len_put. } { intros i k Hi Hk. apply get_put_other. eapply Up; eassumption. }
  rewrite E2. cbn [fails]. assert (Ec : get h2 c = Some x1).
  { rewrite O2; [apply (get_put_same _ _ _ _ Ex)|]. intros (i & Hi & Hk). exact (Up i c Hi Hk eq_refl). }
  rewrite Ec. eexists. split; [reflexivity|]. split; [now rewrite len_put|]. split.
  - intros k y Hk Ey. destruct (proj1 (inside_cases h c x k Ex) Hk) as [->|Ha].
    + rewrite (get_put_same _ _ _ _ Ec). rewrite Ex in Ey. injection Ey as <-. reflexivity.
    + rewrite get_put_other; [apply I2; assumption|]. destruct Ha as (i & Hi & H). eapply Up; eassumption.
  - intros k Hk. assert (k <> c) by (intros ->; apply Hk; constructor). rewrite get_put_other by assumption.
    rewrite O2; [now apply get_put_other|]. intros Ha. apply Hk. apply (inside_cases h c x k Ex). now right.
Qed.

(** ** Activity *)
Definition coherent (y : comp) : Prop := active y = parentActive y && localActive y.
Definition Linked (h : heap) (c : nat) : Prop := forall f x i y, inside h f c -> get h f = Some x -> In i (items x) -> get h i = Some y -> parentActive y = active x.
Definition Coh (h : heap) (c : nat) : Prop := forall f x, inside h f c -> get h f = Some x -> coherent x.
Definition notified (h g : heap) (k : nat) : Prop := forall y, get h k = Some y -> exists p, get g k = Some (set_active (localActive y) p y).

Lemma set_active_id : forall y, coherent y -> set_active (localActive y) (parentActive y) y = y.
Proof. intros [] H. unfold coherent, set_active in *. cbn in *. now rewrite H. Qed.
Lemma notified_content : forall h g k, notified h g k -> get h k <> None -> content g k = content h k.
Proof. intros h g k H E. unfold content. destruct (get h k) as [y|] eqn:Ey; [|contradiction]. destruct (H y Ey) as [p ->]. reflexivity. Qed.

Lemma each_notify : forall u n, (forall h c b x, Local h c -> Linked h c -> Coh h c -> get h c = Some x -> removed x = false -> length h - c < n ->
    exists h' o, setParentActive n u h c b = (h', o) /\ fails o = false /\ length h' = length h /\ (forall k, inside h k c -> notified h h' k) /\ (forall k, ~ inside h k c -> get h' k = get h k) /\
      (forall y, get h' c = Some y -> parentActive y = b) /\ Linked h' c) ->
  forall h c, Local h c -> Linked h c \/ True -> (forall i, In i (content h c) -> Linked h i /\ Coh h i) -> length h - c <= n -> forall l, NoDup l -> (forall i, In i l -> In i (content h c)) ->
  forall g a, length g = length h -> activeOf g c = a -> (forall i k, In i l -> inside h k i -> get g k = get h k) ->
  exists g', each (fun g i => setParentActive n u g i (activeOf g c)) g l = (g', Success) /\ length g' = length h /\
    (forall k, among h l k -> notified h g' k) /\ (forall k, ~ among h l k -> get g' k = get g k) /\
    (forall i y, In i l -> get g' i = Some y -> parentActive y = a) /\ (forall i, In i l -> Linked g' i).
Proof.
  intros u n SPA h c HL _ HLC Hn l. induction l as [|i l IH]; intros ND Hin g a Hg Ha Hag.
  - exists g. cbn [each]. split; [reflexivity|]. split; [exact Hg|]. split; [intros k (i & [] & _)|]. split; [reflexivity|]. split; [intros i y []|intros i []].
  - cbn [each]. assert (Hi : In i (content h c)) by (apply Hin; now left). destruct (local_get h c c i HL (inside_self h c) Hi) as (y & Ey & _ & Lt & Rm).
    assert (Agr : forall k, inside h k i -> get g k = get h k) by (intros k Hk; apply (Hag i k); [now left|exact Hk]).
    assert (HLi : Local h i) by (eapply local_sub; [exact HL|eapply inside_item; [exact Hi|constructor]]).
    pose proof (local_agree h g i Agr HLi) as HLg.
    assert (Iff : forall k, inside g k i <-> inside h k i) by (apply inside_agree; intros k Hk; unfold content; now rewrite (Agr k Hk)).
    destruct (HLC i Hi) as [Lk Ck]. pose proof (get_lt _ _ _ Ey) as Li.
    assert (Lkg : Linked g i).
    { intros f x j z Hf Ef Hj Ej. apply Iff in Hf. rewrite (Agr f Hf) in Ef. rewrite Agr in Ej; [eapply Lk; eassumption|]. eapply inside_item; [|exact Hf]. rewrite (content_get _ _ _ Ef). exact Hj. }
    assert (Ckg : Coh g i) by (intros f x Hf Ef; apply Iff in Hf; rewrite (Agr f Hf) in Ef; eapply Ck; eassumption).
    destruct (SPA g i (activeOf g c) y HLg Lkg Ckg ltac:(rewrite Agr by constructor; exact Ey) Rm ltac:(lia)) as (g1 & o1 & E1 & F1 & Len1 & In1 & Out1 & B1 & Lk1).
    rewrite E1, F1. inversion ND as [|? ? Nin ND']; subst.
    assert (Hc : activeOf g1 c = activeOf g c).
    { unfold activeOf. rewrite Out1; [reflexivity|]. rewrite Iff. apply (not_up h c i HL Hi). }
    destruct (IH ND' (fun j Hj => Hin j (or_intror Hj)) g1 (activeOf g c) ltac:(congruence) Hc) as (g2 & E2 & Len2 & In2 & Out2 & B2 & Lk2).
    { intros j k Hj Hk. rewrite Out1; [apply (Hag j k); [now right|exact Hk]|]. rewrite Iff. intros Hki.
      assert (i = j) by (eapply siblings; [exact HL|exact Hi|apply Hin; now right|exact Hki|exact Hk]). subst j. contradiction. }
    assert (Keep : forall k, inside h k i -> get g2 k = get g1 k).
    { intros k Hk. apply Out2. intros (j' & Hj' & Hk'). assert (i = j') by (eapply siblings; [exact HL|exact Hi|apply Hin; now right|exact Hk|exact Hk']). subst j'. contradiction. }
    exists g2. split; [exact E2|]. split; [exact Len2|].
    assert (N1 : forall k, inside h k i -> notified h g1 k).
    { intros k Hk z Ez. apply (In1 k); [now apply Iff|]. rewrite Agr by exact Hk. exact Ez. }
    split; [|split; [|split]].
    + intros k (j & [->|Hj] & Hk).
      * intros z Ez. rewrite (Keep k Hk). apply (N1 k Hk z Ez).
      * apply In2. exists j; auto.
    + intros k Hk. rewrite Out2 by (intros (j & Hj & H); apply Hk; exists j; split; [now right|exact H]). apply Out1. rewrite Iff. intros H. apply Hk. exists i. split; [now left|exact H].
    + intros j z [->|Hj] Ez; [|eapply B2; eassumption]. rewrite (Keep j (inside_self h j)) in Ez. eapply B1; eassumption.
    + intros j [->|Hj]; [|now apply Lk2].
      assert (Ex1 : forall k, inside h k j -> content g1 k = content h k).
      { intros k Hk. apply notified_content; [now apply N1|]. inversion Hk as [|k' p c' Hk' Hp]; subst; [congruence|]. destruct (local_get h j p k HLi Hp Hk') as (w & -> & _). discriminate. }
      assert (Ex2 : forall k, inside h k j -> content g2 k = content h k) by (intros k Hk; unfold content at 1; rewrite (Keep k Hk); apply Ex1; exact Hk).
      intros f x j' z Hf Ef Hj' Ez. apply (inside_agree h g2 j Ex2) in Hf.
      assert (Hj'' : inside h j' j) by (eapply inside_item; [|exact Hf]; rewrite <- (Ex2 f Hf), (content_get _ _ _ Ef); exact Hj').
      rewrite (Keep f Hf) in Ef. rewrite (Keep j' Hj'') in Ez. apply (Lk1 f x j' z); try assumption. apply (inside_agree h g1 j Ex1). exact Hf.
Qed.

Lemma spa_spec : forall u n h c b x, Local h c -> Linked h c -> Coh h c -> get h c = Some x -> removed x = false -> length h - c < n ->
    exists h' o, setParentActive n u h c b = (h', o) /\ fails o = false /\ length h' = length h /\ (forall k, inside h k c -> notified h h' k) /\ (forall k, ~ inside h k c -> get h' k = get h k) /\
      (forall y, get h' c = Some y -> parentActive y = b) /\ Linked h' c.
Proof.
  intros u n. induction n as [|n IH]; intros h c b x HL Lk Ck Ex Rm Hn; [lia|]. cbn [setParentActive]. rewrite Ex, Rm, andb_false_r.
  assert (Cx : content h c = items x) by (apply content_get; exact Ex). pose proof (get_lt _ _ _ Ex) as Lc.
  assert (Same : forall k y, inside h k c -> get h k = Some y -> exists p, Some y = Some (set_active (localActive y) p y)).
  { intros k y Hk Ey. exists (parentActive y). rewrite set_active_id; [reflexivity|]. eapply Ck; eassumption. }
  destruct (Bool.eqb b (parentActive x)) eqn:Eb.
  { apply Bool.eqb_prop in Eb. exists h, Ignored. split; [reflexivity|]. split; [reflexivity|]. split; [reflexivity|].
    split; [intros k Hk y Ey; rewrite Ey; eapply Same; eassumption|]. split; [reflexivity|]. split; [|exact Lk]. intros y Ey. rewrite Ex in Ey. injection Ey as <-. auto. }
  set (x' := set_active (localActive x) b x). set (h1 := put h c x').
  assert (E1 : get h1 c = Some x') by (apply (get_put_same _ _ _ _ Ex)).
  assert (O1 : forall k, k <> c -> get h1 k = get h k) by (intros k N; now apply get_put_other).
  assert (Up : forall i k, In i (items x) -> inside h k i -> k <> c).
  { intros i k Hi Hk ->. apply (not_up h c i HL); [rewrite Cx; exact Hi|exact Hk]. }
  assert (Ct : forall k, content h1 k = content h k).
  { intros k. destruct (Nat.eq_dec k c) as [->|N]; [rewrite (content_get _ _ _ E1), Cx; reflexivity|unfold content; now rewrite O1]. }
  destruct (Bool.eqb (active x) (active x')) eqn:Ea.
  { apply Bool.eqb_prop in Ea. eexists h1, _. split; [reflexivity|]. split; [destruct u; reflexivity|]. split; [apply len_put|].
    split; [intros k Hk y Ey; destruct (Nat.eq_dec k c) as [->|N]; [rewrite E1; rewrite Ex in Ey; injection Ey as <-; exists b; reflexivity|rewrite O1, Ey by exact N; eapply Same; eassumption]|].
    split; [intros k Hk; apply O1; intros ->; apply Hk; constructor|]. split; [intros y Ey; rewrite E1 in Ey; injection Ey as <-; reflexivity|].
    intros f z i y Hf Ef Hi Ey. apply (inside_agree h h1 c) in Hf; [|intros k _; apply Ct].
    assert (Hic : In i (content h f)) by (rewrite <- Ct, (content_get _ _ _ Ef); exact Hi).
    assert (Nic : i <> c). { intros ->. destruct (local_get h c f c HL Hf Hic) as (w & _ & _ & L & _). pose proof (inside_le h f c HL Hf). lia. }
    rewrite (O1 i Nic) in Ey. destruct (Nat.eq_dec f c) as [->|N].
    - rewrite E1 in Ef. injection Ef as <-. rewrite <- Ea. eapply Lk; [constructor|exact Ex| |exact Ey]. rewrite Cx in Hic. exact Hic.
    - rewrite (O1 f N) in Ef. eapply Lk; eassumption. }
  destruct (HL c x (inside_self h c) Ex) as [ND _].
  assert (HLC : forall i, In i (content h c) -> Linked h i /\ Coh h i).
  { intros i Hi. assert (Hic : inside h i c) by (eapply inside_item; [exact Hi|constructor]). split.
    - intros f z j y Hf. apply Lk. eapply inside_trans; eassumption.
    - intros f z Hf. apply Ck. eapply inside_trans; eassumption. }
  destruct (each_notify u n IH h c HL (or_intror Logic.I) HLC ltac:(lia) (items x) ND ltac:(rewrite Cx; auto) h1 (active x') ltac:(apply len_put) ltac:(unfold activeOf; now rewrite E1)) as (h2 & E2 & L2 & I2 & O2 & B2 & Lk2).
  { intros i k Hi Hk. apply O1. eapply Up; eassumption. }
  rewrite E2. exists h2, Success. split; [reflexivity|]. split; [reflexivity|]. split; [exact L2|].
  assert (Ec : get h2 c = Some x'). { rewrite O2; [exact E1|]. intros (i & Hi & Hk). exact (Up i c Hi Hk eq_refl). }
  assert (NT : forall k, inside h k c -> notified h h2 k).
  { intros k Hk y Ey. destruct (proj1 (inside_cases h c x k Ex) Hk) as [->|Hm]; [rewrite Ec; rewrite Ex in Ey; injection Ey as <-; exists b; reflexivity|]. apply I2; assumption. }
  split; [exact NT|]. split.
  - intros k Hk. rewrite O2; [apply O1; intros ->; apply Hk; constructor|]. intros Hm. apply Hk. apply (inside_cases h c x k Ex). now right.
  - split; [intros y Ey; rewrite Ec in Ey; injection Ey as <-; reflexivity|].
    assert (Ct2 : forall k, inside h k c -> content h2 k = content h k).
    { intros k Hk. apply notified_content; [now apply NT|]. inversion Hk as [|k' p c' Hk' Hp]; subst; [congruence|]. destruct (local_get h c p k HL Hp Hk') as (w & -> & _). discriminate. }
    intros f z i y Hf Ef Hi Ey. apply (inside_agree h h2 c Ct2) in Hf. destruct (proj1 (inside_cases h c x f Ex) Hf) as [->|(j & Hj & Hm)].
    + rewrite Ec in Ef. injection Ef as <-. eapply B2; [|exact Ey]. exact Hi.
    + apply (Lk2 j Hj f z i y); try assumption. assert (Hjc : inside h j c) by (eapply inside_item; [rewrite Cx; exact Hj|constructor]).
      apply (inside_agree h h2 j); [|exact Hm]. intros k Hk. apply Ct2. eapply inside_trans; eassumption.
Qed.
