(** * OMode_Proofs *)
From Coq Require Import List Bool Arith Lia.
From Verif Require Import OMode_Model OMode_Spec.
Import ListNotations.

Lemma node_rec2 : forall P : node -> Prop,
  (forall t a l, Forall P l -> P (Plain t a l)) ->
  (forall t a c av d cs ds, Forall P cs -> Forall P ds -> P (Device t a c av d cs ds)) ->
  forall n, P n.
Proof.
  intros P HP HD. fix IH 1. intros [t a l|t a c av d cs ds].
  - apply HP. induction l as [|x l IHl]; constructor; [apply IH|exact IHl].
  - apply HD.
    + induction cs as [|x l IHl]; constructor; [apply IH|exact IHl].
    + induction ds as [|x l IHl]; constructor; [apply IH|exact IHl].
Qed.

Lemma each_nil : forall f, each f [] = ([], true).
Proof. reflexivity. Qed.

Lemma each_cons : forall f x r, each f (x :: r) =
  match f x with
  | (x', false) => (x' :: r, false)
  | (x', true) => match each f r with (r', ok) => (x' :: r', ok) end
  end.
Proof. reflexivity. Qed.

Lemma each_length : forall f l, length (fst (each f l)) = length l.
Proof.
  intros f. induction l as [|x l IH]; [reflexivity|]. rewrite each_cons. destruct (f x) as [x' []]; [|reflexivity].
  destruct (each f l) as [r ok]. cbn [fst length] in *. f_equal. exact IH.
Qed.

Lemma each_true : forall f l l', each f l = (l', true) ->
  forall i y, nth_error l i = Some y -> exists y', nth_error l' i = Some y' /\ f y = (y', true).
Proof.
  intros f. induction l as [|x l IH]; intros l' H i y N; [destruct i; discriminate|].
  rewrite each_cons in H. destruct (f x) as [x' []] eqn:F; [|discriminate]. destruct (each f l) as [r ok] eqn:E.
  injection H as <- ->. destruct i as [|i]; cbn [nth_error] in *.
  - injection N as <-. exists x'. split; [reflexivity|exact F].
  - exact (IH r eq_refl i y N).
Qed.

Lemma each_ok : forall f l, snd (each f l) = true <-> forall i y, nth_error l i = Some y -> snd (f y) = true.
Proof.
  intros f. induction l as [|x l IH].
  - split; [intros _ i y N; destruct i; discriminate|reflexivity].
  - rewrite each_cons. destruct (f x) as [x' []] eqn:F.
    + destruct (each f l) as [r ok] eqn:E. cbn [snd] in *. rewrite IH. split.
      * intros H [|i] y N; cbn [nth_error] in N; [injection N as <-; rewrite F; reflexivity|exact (H i y N)].
      * intros H i y N. exact (H (S i) y N).
    + cbn [snd]. split; [discriminate|]. intro H. specialize (H 0 x eq_refl). rewrite F in H. exact H.
Qed.

(** ** Telling components *)

Lemma update_plain : forall m t a l, update m (Plain t a l) =
  if a m then match each (update m) l with (l', ok) => (Plain (m :: t) a l', ok) end else (Plain t a l, false).
Proof. reflexivity. Qed.

Lemma update_device : forall m t a c av d cs ds, update m (Device t a c av d cs ds) =
  if a d then (Device (d :: t) a d av d cs ds, true) else (Device t a c av d cs ds, false).
Proof. reflexivity. Qed.

(** What a told node is. *)
Definition after (m : mode) (x x' : node) : Prop :=
  heard x' = asked m x :: heard x /\ handler x' = handler x /\
  match x with
  | Plain _ _ l => exists l', x' = Plain (heard x') (handler x) l' /\ length l' = length l
  | Device _ _ _ av d cs ds => x' = Device (heard x') (handler x) d av d cs ds
  end.

Lemma update_after : forall m y y', update m y = (y', true) -> after m y y'.
Proof.
  intros m [t a l|t a c av d cs ds] y' H.
  - rewrite update_plain in H. destruct (a m); [|discriminate]. assert (L := each_length (update m) l).
    destruct (each (update m) l) as [l' ok]. injection H as <- _. split; [reflexivity|]. split; [reflexivity|].
    exists l'. split; [reflexivity|exact L].
  - rewrite update_device in H. destruct (a d); [|discriminate]. injection H as <-. repeat split.
Qed.

Lemma update_inside : forall m n p x n', inside n p x -> update m n = (n', true) ->
  exists x', inside n' p x' /\ after m x x'.
Proof.
  intros m n p x n' H. revert n'. induction H as [n|t a l i y p x N H IH]; intros n' U.
  - exists n'. split; [constructor|]. apply update_after. exact U.
  - rewrite update_plain in U. destruct (a m); [|discriminate]. destruct (each (update m) l) as [l' ok] eqn:E.
    injection U as <- ->. destruct (each_true _ _ _ E i y N) as [y' [N' U']]. destruct (IH y' U') as [x' [I1 A]].
    exists x'. split; [|exact A]. apply (inside_step _ _ l' i y'); assumption.
Qed.

Lemma update_ok : forall m n, snd (update m n) = true <-> forall p x, inside n p x -> handler x (asked m x) = true.
Proof.
  intros m n. induction n as [t a l F|t a c av d cs ds Fc Fd] using node_rec2.
  - rewrite update_plain. destruct (a m) eqn:A.
    + assert (K := each_ok (update m) l). destruct (each (update m) l) as [l' ok]. cbn [snd] in *. rewrite K. split.
      * intros H p x I1. inversion I1 as [|t2 a2 l2 i y q x2 N I2]; subst; [exact A|].
        assert (Fy := proj1 (Forall_forall _ _) F y (nth_error_In _ _ N)). cbv beta in Fy. apply (proj1 Fy (H i y N) q x I2).
      * intros H i y N. assert (Fy := proj1 (Forall_forall _ _) F y (nth_error_In _ _ N)). cbv beta in Fy. apply Fy.
        intros p x I1. apply (H (i :: p) x). apply (inside_step _ _ l i y); assumption.
    + cbn [snd]. split; [discriminate|]. intro H. specialize (H [] (Plain t a l) (inside_here _)). cbn in H. congruence.
  - rewrite update_device. split.
    + intros H p x I1. inversion I1; subst. cbn [handler asked defaultOf]. destruct (a d); [reflexivity|discriminate].
    + intro H. specialize (H [] _ (inside_here _)). cbn [handler asked defaultOf] in H. rewrite H. reflexivity.
Qed.

(** ** Devices *)

Lemma eqMode_eq : forall a b, eqMode a b = true <-> a = b.
Proof. intros [] []; split; intro H; try reflexivity; discriminate. Qed.

Lemma avail_spec : forall m av, existsb (eqMode m) av = true <-> In m av.
Proof.
  intros m av. rewrite existsb_exists. split.
  - intros [x [I1 E]]. apply eqMode_eq in E. subst. exact I1.
  - intro H. exists m. split; [exact H|]. apply eqMode_eq. reflexivity.
Qed.

Lemma set_cases : forall m t a c av d cs ds, In m av ->
  setMode m (Device t a c av d cs ds) =
  if a m then match each (update m) cs with
              | (cs', ok) => (Device (m :: t) a m av d cs' ds, if ok then Success else Failed) end
  else (Device t a c av d cs ds, Failed).
Proof.
  intros m t a c av d cs ds H. unfold setMode. apply avail_spec in H. rewrite H. cbn [negb enter]. destruct (a m); reflexivity.
Qed.

Lemma set_ignored : forall m n, ~ supported n m -> isDevice n -> setMode m n = (n, Ignored).
Proof.
  intros m [t a l|t a c av d cs ds] H D; [destruct D|]. unfold setMode. cbn [supported] in H.
  destruct (existsb (eqMode m) av) eqn:E; [apply avail_spec in E; contradiction|reflexivity].
Qed.

Lemma set_shape : forall m n n' r, setMode m n = (n', r) -> isDevice n ->
  isDevice n' /\ handler n' = handler n /\ devicesOf n' = devicesOf n /\ defaultOf n' = defaultOf n /\
  (forall k, supported n' k <-> supported n k) /\ length (componentsOf n') = length (componentsOf n).
Proof.
  intros m [t a l|t a c av d cs ds] n' r H D; [destruct D|].
  destruct (in_dec (fun x y : mode => ltac:(decide equality) : {x = y} + {x <> y}) m av) as [I1|I1].
  - rewrite set_cases in H by exact I1. destruct (a m).
    + assert (L := each_length (update m) cs). destruct (each (update m) cs) as [cs' ok]. injection H as <- _.
      cbn [fst] in L. split; [exact D|]. split; [reflexivity|]. split; [reflexivity|]. split; [reflexivity|]. split; [intro k; reflexivity|exact L].
    + injection H as <- _. repeat split; tauto.
  - rewrite set_ignored in H; [|exact I1|exact D]. injection H as <- _. repeat split; tauto.
Qed.

Lemma setRec_device : forall m t a c av d cs ds, setRecursive m (Device t a c av d cs ds) =
  match each (setRecursive m) ds with
  | (ds', okd) =>
      match setMode m (Device t a c av d cs ds) with
      | (n', Failed) => (n', false)
      | (Device t' a' c' av' d' cs' _, _) => (Device t' a' c' av' d' cs' ds', okd)
      | (n', _) => (n', false)
      end
  end.
Proof. reflexivity. Qed.

(** The device after a recursive call, with the sub-devices exchanged. *)
Definition withDevices (n : node) (ds : list node) : node :=
  match n with Plain _ _ _ => n | Device t a c av d cs _ => Device t a c av d cs ds end.

Lemma setRec_true : forall m n n', setRecursive m n = (n', true) ->
  exists n1 r ds', setMode m n = (n1, r) /\ r <> Failed /\ isDevice n /\ each (setRecursive m) (devicesOf n) = (ds', true) /\
    n' = withDevices n1 ds'.
Proof.
  intros m [t a l|t a c av d cs ds] n' H; [discriminate|]. rewrite setRec_device in H.
  destruct (each (setRecursive m) ds) as [ds' okd] eqn:E. destruct (setMode m (Device t a c av d cs ds)) as [n1 r] eqn:Sm.
  destruct (set_shape m _ n1 r Sm Coq.Init.Logic.I) as [D _]. destruct n1 as [? ? ?|t1 a1 c1 av1 d1 cs1 ds1]; [destruct D|].
  exists (Device t1 a1 c1 av1 d1 cs1 ds1), r, ds'.
  destruct r; [| |discriminate]; injection H as <- ->; (split; [reflexivity|]; split; [discriminate|]; split; [exact Coq.Init.Logic.I|]; split; [exact E|reflexivity]).
Qed.

Lemma sub_with : forall n ds i y p x, isDevice n -> nth_error ds i = Some y -> sub y p x -> sub (withDevices n ds) (i :: p) x.
Proof. intros [t a l|t a c av d cs ds0] ds i y p x D N H; [destruct D|]. cbn [withDevices]. apply (sub_step _ _ _ _ _ _ ds i y); assumption. Qed.

Lemma sub_here_dev : forall n, isDevice n -> sub n [] n.
Proof. intros [t a l|t a c av d cs ds] D; [destruct D|constructor]. Qed.

Lemma setRec_sub : forall m n p x n', sub n p x -> setRecursive m n = (n', true) ->
  exists x1 r ds', setMode m x = (x1, r) /\ r <> Failed /\ sub n' p (withDevices x1 ds').
Proof.
  intros m n p x n' H. revert n'. induction H as [t a c av d cs ds|t a c av d cs ds i y p x N H IH]; intros n' R.
  - destruct (setRec_true m _ n' R) as [n1 [r [ds' [Sm [F [D [_ ->]]]]]]]. exists n1, r, ds'. split; [exact Sm|]. split; [exact F|].
    apply sub_here_dev. destruct (set_shape m _ n1 r Sm D) as [D1 _]. destruct n1; [destruct D1|exact Coq.Init.Logic.I].
  - destruct (setRec_true m _ n' R) as [n1 [r [ds' [Sm [F [D [E ->]]]]]]]. cbn [devicesOf] in E.
    destruct (each_true _ _ _ E i y N) as [y' [N' Ry]]. destruct (IH y' Ry) as [x1 [r1 [ds1 [S1 [F1 H1]]]]].
    exists x1, r1, ds1. split; [exact S1|]. split; [exact F1|]. destruct (set_shape m _ n1 r Sm D) as [D1 _].
    apply (sub_with n1 ds' i y'); assumption.
Qed.

Lemma setRec_ok : forall m n, proper n -> (snd (setRecursive m n) = true <-> forall p x, sub n p x -> snd (setMode m x) <> Failed).
Proof.
  intros m n. induction n as [t a l F|t a c av d cs ds Fc Fd] using node_rec2; intro P; [inversion P|].
  inversion P as [t0 a0 c0 av0 d0 cs0 ds0 Pd]; subst. rewrite setRec_device. assert (K := each_ok (setRecursive m) ds).
  destruct (each (setRecursive m) ds) as [ds' okd]. cbn [snd] in K.
  destruct (setMode m (Device t a c av d cs ds)) as [n1 r] eqn:Sm.
  destruct (set_shape m _ n1 r Sm Coq.Init.Logic.I) as [D _]. destruct n1 as [? ? ?|t1 a1 c1 av1 d1 cs1 ds1]; [destruct D|].
  assert (Sub : (forall i y, nth_error ds i = Some y -> snd (setRecursive m y) = true) <->
                forall i y p x, nth_error ds i = Some y -> sub y p x -> snd (setMode m x) <> Failed).
  { split.
    - intros H i y p x N Sx. assert (In1 := nth_error_In _ _ N).
      assert (Fy := proj1 (Forall_forall _ _) Fd y In1). assert (Py := proj1 (Forall_forall _ _) Pd y In1). cbv beta in Fy.
      exact (proj1 (Fy Py) (H i y N) p x Sx).
    - intros H i y N. assert (In1 := nth_error_In _ _ N).
      assert (Fy := proj1 (Forall_forall _ _) Fd y In1). assert (Py := proj1 (Forall_forall _ _) Pd y In1). cbv beta in Fy.
      apply (proj2 (Fy Py)). intros p x Sx. exact (H i y p x N Sx). }
  assert (Both : (r <> Failed /\ okd = true) <-> forall p x, sub (Device t a c av d cs ds) p x -> snd (setMode m x) <> Failed).
  { rewrite K, Sub. split.
    - intros [R H] p x Sx. inversion Sx as [|t2 a2 c2 av2 d2 cs2 ds2 i y q x2 N S2]; subst; [rewrite Sm; exact R|exact (H i y q x N S2)].
    - intro H. split.
      + specialize (H [] _ (sub_here _ _ _ _ _ _ _)). rewrite Sm in H. exact H.
      + intros i y p x N Sx. apply (H (i :: p) x). apply (sub_step _ _ _ _ _ _ ds i y); assumption. }
  rewrite <- Both. destruct r; cbn [snd]; split.
  - intro H. split; [discriminate|exact H].
  - intros [_ H]. exact H.
  - intro H. split; [discriminate|exact H].
  - intros [_ H]. exact H.
  - discriminate.
  - intros [R _]. destruct R. reflexivity.
Qed.

Lemma each_true_rev : forall f l l', each f l = (l', true) ->
  forall i y', nth_error l' i = Some y' -> exists y, nth_error l i = Some y /\ f y = (y', true).
Proof.
  intros f. induction l as [|x l IH]; intros l' H i y' N.
  - injection H as <-. destruct i; discriminate.
  - rewrite each_cons in H. destruct (f x) as [x' []] eqn:F; [|discriminate]. destruct (each f l) as [r ok] eqn:E.
    injection H as <- ->. destruct i as [|i]; cbn [nth_error] in *.
    + injection N as <-. exists x. split; [reflexivity|exact F].
    + exact (IH r eq_refl i y' N).
Qed.

Lemma update_inside_rev : forall m n' p x', inside n' p x' -> forall n, update m n = (n', true) ->
  exists x, inside n p x /\ after m x x'.
Proof.
  intros m n' p x' H. induction H as [n'|t a l' i y' p x' N H IH]; intros n U.
  - exists n. split; [constructor|]. apply update_after. exact U.
  - destruct n as [t0 a0 l|t0 a0 c av d cs ds].
    + rewrite update_plain in U. destruct (a0 m); [|discriminate]. destruct (each (update m) l) as [l2 ok] eqn:E.
      injection U as _ _ -> ->. destruct (each_true_rev _ _ _ E i y' N) as [y [Ny Uy]]. destruct (IH y Uy) as [x [I1 A]].
      exists x. split; [|exact A]. apply (inside_step _ _ l i y); assumption.
    + rewrite update_device in U. destruct (a0 d); discriminate.
Qed.

Lemma after_kind : forall m x x', after m x x' -> (isDevice x' <-> isDevice x).
Proof.
  intros m [t a l|t a c av d cs ds] x' [_ [_ H]].
  - destruct H as [l' [E _]]. destruct x'; [tauto|discriminate].
  - destruct x'; [discriminate|]. cbn [isDevice]. tauto.
Qed.

Lemma set_success : forall m n n', setMode m n = (n', Success) ->
  exists t a c av d cs ds cs', n = Device t a c av d cs ds /\ In m av /\ a m = true /\ each (update m) cs = (cs', true) /\
    n' = Device (m :: t) a m av d cs' ds.
Proof.
  intros m [t a l|t a c av d cs ds] n' H; [discriminate|].
  destruct (existsb (eqMode m) av) eqn:A.
  - apply avail_spec in A. rewrite set_cases in H by exact A. destruct (a m) eqn:Am; [|discriminate].
    destruct (each (update m) cs) as [cs' ok] eqn:E. destruct ok; [|discriminate]. injection H as <-.
    exists t, a, c, av, d, cs, ds, cs'. repeat split; assumption.
  - unfold setMode in H. rewrite A in H. discriminate.
Qed.

Lemma set_agrees : forall m n n', setMode m n = (n', Success) -> agrees n'.
Proof.
  intros m n n' H. destruct (set_success m n n' H) as [t [a [c [av [d [cs [ds [cs' [-> [_ [_ [E ->]]]]]]]]]]]].
  intros p x k [_ [i [q [y' [-> [N I1]]]]]] P K. cbn [componentsOf modeOf] in *. injection K as <-.
  destruct (each_true_rev _ _ _ E i y' N) as [y [Ny Uy]]. destruct (update_inside_rev m y' q x I1 y Uy) as [x0 [I0 A]].
  assert (P0 : ~ isDevice x0) by (intro X; apply P; apply (after_kind m x0 x A); exact X).
  destruct A as [A _]. exists (heard x0). rewrite A. destruct x0 as [? ? ?|? ? ? ? ? ? ?]; [reflexivity|destruct P0; exact Coq.Init.Logic.I].
Qed.
