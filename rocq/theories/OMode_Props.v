(** * OMode_Props: property C66 *)
From Coq Require Import List Bool Arith Lia.
From Verif Require Import OMode_Model OMode_Spec OMode_Proofs.
Import ListNotations.

(** ** One device *)

(** A mode that the device does not offer changes nothing. *)
Theorem c66_ignored : forall m n, isDevice n -> ~ supported n m -> setMode m n = (n, Ignored).
Proof. intros m n D N. apply set_ignored; assumption. Qed.

(** Otherwise the call succeeds exactly when the device and all its components
    accept what they are asked to. *)
Theorem c66_set_answer : forall m n, isDevice n -> supported n m ->
  (snd (setMode m n) = Success <-> handler n m = true /\ forall p x, own n p x -> handler x (asked m x) = true).
Proof.
  intros m [t a l|t a c av d cs ds] D A; [destruct D|]. cbn [supported] in A. rewrite set_cases by exact A. cbn [handler].
  assert (K := each_ok (update m) cs).
  assert (Own : (forall i y, nth_error cs i = Some y -> snd (update m y) = true) <->
                forall p x, own (Device t a c av d cs ds) p x -> handler x (asked m x) = true).
  { split.
    - intros H p x [_ [i [q [y [-> [N I1]]]]]]. exact (proj1 (update_ok m y) (H i y N) q x I1).
    - intros H i y N. apply update_ok. intros p x I1. apply (H (i :: p) x). split; [exact Coq.Init.Logic.I|].
      exists i, p, y. split; [reflexivity|]. split; [exact N|exact I1]. }
  destruct (a m).
  - destruct (each (update m) cs) as [cs' ok]. cbn [snd] in *. rewrite <- Own, <- K. destruct ok; split; intro H.
    + split; reflexivity.
    + reflexivity.
    + discriminate.
    + destruct H as [_ H]. discriminate.
  - cbn [snd]. split; [discriminate|]. intros [H _]. discriminate.
Qed.

(** After it succeeded the device is in the mode, every component of it was
    told, and the sub-devices are as before. *)
Theorem c66_set : forall m n n', setMode m n = (n', Success) ->
  modeOf n' = Some m /\ heard n' = m :: heard n /\ agrees n' /\ devicesOf n' = devicesOf n /\
  (forall p x, own n p x -> exists x', own n' p x' /\ heard x' = asked m x :: heard x /\ (isDevice x' <-> isDevice x)).
Proof.
  intros m n n' H. assert (G := set_agrees m n n' H).
  destruct (set_success m n n' H) as [t [a [c [av [d [cs [ds [cs' [-> [_ [_ [E ->]]]]]]]]]]]].
  split; [reflexivity|]. split; [reflexivity|]. split; [exact G|]. split; [reflexivity|].
  intros p x [_ [i [q [y [-> [N I1]]]]]]. cbn [componentsOf] in N. destruct (each_true _ _ _ E i y N) as [y' [N' U]].
  destruct (update_inside m y q x y' I1 U) as [x' [I2 A]]. exists x'. split; [|split; [exact (proj1 A)|exact (after_kind m x x' A)]].
  split; [exact Coq.Init.Logic.I|]. exists i, q, y'. split; [reflexivity|]. split; [exact N'|exact I2].
Qed.

(** A device among the components (not in the device folder) takes its default
    mode. *)
Theorem c66_nested_default : forall m n n', setMode m n = (n', Success) ->
  forall p x d, own n p x -> defaultOf x = Some d -> exists x', own n' p x' /\ modeOf x' = Some d /\ componentsOf x' = componentsOf x.
Proof.
  intros m n n' H p x d0 [_ [i [q [y [-> [N I1]]]]]] D.
  destruct (set_success m n n' H) as [t [a [c [av [d [cs [ds [cs' [-> [_ [_ [E ->]]]]]]]]]]]].
  cbn [componentsOf] in N. destruct (each_true _ _ _ E i y N) as [y' [N' U]].
  destruct (update_inside m y q x y' I1 U) as [x' [I2 A]]. exists x'. split.
  - split; [exact Coq.Init.Logic.I|]. exists i, q, y'. split; [reflexivity|]. split; [exact N'|exact I2].
  - destruct x as [? ? ?|t2 a2 c2 av2 d2 cs2 ds2]; [discriminate|]. injection D as <-. destruct A as [_ [_ ->]]. split; reflexivity.
Qed.

Definition yes : mode -> bool := fun _ => true.
Definition fb (t : list mode) (a : mode -> bool) : node := Plain t a [Plain t yes []].
Definition box (c : mode) (cs ds : list node) : node := Device [c] yes c [Idle; Operation; SafeOperation] SafeOperation cs ds.

Example c66_set_ex :
  setMode Operation (box Idle [fb [Idle] yes] [box Idle [] []]) =
  (Device [Operation; Idle] yes Operation [Idle; Operation; SafeOperation] SafeOperation [Plain [Operation; Idle] yes [Plain [Operation; Idle] yes []]] [box Idle [] []], Success).
Proof. reflexivity. Qed.

(** Refuted: a failed call changes nothing.  The device is in the new mode,
    the components before the failing one were told it and the others not. *)
Theorem c66_failed_refuted : ~ (forall m n n', setMode m n = (n', Failed) -> modeOf n' = modeOf n \/ agrees n').
Proof.
  intro H. set (stuck := fun m => negb (eqMode m Operation)).
  destruct (H Operation (box Idle [fb [Idle] yes; fb [Idle] stuck] []) _ eq_refl) as [X|X]; [discriminate|].
  destruct (X [1] (fb [Idle] stuck) Operation) as [r R]; [|intros []|reflexivity|discriminate].
  split; [exact Coq.Init.Logic.I|]. exists 1, [], (fb [Idle] stuck). split; [reflexivity|]. split; [reflexivity|constructor].
Qed.

(** ** All devices *)

(** After a recursive call every device below that offers the mode is in it,
    with its components; the others are as before. *)
Theorem c66_recursive : forall m n n', setRecursive m n = (n', true) -> forall p x, sub n p x ->
  exists x', sub n' p x' /\
    (supported x m -> modeOf x' = Some m /\ agrees x') /\
    (~ supported x m -> modeOf x' = modeOf x /\ heard x' = heard x /\ componentsOf x' = componentsOf x).
Proof.
  intros m n n' R p x Sx. assert (D : isDevice x) by (clear R; induction Sx; [exact Coq.Init.Logic.I|exact IHSx]).
  destruct (setRec_sub m n p x n' Sx R) as [x1 [r [ds' [Sm [F Sx']]]]].
  exists (withDevices x1 ds'). split; [exact Sx'|]. split.
  - intro A. assert (r = Success) as ->.
    { destruct r; [reflexivity| |destruct F; reflexivity]. destruct x as [? ? ?|t a c av d cs ds]; [destruct D|].
      cbn [supported] in A. rewrite set_cases in Sm by exact A. destruct (a m); [|discriminate].
      destruct (each (update m) cs) as [cs' []]; discriminate. }
    destruct (c66_set m x x1 Sm) as [M [_ [G _]]]. destruct x1 as [? ? ?|t a c av d cs ds]; [discriminate|]. cbn [withDevices modeOf] in *.
    split; [exact M|]. intros q y k O P K. apply (G q y k); [|exact P|exact K]. exact O.
  - intro A. rewrite set_ignored in Sm by assumption. injection Sm as <- _. destruct x; [destruct D|]. repeat split.
Qed.

(** It succeeds exactly when every device that offers the mode can take it. *)
Theorem c66_recursive_answer : forall m n, proper n ->
  (snd (setRecursive m n) = true <->
   forall p x, sub n p x -> supported x m -> handler x m = true /\ forall q y, own x q y -> handler y (asked m y) = true).
Proof.
  intros m n P. rewrite setRec_ok by exact P. split; intros H p x Sx.
  - intro A. assert (D : isDevice x) by (destruct x; [destruct A|exact Coq.Init.Logic.I]).
    apply (c66_set_answer m x D A). specialize (H p x Sx). destruct x as [? ? ?|t a c av d cs ds]; [destruct D|].
    cbn [supported] in A. rewrite set_cases in * by exact A. destruct (a m); [|destruct H; reflexivity].
    destruct (each (update m) cs) as [cs' []]; [reflexivity|destruct H; reflexivity].
  - assert (D : isDevice x) by (clear H P; induction Sx; [exact Coq.Init.Logic.I|exact IHSx]).
    intro F. destruct x as [? ? ?|t a c av d cs ds]; [destruct D|].
    destruct (existsb (eqMode m) av) eqn:E.
    + apply avail_spec in E. assert (Q := proj2 (c66_set_answer m (Device t a c av d cs ds) D E) (H p _ Sx E)). congruence.
    + unfold setMode in F. rewrite E in F. discriminate.
Qed.

Example c66_recursive_ex :
  let old := Device [] yes SafeOperation [SafeOperation] SafeOperation [fb [] yes] [box Idle [fb [Idle] yes] []] in
  let n := box Idle [fb [Idle] yes] [old] in
  proper n /\ snd (setRecursive Operation n) = true /\
  modeOf (fst (setRecursive Operation n)) = Some Operation /\
  map modeOf (devicesOf (fst (setRecursive Operation n))) = [Some SafeOperation] /\
  map (fun x => map modeOf (devicesOf x)) (devicesOf (fst (setRecursive Operation n))) = [[Some Operation]].
Proof. split; [repeat constructor|]. repeat split. Qed.

(** Refuted: success means that all devices are in the mode. *)
Theorem c66_recursive_all_refuted :
  ~ (forall m n n', setRecursive m n = (n', true) -> forall p x, sub n' p x -> modeOf x = Some m).
Proof.
  intro H. set (n := Device [] yes SafeOperation [SafeOperation] SafeOperation [] []).
  specialize (H Operation n n eq_refl [] n (sub_here _ _ _ _ _ _ _)). discriminate.
Qed.

(** ** Reading and adding *)

(** A component reports the mode of the nearest device above it. *)
Theorem c66_get : forall ups,
  (forall m, getMode ups = Some m <-> exists l1 d l2, ups = l1 ++ d :: l2 /\ Forall (fun x => ~ isDevice x) l1 /\ modeOf d = Some m) /\
  (getMode ups = None <-> Forall (fun x => ~ isDevice x) ups).
Proof.
  induction ups as [|[t a l|t a c av d cs ds] ups [IH1 IH2]]; cbn [getMode].
  - split; [|split; [constructor|reflexivity]]. intro m. split; [discriminate|]. intros [l1 [d [l2 [E _]]]]. destruct l1; discriminate.
  - split.
    + intro m. rewrite IH1. split.
      * intros [l1 [d [l2 [-> [F M]]]]]. exists (Plain t a l :: l1), d, l2. split; [reflexivity|]. split; [constructor; [intros []|exact F]|exact M].
      * intros [l1 [d [l2 [E [F M]]]]]. destruct l1 as [|y l1]; [injection E as <- _; discriminate|]. injection E as <- ->.
        inversion F; subst. exists l1, d, l2. split; [reflexivity|]. split; assumption.
    + rewrite IH2. split; intro H; [constructor; [intros []|exact H]|inversion H; assumption].
  - split.
    + intro m. split.
      * intro H. exists [], (Device t a c av d cs ds), ups. split; [reflexivity|]. split; [constructor|exact H].
      * intros [l1 [d0 [l2 [E [F M]]]]]. destruct l1 as [|y l1]; [injection E as <- _; exact M|]. injection E as <- _.
        inversion F as [|? ? X _]; subst. destruct X. exact Coq.Init.Logic.I.
    + split; [discriminate|]. intro H. inversion H as [|? ? X _]; subst. destruct X. exact Coq.Init.Logic.I.
Qed.

(** What is added below a device is told its mode, a device its default, if
    all handlers accept. *)
Theorem c66_added_partial : forall ups m x, getMode ups = Some m ->
  (forall p y, inside x p y -> handler y (asked m y) = true) ->
  forall p y, inside x p y -> exists y', inside (sync ups x) p y' /\ heard y' = asked m y :: heard y.
Proof.
  intros ups m x G H p y I1. unfold sync. rewrite G. assert (K := proj2 (update_ok m x) H).
  destruct (update m x) as [x' ok] eqn:U. cbn [snd] in K. subst ok. destruct (update_inside m x p y x' I1 U) as [y' [I2 A]].
  exists y'. split; [exact I2|exact (proj1 A)].
Qed.

(** Without a device above, nothing is told. *)
Theorem c66_added_alone : forall ups x, Forall (fun y => ~ isDevice y) ups -> sync ups x = x.
Proof. intros ups x F. unfold sync. rewrite (proj2 (proj2 (c66_get ups)) F). reflexivity. Qed.

(** A device that is added is in its default mode. *)
Theorem c66_device_added : forall ups m x d, getMode ups = Some m -> defaultOf x = Some d -> handler x d = true ->
  modeOf (sync ups x) = Some d /\ componentsOf (sync ups x) = componentsOf x /\ devicesOf (sync ups x) = devicesOf x.
Proof.
  intros ups m [t a l|t a c av d cs ds] d0 G D H; [discriminate|]. injection D as <-. cbn [handler] in H.
  unfold sync. rewrite G, update_device, H. repeat split.
Qed.

Example c66_added_ex :
  sync [Plain [] yes []; box Operation [] []] (fb [] yes) = fb [Operation] yes /\ sync [Plain [] yes []] (fb [] yes) = fb [] yes.
Proof. split; reflexivity. Qed.

(** Refuted: an added component was told the mode it reports.  A refusing
    handler is ignored. *)
Theorem c66_untold_refuted :
  ~ (forall ups m t a, getMode ups = Some m -> exists r, heard (sync ups (Plain t a [])) = m :: r).
Proof. intro H. destruct (H [box Operation [] []] Operation [] (fun _ => false) eq_refl) as [r R]. discriminate. Qed.

(** Refuted: the components of a device that is added agree with it.  It
    enters its default mode without telling them. *)
Theorem c66_device_agrees_refuted : ~ (forall ups x, agrees x -> agrees (sync ups x)).
Proof.
  intro H. set (x := box Operation [fb [Operation] yes] []).
  assert (A : agrees x).
  { intros p y m [_ [i [q [z [-> [N I1]]]]]] P M. injection M as <-. cbn [componentsOf x box] in N.
    destruct i as [|i]; [|destruct i; discriminate]. injection N as <-.
    inversion I1 as [|t a l j w q2 y2 N2 I2]; subst; [exists []; reflexivity|].
    destruct j as [|j]; [|destruct j; discriminate]. injection N2 as <-.
    inversion I2 as [|t a l j w q3 y3 N3 I3]; subst; [exists []; reflexivity|]. destruct j; discriminate. }
  destruct (H [box Operation [] []] x A [0] (fb [Operation] yes) SafeOperation) as [r R]; [|intros []|reflexivity|discriminate].
  split; [exact Coq.Init.Logic.I|]. exists 0, [], (fb [Operation] yes). split; [reflexivity|]. split; [reflexivity|constructor].
Qed.

(** The same holds for making a device the root. *)
Theorem c66_root_agrees_refuted : ~ (forall x, agrees x -> agrees (setAsRoot x)).
Proof.
  intro H. set (x := box Operation [Plain [Operation] yes []] []).
  assert (A : agrees x).
  { intros p y m [_ [i [q [z [-> [N I1]]]]]] P M. injection M as <-. cbn [componentsOf x box] in N.
    destruct i as [|i]; [|destruct i; discriminate]. injection N as <-.
    inversion I1 as [|t a l j w q2 y2 N2 I2]; subst; [exists []; reflexivity|]. destruct j; discriminate. }
  destruct (H x A [0] (Plain [Operation] yes []) SafeOperation) as [r R]; [|intros []|reflexivity|discriminate].
  split; [exact Coq.Init.Logic.I|]. exists 0, [], (Plain [Operation] yes []). split; [reflexivity|]. split; [reflexivity|constructor].
Qed.

Theorem c66_root_mode : forall n d, defaultOf n = Some d -> handler n d = true -> modeOf (setAsRoot n) = Some d.
Proof. intros [t a l|t a c av d cs ds] d0 D H; [discriminate|]. injection D as <-. cbn [handler] in H. cbn [setAsRoot enter]. rewrite H. reflexivity. Qed.

Print Assumptions c66_ignored.
Print Assumptions c66_set_answer.
Print Assumptions c66_set.
Print Assumptions c66_nested_default.
Print Assumptions c66_failed_refuted.
Print Assumptions c66_recursive.
Print Assumptions c66_recursive_answer.
Print Assumptions c66_recursive_all_refuted.
Print Assumptions c66_get.
Print Assumptions c66_added_partial.
Print Assumptions c66_added_alone.
Print Assumptions c66_device_added.
Print Assumptions c66_untold_refuted.
Print Assumptions c66_device_agrees_refuted.
Print Assumptions c66_root_agrees_refuted.
Print Assumptions c66_root_mode.
