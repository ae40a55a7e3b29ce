(** C51: the update modes of devices. *)
From Coq Require Import List Bool Arith Lia.
From Verif Require Import CDev_Model CDev_Spec CDev_Proofs.
Import ListNotations.

(** ** The mode of a device *)
Lemma flat_ids o : map fst (flat o) = option_ids o.
Proof.
  revert o. fix go 1. intros [i m l]. cbn [flat option_ids map fst]. f_equal.
  induction l as [|o l IH]; cbn [flat_map map]; [easy|]. rewrite map_app, go, IH. reflexivity.
Qed.
Lemma flat_set o p m : set_for o p m -> In (last p 0, m) (flat o).
Proof.
  induction 1; cbn [flat In]; [now left|]. right. apply in_flat_map. exists o. split; [easy|].
  assert (p <> []) by (now inversion H0). destruct p; [easy|]. exact IHset_for.
Qed.
Theorem c51_mode_as_set_partial o p m : NoDup (option_ids o) -> set_for o p m -> mode_of o (last p 0) = m.
Proof.
  intros N K. apply flat_set in K. unfold mode_of. rewrite (in_assoc _ _ m); [easy| |now apply in_rev in K].
  rewrite map_rev, flat_ids. now apply NoDup_rev.
Qed.
Theorem c51_mode_not_set o i : ~ In i (option_ids o) -> mode_of o i = Load.
Proof.
  intros K. unfold mode_of. replace (assoc i (rev (flat o))) with (@None mode); [easy|]. symmetry.
  apply assoc_none. now rewrite map_rev, <- in_rev, flat_ids.
Qed.
(** Two devices with the same local id below different devices share one mode. *)
Theorem c51_shared_mode_refuted :
  exists o p p' m m', set_for o p m /\ set_for o p' m' /\ p <> p' /\ last p 0 = last p' 0 /\
    m = Load /\ m' = Remove /\ mode_of o (last p 0) = Remove.
Proof.
  exists (Opts 0 Load [Opts 1 Load [Opts 3 Load []]; Opts 2 Load [Opts 3 Remove []]]), [0; 1; 3], [0; 2; 3], Load, Remove.
  split; [eapply set_below; [left; reflexivity|]; eapply set_below; [left; reflexivity|]; constructor|].
  split; [eapply set_below; [right; left; reflexivity|]; eapply set_below; [left; reflexivity|]; constructor|].
  repeat split. discriminate.
Qed.

(** ** What loading does *)
Theorem c51_modes_partial w o un d c r M :
  (forall k y, w k = Some y -> dkey y = k) ->
  (forall x e, meets w d c x e -> clear w o x e) ->
  NoDup (ids_below c) ->
  update w o un d c [] = (r, M) ->
  outcome w o un M d c r /\ NoDup (map fst M).
Proof.
  intros K Hm N U. destruct (all_good w o un K c d [] Hm N (fun _ _ => eq_refl) r M U) as (Sp & _ & _ & Ky).
  split; [apply Sp, incl_refl|]. apply Ky. constructor.
Qed.

(** A connection to a signal of a device that was replaced goes to the new one. *)
Theorem c51_paths_partial M p q :
  (forall s, In s q -> ~ In s (map fst M)) ->
  exists p', remap_path M (p ++ q) = p' ++ q /\ Forall2 (renamed M) p p'.
Proof.
  intros Q. exists (remap_path M p). split.
  - unfold remap_path. rewrite map_app. f_equal. rewrite <- (map_id q) at 2. apply map_ext_in. intros s K.
    apply Q, assoc_none in K. now rewrite K.
  - clear Q. induction p as [|s p IH]; [constructor|]. unfold remap_path. cbn [map]. constructor; [|exact IH].
    unfold renamed. destruct (assoc s M) as [j|] eqn:E; [left; now apply assoc_in|right].
    split; [easy|]. intros t K. apply assoc_none in E. apply E. apply (in_map fst) in K. exact K.
Qed.

(** ** A case *)
Definition leaf i := Dev i (10 + i) false 0 [].
Definition w0 : world := fun k => match k with 11 => Some (leaf 1) | 14 => Some (leaf 4) | 15 => Some (leaf 5) | 17 => Some (leaf 7) | _ => None end.
Definition d0 := Dev 0 10 true 0 [leaf 1; Dev 2 12 false 0 [leaf 7]; leaf 3; leaf 9].
Definition c0 := DCfg 0 10 100 [DCfg 1 11 101 []; DCfg 2 12 102 [DCfg 7 17 107 []]; DCfg 3 13 103 []; DCfg 5 15 105 []; DCfg 6 16 106 []].
Definition o0 := mode_of (Opts 0 Load [Opts 1 (Remap 14) []; Opts 2 Load [Opts 7 UpdateOnly []]; Opts 3 Remove []; Opts 6 Skip []]).
Example c51_case_result : update w0 o0 true d0 c0 [] =
  (Dev 0 10 true 100 [Dev 2 12 false 102 [Dev 7 17 false 107 []]; Dev 4 14 false 101 []; Dev 5 15 false 105 []], [(1, 4)]).
Proof. vm_compute. reflexivity. Qed.
Lemma w0_inv k y : w0 k = Some y -> dkey y = k /\ In y [leaf 1; leaf 4; leaf 5; leaf 7].
Proof.
  unfold w0. intros E. do 18 (destruct k as [|k]; try discriminate E; try (injection E as <-; cbn; auto 7)).
Qed.
Lemma met x e : meets w0 d0 c0 x e -> (x = d0 /\ e = c0) \/
  ((x = Dev 2 12 false 0 [leaf 7] \/ exists i, x = leaf i) /\ (csubs e = [] \/ csubs e = [DCfg 7 17 107 []])).
Proof.
  intros Hm.
  assert (Low : forall x e x' e', (x = Dev 2 12 false 0 [leaf 7] \/ exists i, x = leaf i) ->
    (csubs e = [] \/ csubs e = [DCfg 7 17 107 []]) -> meets w0 x e x' e' ->
    (x' = Dev 2 12 false 0 [leaf 7] \/ exists i, x' = leaf i) /\ (csubs e' = [] \/ csubs e' = [DCfg 7 17 107 []])).
  { clear. intros x e x' e' Hx He Hm. induction Hm as [d c|d c x e x' e' Ix Ie Hm IH|d c k x e x' e' Wk Ie Hm IH]; [auto| |].
    - apply IH.
      + right. destruct Hx as [->|[i ->]]; cbn in Ix; [|easy]. destruct Ix as [<-|[]]. eauto.
      + destruct He as [E|E]; rewrite E in Ie; cbn [In] in Ie; [easy|]. destruct Ie as [<-|[]]. now left.
    - apply IH.
      + right. apply w0_inv in Wk as [_ Q]. cbn [In] in Q. intuition eauto.
      + destruct He as [E|E]; rewrite E in Ie; cbn [In] in Ie; [easy|]. destruct Ie as [<-|[]]. now left. }
  assert (He : forall e, In e (csubs c0) -> csubs e = [] \/ csubs e = [DCfg 7 17 107 []]).
  { cbn [csubs c0 In]. intros e' Q. repeat destruct Q as [<-|Q]; cbn [csubs]; auto; easy. }
  inversion Hm; subst; [auto| |]; right; (eapply Low; [|apply He; eassumption|eassumption]).
  - cbn [dsubs d0 In] in H. repeat destruct H as [<-|H]; try easy; eauto.
  - right. apply w0_inv in H as [_ Q]. cbn [In] in Q. intuition eauto.
Qed.
Ltac each := repeat match goal with
  | H : _ \/ _ |- _ => destruct H
  | H : False |- _ => destruct H
  | H : ?a = ?e |- _ => is_var e; subst e
  end.
Example c51_case : (forall k y, w0 k = Some y -> dkey y = k) /\ (forall x e, meets w0 d0 c0 x e -> clear w0 o0 x e) /\
  NoDup (ids_below c0).
Proof.
  split; [intros k y E; now apply w0_inv in E|]. split.
  2: { cbn. repeat constructor; cbn; lia. }
  intros x e Hm. apply met in Hm as [[-> ->]|[Hx He]].
  - constructor.
    + cbn. repeat constructor; cbn; lia.
    + intros x y Ix E. cbn [dsubs d0 In] in Ix. each; cbn in E; try discriminate; injection E as <-; reflexivity.
    + intros e y Ie Om E. cbn [csubs c0 In] in Ie. each; cbn in Om, E; try discriminate; injection E as <-; reflexivity.
    + intros e k Ie Om. cbn [csubs c0 In] in Ie. each; cbn in Om; try discriminate. injection Om as <-.
      exists (leaf 4). split; [reflexivity|]. intros x Ix. cbn [dsubs d0 In] in Ix. each; cbn; intros; lia.
    + intros e e' i Ie Ie' L L'. cbn [csubs c0 In] in Ie, Ie'. each; try reflexivity; exfalso;
        unfold lands in L, L'; cbn in L, L'; repeat match goal with H : exists _, _ /\ _ |- _ => destruct H as (? & E & <-); injection E as <- end; cbn in *; congruence.
    + intros bf e af k y E Om Wy K.
      assert (Ie : In e (csubs c0)) by (rewrite E; apply in_elt). cbn [csubs c0 In] in Ie. each; cbn in Om; try discriminate.
      injection Om as <-. cbn in Wy. injection Wy as <-. cbn in K.
      assert (Q : In 4 (map cid (csubs c0))) by (rewrite E, map_app, in_app_iff; right; right; exact K). cbn in Q. lia.
    + intros e k x Ie Om Ix Dx. cbn [csubs c0 In] in Ie. each; cbn in Om; try discriminate.
      cbn [dsubs d0 In] in Ix. each; cbn in Dx |- *; try reflexivity; lia.
  - constructor.
    + destruct Hx as [->|[i ->]]; cbn; repeat constructor; cbn; lia.
    + clear He. intros x' y Ix E. destruct Hx as [->|[i ->]]; cbn [dsubs leaf In] in Ix; [|easy]. each. cbn in E. injection E as <-. reflexivity.
    + intros e' y Ie Om. destruct He as [E|E]; rewrite E in Ie; cbn [In] in Ie; each; cbn in Om; discriminate.
    + intros e' k Ie Om. destruct He as [E|E]; rewrite E in Ie; cbn [In] in Ie; each; cbn in Om; discriminate.
    + intros e1 e2 i Ie Ie'. destruct He as [E|E]; rewrite E in Ie, Ie'; cbn [In] in Ie, Ie'; each; reflexivity.
    + intros bf e' af k y E' Om. assert (Ie : In e' (csubs e)) by (rewrite E'; apply in_elt).
      destruct He as [E|E]; rewrite E in Ie; cbn [In] in Ie; each; cbn in Om; discriminate.
    + intros e' k x' Ie Om. destruct He as [E|E]; rewrite E in Ie; cbn [In] in Ie; each; cbn in Om; discriminate.
Qed.

(** ** What is in the way *)
Definition w1 : world := fun k => match k with 11 => Some (leaf 1) | 12 => Some (leaf 2) | _ => None end.

(** Two devices that are to take each other's place: one of them is lost. *)
Theorem c51_swap_refuted :
  exists d c e e' k k' o,
    csubs c = [e; e'] /\ o (cid e) = Remap k /\ o (cid e') = Remap k' /\ cid e <> cid e' /\
    (exists x x', In x (dsubs d) /\ did x = cid e /\ dkey x = k' /\ w1 k' = Some x /\
                  In x' (dsubs d) /\ did x' = cid e' /\ dkey x' = k /\ w1 k = Some x') /\
    let r := fst (update w1 o false d c []) in
    length (dsubs r) = 1 /\ ~ In k (map dkey (dsubs r)).
Proof.
  exists (Dev 0 10 true 0 [leaf 1; leaf 2]), (DCfg 0 10 100 [DCfg 1 11 101 []; DCfg 2 12 102 []]), (DCfg 1 11 101 []), (DCfg 2 12 102 []), 12, 11,
    (fun i => match i with 1 => Remap 12 | 2 => Remap 11 | _ => Load end).
  split; [reflexivity|]. split; [reflexivity|]. split; [reflexivity|]. split; [discriminate|]. split.
  - exists (leaf 1), (leaf 2). repeat split; cbn [In dsubs]; auto.
  - cbv zeta. vm_compute. split; [reflexivity|]. intros [H|[]]. discriminate.
Qed.

(** A device that cannot be reached: the old one is removed all the same. *)
Theorem c51_unreachable_loses_refuted :
  exists d c e k o, csubs c = [e] /\ o (cid e) = Remap k /\ w1 k = None /\ In (cid e) (map did (dsubs d)) /\
    dsubs (fst (update w1 o false d c [])) = [].
Proof.
  exists (Dev 0 10 true 0 [leaf 1]), (DCfg 0 10 100 [DCfg 1 11 101 []]), (DCfg 1 11 101 []), 13, (fun i => match i with 1 => Remap 13 | _ => Load end).
  repeat split; cbn; auto.
Qed.

(** A device that comes back with another local id, without a mode set: it is loaded,
    but connections to its signals are not. *)
Theorem c51_new_id_unknown_refuted :
  exists d c e x, csubs c = [e] /\ dsubs d = [] /\ w1 (ckey e) = Some x /\ did x <> cid e /\
    exists r x', update w1 (fun _ => Load) false d c [] = (r, []) /\ dsubs r = [x'] /\ did x' = did x /\ dset x' = cset e /\
      forall p, remap_path [] (did d :: cid e :: p) = did d :: cid e :: p.
Proof.
  exists (Dev 0 10 true 0 []), (DCfg 0 10 100 [DCfg 8 12 101 []]), (DCfg 8 12 101 []), (leaf 2).
  split; [reflexivity|]. split; [reflexivity|]. split; [reflexivity|]. split; [discriminate|].
  exists (Dev 0 10 true 100 [Dev 2 12 false 101 []]), (Dev 2 12 false 101 []). repeat split.
  intros p. unfold remap_path. cbn [map assoc did]. f_equal. f_equal. apply map_id.
Qed.

(** A device that is used in place of another and is itself in the configuration gets
    the settings of whichever is last. *)
Theorem c51_two_on_one_refuted :
  exists d c e e' o, csubs c = [e; e'] /\ o (cid e) = Load /\ o (cid e') = Remap (ckey e) /\ cset e <> cset e' /\
    exists r x M, update w1 o false d c [] = (r, M) /\ dsubs r = [x] /\ did x = cid e /\ dset x = cset e'.
Proof.
  exists (Dev 0 10 true 0 [leaf 1; leaf 2]), (DCfg 0 10 100 [DCfg 1 11 101 []; DCfg 2 12 102 []]), (DCfg 1 11 101 []), (DCfg 2 12 102 []),
    (fun i => match i with 2 => Remap 11 | _ => Load end).
  repeat split; try discriminate. do 3 eexists. split; [vm_compute; reflexivity|]. repeat split.
Qed.

(** A function block or signal that has the local id of a replaced device is renamed in
    the ids of signals as well. *)
Theorem c51_other_segment_refuted :
  exists M p s, NoDup (map fst M) /\ (forall i, In i p -> ~ In i (map fst M)) /\ remap_path M (p ++ [s]) <> p ++ [s].
Proof.
  exists [(5, 6)], [0; 1], 5. split; [repeat constructor; easy|]. split; [|discriminate].
  cbn [In map fst]. intros i. lia.
Qed.

Print Assumptions c51_mode_as_set_partial.
Print Assumptions c51_mode_not_set.
Print Assumptions c51_shared_mode_refuted.
Print Assumptions c51_modes_partial.
Print Assumptions c51_paths_partial.
Print Assumptions c51_swap_refuted.
Print Assumptions c51_unreachable_loses_refuted.
Print Assumptions c51_new_id_unknown_refuted.
Print Assumptions c51_two_on_one_refuted.
Print Assumptions c51_other_segment_refuted.
