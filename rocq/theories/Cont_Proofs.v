(** Proofs about lists, dictionaries and values. *)
From Verif Require Import Base Cont_Model Cont_Spec.
From Coq Require Import SpecFloat.
Local Open Scope Z_scope.

(** * Vectors *)

Lemma nth_vinsert : forall A (i : nat) (x : A) xs, (i <= length xs)%nat -> forall j,
  nth_error (vinsert i x xs) j =
    if (j <? i)%nat then nth_error xs j else if (j =? i)%nat then Some x else nth_error xs (j - 1).
Proof.
  induction i as [|i IH]; intros x xs L j.
  - destruct xs as [|y r]; destruct j as [|j]; cbn [vinsert nth_error]; try reflexivity.
    + cbn [Nat.ltb Nat.leb Nat.eqb]. replace (S j - 1)%nat with j by lia. now destruct j.
    + cbn [Nat.ltb Nat.leb Nat.eqb]. now replace (S j - 1)%nat with j by lia.
  - destruct xs as [|y r]; cbn [length] in L; [lia|].
    destruct j as [|j]; cbn [vinsert nth_error]; [reflexivity|].
    rewrite IH by lia.
    destruct (Nat.ltb_spec j i), (Nat.ltb_spec (S j) (S i)); try lia; [reflexivity|].
    destruct (Nat.eqb_spec j i), (Nat.eqb_spec (S j) (S i)); try lia; [reflexivity|].
    replace (S j - 1)%nat with (S (j - 1)) by lia. reflexivity.
Qed.

Lemma nth_verase : forall A (i : nat) (xs : list A) j,
  nth_error (verase i xs) j = if (j <? i)%nat then nth_error xs j else nth_error xs (j + 1).
Proof.
  induction i as [|i IH]; intros xs j; destruct xs as [|y r]; cbn [verase].
  - destruct (j <? 0)%nat; now destruct j.
  - cbn [Nat.ltb Nat.leb]. replace (j + 1)%nat with (S j) by lia. reflexivity.
  - destruct (j <? S i)%nat; now destruct j.
  - destruct j as [|j]; cbn [nth_error]; [reflexivity|]. rewrite IH.
    destruct (Nat.ltb_spec j i), (Nat.ltb_spec (S j) (S i)); try lia; reflexivity.
Qed.

Lemma nth_vset : forall A (i : nat) (x : A) xs, (i < length xs)%nat -> forall j,
  nth_error (vset i x xs) j = if (j =? i)%nat then Some x else nth_error xs j.
Proof.
  induction i as [|i IH]; intros x xs L j; destruct xs as [|y r]; cbn [length] in L; try lia; cbn [vset].
  - now destruct j.
  - destruct j as [|j]; cbn [nth_error]; [reflexivity|]. rewrite IH by lia.
    destruct (Nat.eqb_spec j i), (Nat.eqb_spec (S j) (S i)); try lia; reflexivity.
Qed.

Lemma nth_snoc : forall A (x : A) xs j,
  nth_error (xs ++ [x]) j =
    if (j <? length xs)%nat then nth_error xs j else if (j =? length xs)%nat then Some x else nth_error xs (j - 1).
Proof.
  intros A x xs j. destruct (Nat.ltb_spec j (length xs)).
  - now apply nth_error_app1.
  - rewrite nth_error_app2 by lia. destruct (Nat.eqb_spec j (length xs)) as [->|N].
    + now rewrite Nat.sub_diag.
    + destruct (j - length xs)%nat as [|q] eqn:E; [lia|].
      cbn [nth_error]. symmetry. replace (nth_error [] q) with (@None A) by now destruct q.
      apply nth_error_None. lia.
Qed.

(** * Lists *)

Lemma step_unfrozen : forall l o, lfrozen l = false ->
  seq_step o (litems l) (litems (fst (fst (lstep l o)))) (snd (fst (lstep l o))).
Proof.
  intros l o F. destruct o; cbn [lstep seq_step].
  - unfold l_get, kept. destruct (nth_error (litems l) i); now cbn [fst snd litems].
  - now unfold kept.
  - unfold l_set, kept. rewrite F. destruct (nth_error (litems l) i) eqn:E.
    + assert (i < length (litems l))%nat by (apply nth_error_Some; congruence).
      destruct (Nat.ltb_spec i (length (litems l))); [|lia]. cbn [fst snd lput litems].
      split; [reflexivity|]. intros j. now apply nth_vset.
    + apply nth_error_None in E. destruct (Nat.ltb_spec i (length (litems l))); [lia|]. now cbn [fst snd].
  - unfold l_push_back. rewrite F. cbn [fst snd lput litems]. split; [reflexivity|]. intros j. apply nth_snoc.
  - unfold l_push_front. rewrite F. cbn [fst snd lput litems]. split; [reflexivity|]. intros j.
    apply nth_vinsert. lia.
  - unfold l_move_back. rewrite F. cbn [fst snd lput litems]. split; [reflexivity|]. intros j. apply nth_snoc.
  - unfold l_move_front. rewrite F. cbn [fst snd lput litems]. split; [reflexivity|]. intros j.
    apply nth_vinsert. lia.
  - unfold l_pop_back, kept. rewrite F. destruct (nth_error (litems l) (length (litems l) - 1)).
    + cbn [fst snd lput litems]. split; [reflexivity|]. intros j. apply nth_verase.
    + now cbn [fst snd].
  - unfold l_pop_front, kept. rewrite F. destruct (litems l) as [|x r] eqn:E.
    + cbn [fst snd nth_error]. now rewrite E.
    + cbn [fst snd lput litems nth_error]. split; [reflexivity|]. intros j. apply nth_verase.
  - unfold l_insert, kept. rewrite F. destruct (Nat.leb_spec (length (litems l)) i), (Nat.ltb_spec i (length (litems l))); try lia.
    + now cbn [fst snd].
    + cbn [fst snd lput litems]. split; [reflexivity|]. intros j. apply nth_vinsert. lia.
  - unfold l_remove, kept. rewrite F. destruct (nth_error (litems l) i).
    + cbn [fst snd lput litems]. split; [reflexivity|]. intros j. apply nth_verase.
    + now cbn [fst snd].
  - unfold l_delete, kept. rewrite F. destruct (nth_error (litems l) i) eqn:E.
    + assert (i < length (litems l))%nat by (apply nth_error_Some; congruence).
      destruct (Nat.ltb_spec i (length (litems l))); [|lia].
      cbn [fst snd lput litems]. split; [reflexivity|]. intros j. apply nth_verase.
    + apply nth_error_None in E. destruct (Nat.ltb_spec i (length (litems l))); [lia|]. now cbn [fst snd].
  - unfold l_clear. rewrite F. now cbn [fst snd lput litems].
  - unfold l_freeze, kept. rewrite F. now cbn [fst snd litems].
  - unfold kept. now rewrite F.
Qed.

Lemma step_frozen : forall l o, lfrozen l = true ->
  frozen_step o (litems l) (litems (fst (fst (lstep l o)))) (snd (fst (lstep l o))).
Proof.
  intros l o F.
  destruct o; cbn [lstep frozen_step seq_step];
    unfold kept, l_get, l_set, l_push_back, l_push_front, l_move_back, l_move_front, l_pop_back, l_pop_front,
      l_insert, l_remove, l_delete, l_clear, l_freeze; rewrite ?F; try (now cbn [fst snd]).
  destruct (nth_error (litems l) i); now cbn [fst snd litems].
Qed.

Lemma step_flag : forall l o,
  lfrozen (fst (fst (lstep l o))) = match o with LFreeze => true | _ => lfrozen l end.
Proof.
  intros l o.
  destruct o; cbn [lstep];
    unfold l_get, l_set, l_push_back, l_push_front, l_move_back, l_move_front, l_pop_back, l_pop_front,
      l_insert, l_remove, l_delete, l_clear, l_freeze;
    repeat match goal with
           | |- context [match nth_error ?a ?b with _ => _ end] => destruct (nth_error a b)
           | |- context [match litems ?a with _ => _ end] => destruct (litems a)
           | |- context [if (?a <=? ?b)%nat then _ else _] => destruct (a <=? b)%nat
           end;
    destruct (lfrozen l) eqn:E; cbn [fst snd lput lfrozen]; congruence.
Qed.

(** * References *)

Lemma balance_app : forall a x y, balance a (x ++ y) = balance a x + balance a y.
Proof.
  intros a x y. induction x as [|e x IH]; [reflexivity|]. cbn [app balance].
  destruct e; rewrite IH; lia.
Qed.
Lemma balance_inc : forall a x, balance a (inc x) = once a x.
Proof. intros a [x|]; [|reflexivity]. cbn [inc balance once]. lia. Qed.
Lemma balance_dec : forall a x, balance a (dec x) = - once a x.
Proof. intros a [x|]; [|reflexivity]. cbn [dec balance once]. destruct (addr x =? a); lia. Qed.
Lemma occurs_app : forall a x y, occurs a (x ++ y) = occurs a x + occurs a y.
Proof. intros a x y. induction x as [|e x IH]; [reflexivity|]. cbn [app occurs]. rewrite IH. lia. Qed.
Lemma occurs_one : forall a x, occurs a [x] = once a x.
Proof. intros. cbn [occurs]. lia. Qed.
Lemma occurs_vset : forall a i x xs old, nth_error xs i = Some old ->
  occurs a (vset i x xs) = occurs a xs - once a old + once a x.
Proof.
  induction i as [|i IH]; intros x xs old E; destruct xs as [|y r]; try discriminate; cbn [nth_error] in E; cbn [vset occurs].
  - injection E as <-. lia.
  - rewrite (IH x r old E). lia.
Qed.
Lemma occurs_verase : forall a i xs old, nth_error xs i = Some old ->
  occurs a (verase i xs) = occurs a xs - once a old.
Proof.
  induction i as [|i IH]; intros xs old E; destruct xs as [|y r]; try discriminate; cbn [nth_error] in E; cbn [verase occurs].
  - injection E as <-. lia.
  - rewrite (IH r old E). lia.
Qed.
Lemma occurs_vinsert : forall a i x xs, occurs a (vinsert i x xs) = occurs a xs + once a x.
Proof.
  induction i as [|i IH]; intros x xs; destruct xs as [|y r]; cbn [vinsert occurs]; try lia.
  rewrite IH. lia.
Qed.
Lemma balance_release : forall a xs, balance a (release_items xs) = - occurs a xs.
Proof.
  intros a xs. unfold release_items. induction xs as [|x xs IH]; [reflexivity|].
  cbn [flat_map occurs]. rewrite balance_app, balance_dec, IH. lia.
Qed.

Lemma step_refs : forall a l o,
  let x := lstep l o in
  occurs a (litems (fst (fst x))) =
    occurs a (litems l) + balance a (snd x) + occurs a (handed_in o (snd (fst x))) - occurs a (handed_out (snd (fst x))).
Proof.
  intros a l o. cbv zeta.
  destruct o; cbn [lstep].
  - unfold l_get. destruct (nth_error (litems l) i); cbn [fst snd handed_in handed_out occurs balance]; [|lia].
    rewrite balance_inc. lia.
  - cbn [fst snd handed_in handed_out occurs balance]. lia.
  - unfold l_set. destruct (lfrozen l); [cbn [fst snd handed_in handed_out occurs balance]; lia|].
    destruct (nth_error (litems l) i) eqn:E; cbn [fst snd lput litems handed_in handed_out occurs balance]; [|lia].
    rewrite (occurs_vset _ _ _ _ _ E), balance_app, balance_inc, balance_dec. lia.
  - unfold l_push_back. destruct (lfrozen l); cbn [fst snd lput litems handed_in handed_out occurs balance]; [lia|].
    rewrite occurs_app, occurs_one, balance_inc. lia.
  - unfold l_push_front. destruct (lfrozen l); cbn [fst snd lput litems handed_in handed_out occurs balance]; [lia|].
    rewrite occurs_vinsert, balance_inc. lia.
  - unfold l_move_back. destruct (lfrozen l); cbn [fst snd lput litems handed_in handed_out occurs balance]; [lia|].
    rewrite occurs_app, occurs_one. lia.
  - unfold l_move_front. destruct (lfrozen l); cbn [fst snd lput litems handed_in handed_out occurs balance]; [lia|].
    rewrite occurs_vinsert. lia.
  - unfold l_pop_back. destruct (lfrozen l); [cbn [fst snd handed_in handed_out occurs balance]; lia|].
    destruct (nth_error (litems l) (length (litems l) - 1)) eqn:E; cbn [fst snd lput litems handed_in handed_out occurs balance]; [|lia].
    rewrite (occurs_verase _ _ _ _ E). lia.
  - unfold l_pop_front. destruct (lfrozen l); [cbn [fst snd handed_in handed_out occurs balance]; lia|].
    destruct (litems l) as [|x r] eqn:E; cbn [fst snd lput litems handed_in handed_out occurs balance]; [rewrite E; cbn [occurs]; lia|].
    rewrite (occurs_verase a 0 (x :: r) x eq_refl). cbn [occurs]. lia.
  - unfold l_insert. destruct (lfrozen l); [cbn [fst snd handed_in handed_out occurs balance]; lia|].
    destruct (length (litems l) <=? i)%nat; cbn [fst snd lput litems handed_in handed_out occurs balance]; [lia|].
    rewrite occurs_vinsert, balance_inc. lia.
  - unfold l_remove. destruct (lfrozen l); [cbn [fst snd handed_in handed_out occurs balance]; lia|].
    destruct (nth_error (litems l) i) eqn:E; cbn [fst snd lput litems handed_in handed_out occurs balance]; [|lia].
    rewrite (occurs_verase _ _ _ _ E). lia.
  - unfold l_delete. destruct (lfrozen l); [cbn [fst snd handed_in handed_out occurs balance]; lia|].
    destruct (nth_error (litems l) i) eqn:E; cbn [fst snd lput litems handed_in handed_out occurs balance]; [|lia].
    rewrite (occurs_verase _ _ _ _ E), balance_dec. lia.
  - unfold l_clear. destruct (lfrozen l); cbn [fst snd lput litems handed_in handed_out occurs balance]; [lia|].
    rewrite balance_release. lia.
  - unfold l_freeze. destruct (lfrozen l); cbn [fst snd litems handed_in handed_out occurs balance]; lia.
  - cbn [fst snd handed_in handed_out occurs balance]. lia.
Qed.

Lemma run_refs : forall a os l,
  let x := lrun l os in
  occurs a (litems (fst (fst x))) =
    occurs a (litems l) + balance a (snd x) + occurs a (l_in os (snd (fst x))) - occurs a (all_out (snd (fst x))).
Proof.
  intros a os. cbv zeta. induction os as [|o os IH]; intros l.
  - cbn [lrun fst snd l_in all_out flat_map occurs balance]. lia.
  - cbn [lrun]. cbv zeta. cbn [fst snd l_in]. unfold all_out. cbn [flat_map].
    fold (all_out (snd (fst (lrun (fst (fst (lstep l o))) os)))).
    rewrite IH, !occurs_app, balance_app. generalize (step_refs a l o). cbv zeta. lia.
Qed.

Lemma held_app : forall x y, held (x ++ y) = held x ++ held y.
Proof. intros. unfold held. apply flat_map_app. Qed.
Lemma held_vset : forall a i k v xs old, nth_error xs i = Some (k, old) ->
  occurs a (held (vset i (k, v) xs)) = occurs a (held xs) - once a old + once a v.
Proof.
  induction i as [|i IH]; intros k v xs old E; destruct xs as [|y r]; try discriminate; cbn [nth_error] in E; cbn [vset].
  - injection E as ->. unfold held. cbn [flat_map fst snd app occurs]. lia.
  - change (held (y :: vset i (k, v) r)) with ([Some (fst y); snd y] ++ held (vset i (k, v) r)).
    change (held (y :: r)) with ([Some (fst y); snd y] ++ held r).
    rewrite !occurs_app, (IH k v r old E). lia.
Qed.
Lemma held_verase : forall a i k xs old, nth_error xs i = Some (k, old) ->
  occurs a (held (verase i xs)) = occurs a (held xs) - once a (Some k) - once a old.
Proof.
  induction i as [|i IH]; intros k xs old E; destruct xs as [|y r]; try discriminate; cbn [nth_error] in E; cbn [verase].
  - injection E as ->. unfold held. cbn [flat_map fst snd app occurs]. lia.
  - change (held (y :: verase i r)) with ([Some (fst y); snd y] ++ held (verase i r)).
    change (held (y :: r)) with ([Some (fst y); snd y] ++ held r).
    rewrite !occurs_app, (IH k r old E). lia.
Qed.
Lemma balance_entries : forall a es, balance a (release_entries es) = - occurs a (held es).
Proof.
  intros a es. unfold release_entries. induction es as [|e es IH]; [reflexivity|].
  cbn [flat_map]. change (held (e :: es)) with ([Some (fst e); snd e] ++ held es).
  rewrite !balance_app, !balance_dec, occurs_app, IH. cbn [occurs]. lia.
Qed.

Lemma dstep_refs : forall a d o,
  let x := dstep d o in
  occurs a (held (dents (fst (fst x)))) =
    occurs a (held (dents d)) + balance a (snd x) - occurs a (handed_out (snd (fst x))).
Proof.
  intros a d o. cbv zeta.
  destruct o; cbn [dstep]; try (cbn [fst snd handed_out occurs balance]; lia).
  - unfold d_get. destruct k as [k|]; [|cbn [fst snd handed_out occurs balance]; lia].
    destruct (find equals (dents d) (Some k)) as [i| |]; try (cbn [fst snd handed_out occurs balance]; lia).
    destruct (nth_error (dents d) i) as [[k' v]|]; cbn [fst snd handed_out occurs balance]; [|lia].
    rewrite balance_inc. lia.
  - unfold d_set. destruct (dfrozen d); [cbn [fst snd handed_out occurs balance]; lia|].
    destruct k as [k|]; [|cbn [fst snd handed_out occurs balance]; lia].
    destruct (find equals (dents d) (Some k)) as [i| |]; try (cbn [fst snd handed_out occurs balance]; lia).
    + destruct (nth_error (dents d) i) as [[k' old]|] eqn:E; cbn [fst snd dput dents handed_out occurs balance]; [|lia].
      rewrite (held_vset _ _ _ _ _ _ E), balance_app, balance_inc, balance_dec. lia.
    + cbn [fst snd dput dents handed_out occurs]. rewrite held_app, occurs_app, balance_app, !balance_inc.
      unfold held at 2. cbn [flat_map fst snd app occurs]. lia.
  - unfold d_take. destruct (dfrozen d); [cbn [fst snd handed_out occurs balance]; lia|].
    destruct k as [k|]; [|cbn [fst snd handed_out occurs balance]; lia].
    destruct (find equals (dents d) (Some k)) as [i| |]; try (cbn [fst snd handed_out occurs balance]; lia).
    destruct (nth_error (dents d) i) as [[k' v]|] eqn:E; cbn [fst snd dput dents handed_out]; [|cbn [occurs balance]; lia].
    rewrite (held_verase _ _ _ _ _ E), balance_app, balance_dec. cbn [occurs balance]. lia.
  - unfold d_take. destruct (dfrozen d); [cbn [fst snd handed_out occurs balance]; lia|].
    destruct k as [k|]; [|cbn [fst snd handed_out occurs balance]; lia].
    destruct (find equals (dents d) (Some k)) as [i| |]; try (cbn [fst snd handed_out occurs balance]; lia).
    destruct (nth_error (dents d) i) as [[k' v]|] eqn:E; cbn [fst snd dput dents handed_out]; [|cbn [occurs balance]; lia].
    rewrite (held_verase _ _ _ _ _ E), balance_app, !balance_dec. cbn [occurs]. lia.
  - unfold d_clear. destruct (dfrozen d); cbn [fst snd dput dents handed_out]; [cbn [occurs balance]; lia|].
    rewrite balance_entries. unfold held at 1. cbn [flat_map occurs]. lia.
  - unfold d_has. cbn [fst snd]. destruct (find equals (dents d) k); cbn [handed_out occurs balance]; lia.
  - unfold d_freeze. destruct (dfrozen d); cbn [fst snd dents handed_out occurs balance]; lia.
Qed.

Lemma drun_refs : forall a os d,
  let x := drun d os in
  occurs a (held (dents (fst (fst x)))) =
    occurs a (held (dents d)) + balance a (snd x) - occurs a (all_out (snd (fst x))).
Proof.
  intros a os. cbv zeta. induction os as [|o os IH]; intros d.
  - cbn [drun fst snd all_out flat_map occurs balance]. lia.
  - cbn [drun]. cbv zeta. cbn [fst snd]. unfold all_out. cbn [flat_map].
    fold (all_out (snd (fst (drun (fst (fst (dstep d o))) os)))).
    rewrite IH, !occurs_app, balance_app. generalize (dstep_refs a d o). cbv zeta. lia.
Qed.
