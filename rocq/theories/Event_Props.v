(** C32: events call each subscribed, unmuted handler exactly once in order. *)
From Verif Require Import Base Event_Model Event_Spec Event_Proofs.

(** A completed trigger calls the audience in order - then the handlers added
    meanwhile -, if the handlers change nothing but by adding handlers and
    triggering the event again. *)
Theorem c32_trigger_partial : forall h body, no_collisions h -> is_frozen h = false -> is_muted h = false ->
  forallb gentle body = true ->
  (forall p q, body = p ++ q -> q <> [] -> in_progress h p) ->
  let os := snd (run (after h) (Trigger :: body)) in
  In (Finished (level_of h) true) os ->
  calls (level_of h) os = audience h ++ additions body.
Proof.
  intros h body NC F M G P os HF. destruct (after_ok h NC) as (A & B & C & _). rewrite M in B. rewrite F in C.
  pose proof (run_trigger body (after h) B G P) as R. pose proof (run_handlers (Trigger :: body) (after h) G) as V.
  unfold os, level_of in *. destruct (run (after h) (Trigger :: body)) as [e' os']. cbn [fst snd] in *. destruct R as [R _].
  rewrite (R HF), heard_view, V, C, A. cbn [additions]. unfold audience. rewrite M, filter_app, map_app. f_equal.
  clear. induction (additions body) as [|x l IH]; auto. cbn [map filter snd negb fst]. now rewrite IH.
Qed.

(** ... in particular exactly the audience when they add none. *)
Theorem c32_trigger_unchanged_partial : forall h body, no_collisions h -> is_muted h = false ->
  forallb unchanging body = true ->
  (forall p q, body = p ++ q -> q <> [] -> in_progress h p) ->
  let os := snd (run (after h) (Trigger :: body)) in
  In (Finished (level_of h) true) os ->
  calls (level_of h) os = audience h.
Proof.
  intros h body NC M G P os HF. destruct (after_ok h NC) as (A & B & C & _). rewrite M in B.
  assert (G' : forallb gentle body = true).
  { revert G. clear. induction body as [|o l IH]; auto. cbn [forallb]. intros H. apply andb_true_iff in H. destruct H as [H1 H2]. rewrite IH by auto. destruct o; auto. }
  assert (AD : additions body = []).
  { revert G. clear. induction body as [|o l IH]; auto. cbn [forallb]. intros H. apply andb_true_iff in H. destruct H as [H1 H2]. destruct o; try discriminate; cbn [additions]; auto. }
  pose proof (run_trigger body (after h) B G' P) as R. pose proof (run_handlers (Trigger :: body) (after h) G') as V.
  unfold os, level_of in *. destruct (run (after h) (Trigger :: body)) as [e' os']. cbn [fst snd] in *. destruct R as [R _].
  rewrite (R HF), heard_view, V, A. cbn [additions]. rewrite AD. cbn [map]. unfold audience. rewrite M. destruct (frozen (after h)); now rewrite app_nil_r.
Qed.

(** A trigger in progress, or ended by a failing handler, has called an initial
    part of them, in order. *)
Theorem c32_prefix_partial : forall h body, no_collisions h -> is_frozen h = false -> is_muted h = false ->
  forallb gentle body = true ->
  (forall p q, body = p ++ q -> q <> [] -> in_progress h p) ->
  exists rest, calls (level_of h) (snd (run (after h) (Trigger :: body))) ++ rest = audience h ++ additions body.
Proof.
  intros h body NC F M G P. destruct (after_ok h NC) as (A & B & C & _). rewrite M in B. rewrite F in C.
  pose proof (run_trigger body (after h) B G P) as R. pose proof (run_handlers (Trigger :: body) (after h) G) as V.
  unfold level_of in *. destruct (run (after h) (Trigger :: body)) as [e' os']. cbn [fst snd] in *. destruct R as [_ [rest R]].
  exists rest. rewrite R, heard_view, V, C, A. cbn [additions]. unfold audience. rewrite M, filter_app, map_app. f_equal.
  clear. induction (additions body) as [|x l IH]; auto. cbn [map filter snd negb fst]. now rewrite IH.
Qed.

(** A muted event calls nobody. *)
Theorem c32_muted_calls_nobody : forall h, no_collisions h -> is_muted h = true ->
  run (after h) [Trigger] = (after h, [Accepted]).
Proof. intros h NC M. destruct (after_ok h NC) as (_ & B & _). rewrite M in B. cbn [run step]. now rewrite B. Qed.

(** The subscriber list is what was added and not removed; a frozen event
    refuses changes. *)
Theorem c32_subscribers : forall h, no_collisions h ->
  map (fun a => (hid (hd a), hmuted a)) (handlers (after h)) = subscribed h.
Proof. intros h NC. now destruct (after_ok h NC) as (A & _). Qed.

Theorem c32_frozen : forall h x, no_collisions h -> is_frozen h = true ->
  step (after h) (Add x) = (after h, [FrozenError]) /\ step (after h) (Remove x) = (after h, [FrozenError])
  /\ step (after h) Clear = (after h, [FrozenError]).
Proof. intros h x NC F. destruct (after_ok h NC) as (_ & _ & C & _). rewrite F in C. cbn [step]. rewrite C. auto. Qed.

(** ** Where the property fails *)
Definition H (n : Z) : handler := {| hid := n; hhash := n |}.
Definition three : list op := [Add (H 3); Add (H 2); Add (H 1)].

(** A handler that removes itself makes the next handler be skipped. *)
Theorem c32_removal_skips_refuted : exists h body, no_collisions (body ++ h) /\ is_muted h = false
  /\ (forall p q, body = p ++ q -> q <> [] -> in_progress h p)
  /\ In (Finished 1 true) (snd (run (after h) (Trigger :: body)))
  /\ audience h = [1; 2; 3]%Z /\ calls 1 (snd (run (after h) (Trigger :: body))) = [1; 3]%Z
  /\ subscribed (rev body ++ h) = [(2, false); (3, false)]%Z.
Proof.
  exists three, [Remove (H 1); Return true; Return true].
  split. { intros x y X Y. cbn in X, Y. repeat (destruct X as [<-|X]; [repeat (destruct Y as [<-|Y]; [reflexivity|]); destruct Y|]). destruct X. }
  split; [reflexivity|]. split.
  - intros [|a [|b [|c [|d p]]]] q E Q; cbn in E; inversion E; subst; unfold in_progress; cbn; try lia; congruence.
  - repeat split. cbn. auto.
Qed.

(** A handler added by a handler is called by the ongoing trigger. *)
Theorem c32_added_is_called_refuted : exists h body x, audience h = [1]%Z /\ In (Add x) body
  /\ In (Finished 1 true) (snd (run (after h) (Trigger :: body)))
  /\ calls 1 (snd (run (after h) (Trigger :: body))) = [1; hid x]%Z.
Proof. exists [Add (H 1)], [Add (H 2); Return true; Return true], (H 2). repeat split; cbn; auto. Qed.

(** ... so a handler that adds a handler each time it is called keeps the
    trigger going forever. *)
Fixpoint again (n : nat) : list op := match n with O => [] | S k => again k ++ [Add (H 1); Return true] end.
Theorem c32_endless_refuted : forall n,
  let (e, os) := run (after [Add (H 1)]) (Trigger :: again n) in
  length (calls 1 os) = S n /\ ~ In (Finished 1 true) os /\ length (stack e) = 1.
Proof.
  assert (RA : forall l l' e, run e (l ++ l') = let (e1, o1) := run e l in let (e2, o2) := run e1 l' in (e2, o1 ++ o2)).
  { induction l as [|o l IH]; intros l' e; cbn [app run]; [now destruct (run e l')|]. destruct (step e o) as [e1 o1]. rewrite IH.
    destruct (run e1 l) as [e2 o2]. destruct (run e2 l') as [e3 o3]. now rewrite app_assoc. }
  assert (INV : forall n, let (e, os) := run (after [Add (H 1)]) (Trigger :: again n) in
     length (calls 1 os) = S n /\ ~ In (Finished 1 true) os
     /\ exists k, handlers e = repeat {| hd := H 1; hmuted := false |} (S k) /\ stack e = [k] /\ frozen e = false).
  { induction n as [|n IH].
    - cbn. split; auto. split; [intuition discriminate|]. exists 0. auto.
    - change (Trigger :: again (S n)) with ((Trigger :: again n) ++ [Add (H 1); Return true]). rewrite RA.
      destruct (run (after [Add (H 1)]) (Trigger :: again n)) as [e os]. destruct IH as (L & NF & k & HS & ST & FR).
      cbn [run step]. rewrite FR. cbn [set_handlers stack]. rewrite ST.
      unfold advance. cbn [set_stack handlers set_handlers stack length]. rewrite HS.
      assert (Q : skipn (S k) (repeat {| hd := H 1; hmuted := false |} (S k) ++ [{| hd := H 1; hmuted := false |}]) = [{| hd := H 1; hmuted := false |}]).
      { rewrite skipn_app, repeat_length, Nat.sub_diag, skipn_all2 by (rewrite repeat_length; lia). reflexivity. }
      rewrite Q. cbn [next_from hmuted app]. split; [|split].
      + rewrite calls_app, app_length, L. cbn. lia.
      + intros K. apply in_app_or in K. destruct K as [K|K]; [tauto|]. cbn in K. intuition discriminate.
      + exists (S k). cbn [set_stack set_handlers handlers stack frozen]. rewrite FR. split; auto.
        change [{| hd := H 1; hmuted := false |}] with (repeat {| hd := H 1; hmuted := false |} 1). rewrite <- repeat_app. f_equal. lia. }
  intros n. specialize (INV n). destruct (run (after [Add (H 1)]) (Trigger :: again n)) as [e os]. destruct INV as (A & B & k & _ & C & _).
  split; auto. split; auto. now rewrite C.
Qed.

(** A failing handler keeps the later ones from being called. *)
Theorem c32_failing_handler_refuted : exists h body, audience h = [1; 2; 3]%Z
  /\ run (after h) (Trigger :: body) = (after h, [Called 1 (H 1); Finished 1 false]).
Proof. exists three, [Return false]. repeat split. Qed.

(** Handlers are removed by hash code: with a collision the wrong one goes. *)
Theorem c32_collision_refuted : exists h x y, hid x <> hid y /\ hhash x = hhash y
  /\ subscribed (Remove y :: h) = [(hid x, false)] /\ map (fun a => hid (hd a)) (handlers (after (Remove y :: h))) = [hid y].
Proof.
  exists [Add {| hid := 2; hhash := 7 |}; Add {| hid := 1; hhash := 7 |}], {| hid := 1; hhash := 7 |}, {| hid := 2; hhash := 7 |}.
  repeat split. discriminate.
Qed.

(** ** A concrete case: handler 2 is muted, handler 1 triggers the event again,
    handler 3 adds handler 4. *)
Definition talk : list op := [Trigger; Return true; Return true; Return true; Add (H 4); Return true; Return true].
Example c32_ex : let h := MuteOne (H 2) :: three in
  no_collisions h /\ is_muted h = false /\ is_frozen h = false /\ forallb gentle talk = true
  /\ (forall p q, talk = p ++ q -> q <> [] -> in_progress h p)
  /\ In (Finished (level_of h) true) (snd (run (after h) (Trigger :: talk)))
  /\ calls 1 (snd (run (after h) (Trigger :: talk))) = [1; 3; 4]%Z
  /\ calls 2 (snd (run (after h) (Trigger :: talk))) = [1; 3]%Z.
Proof.
  split. { intros x y X Y. cbn in X, Y. repeat (destruct X as [<-|X]; [repeat (destruct Y as [<-|Y]; [reflexivity|]); destruct Y|]). destruct X. }
  split; [reflexivity|]. split; [reflexivity|]. split; [reflexivity|]. split.
  - intros p q E Q. assert (PF : p = firstn (length p) talk) by (rewrite E, firstn_app, Nat.sub_diag, firstn_all; cbn [firstn]; now rewrite app_nil_r).
    assert (L : length p < 7).
    { assert (length talk = 7) by reflexivity. rewrite E, app_length in H0. destruct q; [congruence|]. cbn [length] in H0. lia. }
    rewrite PF. clear - L. generalize dependent (length p). intros n L. do 7 (destruct n as [|n]; [unfold in_progress; cbn; lia|]). lia.
  - repeat split. cbn. auto 20.
Qed.

Print Assumptions c32_trigger_partial.
Print Assumptions c32_trigger_unchanged_partial.
Print Assumptions c32_prefix_partial.
Print Assumptions c32_muted_calls_nobody.
Print Assumptions c32_subscribers.
Print Assumptions c32_frozen.
Print Assumptions c32_removal_skips_refuted.
Print Assumptions c32_added_is_called_refuted.
Print Assumptions c32_endless_refuted.
Print Assumptions c32_failing_handler_refuted.
Print Assumptions c32_collision_refuted.
