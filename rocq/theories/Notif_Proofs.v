From Coq Require Import List Bool Arith Lia.
From Verif Require Import Notif_Model Notif_Spec.
Import ListNotations.

Lemma nth_set_same : forall A (l : list A) n a b, nth_error l n = Some b -> nth_error (set_nth n a l) n = Some a.
Proof. induction l as [|x l IH]; intros [|n] a b H; try discriminate; [reflexivity|]. cbn in *. eapply IH. exact H. Qed.

Lemma nth_set_other : forall A (l : list A) n m a, n <> m -> nth_error (set_nth n a l) m = nth_error l m.
Proof. induction l as [|x l IH]; intros [|n] [|m] a H; try reflexivity; [congruence|]. cbn. apply IH. congruence. Qed.

Lemma run_app : forall h1 h2 st, run st (h1 ++ h2) = match run st h1 with Some s => run s h2 | None => None end.
Proof. induction h1 as [|l h1 IH]; intros h2 st; [reflexivity|]. cbn [run app]. destruct (step st l); [apply IH|reflexivity]. Qed.

Lemma packs_spec : forall v e, packs v e = true <-> Forwarded v e.
Proof.
  intros v e. unfold packs, Forwarded. destruct (ev_own e), (ev_params e); cbn [negb andb];
    try (split; [discriminate|intros (A & B & _); congruence]).
  destruct (ev_kind e) as [|[]| |[]]; cbn [negb andb].
  - split; [intros _; repeat split; try discriminate|reflexivity].
  - split; [intros _; repeat split; try discriminate|reflexivity].
  - split; [discriminate|intros (_ & _ & C & _); congruence].
  - rewrite negb_true_iff, Nat.ltb_ge. split; [intro H; repeat split; try discriminate; auto|intros (_ & _ & _ & C & _); auto].
  - rewrite andb_false_r. cbn [negb andb]. rewrite negb_true_iff, Nat.ltb_ge.
    split; [intro H; repeat split; try discriminate; auto|intros (_ & _ & _ & _ & _ & C); auto].
  - rewrite andb_true_r. rewrite andb_true_iff, !negb_true_iff, !Nat.ltb_ge.
    split; [intros [H _]; repeat split; try discriminate; auto|intros (_ & _ & _ & _ & C & _); specialize (C eq_refl); lia].
Qed.

Lemma version_snoc : forall h v l, version_after v (h ++ [l]) = match l with Upgrade w => w | _ => version_after v h end.
Proof. induction h as [|x h IH]; intros v l; [destruct l; reflexivity|]. destruct x; cbn [version_after app]; apply IH. Qed.

Lemma step_version : forall st l st', step st l = Some st' -> s_version st' = match l with Upgrade w => w | _ => s_version st end.
Proof.
  intros st l st' E. destruct l as [t e|t|t r|t|w]; cbn [step] in E; [| | | |injection E as <-; reflexivity];
    (destruct (nth_error _ t) as [[p c]|]; [|discriminate]); cbn [t_pc t_calls] in E.
  - destruct p; try discriminate. destruct (packs _ _); injection E as <-; reflexivity.
  - destruct p; try discriminate.
    + injection E as <-; reflexivity.
    + destruct (_ || _); injection E as <-; reflexivity.
    + injection E as <-. unfold send_out. destruct (s_queue st); reflexivity.
    + injection E as <-. unfold send_out. destruct (s_queue st); reflexivity.
    + destruct c as [|[r b] c]; [discriminate|]. injection E as <-; reflexivity.
  - destruct p; try discriminate. destruct (_ <? _); injection E as <-; reflexivity.
  - destruct p; try discriminate. destruct c as [|[r []] c]; try discriminate; injection E as <-; reflexivity.
Qed.

Lemma run_version : forall h v n st, run (init v n) h = Some st -> s_version st = version_after v h.
Proof.
  induction h as [|l h IH] using rev_ind; intros v n st E.
  - injection E as <-. reflexivity.
  - rewrite run_app in E. destruct (run (init v n) h) as [s|] eqn:R; [|discriminate]. cbn [run] in E.
    destruct (step s l) as [s'|] eqn:S0; [|discriminate]. injection E as <-.
    rewrite (step_version _ _ _ S0), version_snoc. destruct l; try (apply (IH v n s R)). reflexivity.
Qed.

(** Threads and items after a step. *)
Definition all_sent (st : state) : list (nat * event) := sent st ++ s_queue st.

Lemma sent_item : forall st i, sent (with_item st i) = sent st ++ match i with Batch l => l | Reply _ _ => [] end.
Proof. intros st i. unfold sent. cbn [with_item s_wire]. rewrite flat_map_app. cbn [flat_map]. rewrite app_nil_r. reflexivity. Qed.

Lemma send_out_all : forall st, all_sent (send_out st) = all_sent st.
Proof.
  intro st. unfold send_out. destruct (s_queue st) as [|x q] eqn:Q; [reflexivity|].
  unfold all_sent. rewrite sent_item. cbn [with_item with_queue s_queue]. rewrite Q, app_nil_r. reflexivity.
Qed.

Lemma send_out_queue : forall st, s_queue (send_out st) = [].
Proof. intro st. unfold send_out. destruct (s_queue st) eqn:Q; [exact Q|reflexivity]. Qed.

Lemma send_out_threads : forall st, s_threads (send_out st) = s_threads st.
Proof. intro st. unfold send_out. destruct (s_queue st); reflexivity. Qed.

Lemma send_out_counter : forall st, s_counter (send_out st) = s_counter st.
Proof. intro st. unfold send_out. destruct (s_queue st); reflexivity. Qed.

(** The accumulated events, pushed or about to be, by thread. *)
Definition acc (st : state) (t : nat) : list event := by_thread t (all_sent st) ++ pending st t.

Lemma by_thread_app : forall t a b, by_thread t (a ++ b) = by_thread t a ++ by_thread t b.
Proof. intros. unfold by_thread. rewrite filter_app, map_app. reflexivity. Qed.

Lemma pending_other : forall st t u th, t <> u -> pending (with_thread st t th) u = pending st u.
Proof. intros st t u th H. unfold pending. cbn [with_thread s_threads]. rewrite nth_set_other by exact H. reflexivity. Qed.

Lemma pending_same : forall st t th th0, nth_error (s_threads st) t = Some th0 ->
  pending (with_thread st t th) t = match t_pc th with Raised e => [e] | _ => [] end.
Proof. intros st t th th0 H. unfold pending. cbn [with_thread s_threads]. rewrite (nth_set_same _ _ _ _ _ H). reflexivity. Qed.

Lemma step_acc : forall st l st' u, step st l = Some st' ->
  acc st' u = acc st u ++ match l with Raise t e => if Nat.eqb t u && packs (s_version st) e then [e] else [] | _ => [] end.
Proof.
  intros st l st' u E. unfold acc.
  destruct l as [t e|t|t r|t|w]; cbn [step] in E;
    [| | | |injection E as <-; rewrite app_nil_r; reflexivity];
    (destruct (nth_error (s_threads st) t) as [th|] eqn:N; [|discriminate]).
  - destruct (t_pc th) eqn:P; try discriminate. destruct (packs (s_version st) e) eqn:K; injection E as <-.
    + change (all_sent (with_thread st t (at_pc th (Raised e)))) with (all_sent st).
      destruct (Nat.eqb_spec t u) as [->|D]; cbn [andb].
      * rewrite (pending_same _ _ _ _ N). cbn [at_pc t_pc]. unfold pending. rewrite N, P, app_nil_r. reflexivity.
      * rewrite pending_other by exact D. rewrite app_nil_r. reflexivity.
    + rewrite andb_false_r, app_nil_r. reflexivity.
  - rewrite app_nil_r. destruct (t_pc th) as [|e| | | |] eqn:P; try discriminate.
    + injection E as <-. unfold all_sent. cbn [with_thread with_queue s_queue].
      change (sent (with_thread (with_queue st (s_queue st ++ [(t, e)])) t (at_pc th Pushed))) with (sent st).
      rewrite app_assoc, (by_thread_app u (sent st ++ s_queue st)). unfold by_thread at 2. cbn [filter fst].
      destruct (Nat.eqb_spec t u) as [->|D].
      * rewrite (pending_same (with_queue st (s_queue st ++ [(u, e)])) u _ th) by exact N. cbn [at_pc t_pc map snd].
        unfold pending. rewrite N, P, app_nil_r. reflexivity.
      * rewrite pending_other by exact D. cbn [map]. rewrite app_nil_r. reflexivity.
    + assert (H : exists x, st' = with_thread st t (at_pc th x) /\ match x with Raised _ => False | _ => True end).
      { destruct (_ || _); injection E as <-; eexists; split; try reflexivity; exact Logic.I. }
      destruct H as (x & -> & X). change (all_sent (with_thread st t (at_pc th x))) with (all_sent st). f_equal.
      destruct (Nat.eq_dec t u) as [->|D]; [|apply pending_other; exact D].
      rewrite (pending_same _ _ _ _ N). unfold pending. rewrite N, P. cbn [at_pc t_pc]. destruct x; try reflexivity. contradiction.
    + injection E as <-. change (all_sent (with_thread (send_out st) t (at_pc th Idle))) with (all_sent (send_out st)).
      rewrite send_out_all. f_equal. destruct (Nat.eq_dec t u) as [->|D].
      * rewrite (pending_same _ _ _ th) by (rewrite send_out_threads; exact N). unfold pending. rewrite N, P. reflexivity.
      * rewrite pending_other by exact D. unfold pending. rewrite send_out_threads. reflexivity.
    + injection E as <-. change (all_sent (with_thread (send_out st) t (at_pc th Replying))) with (all_sent (send_out st)).
      rewrite send_out_all. f_equal. destruct (Nat.eq_dec t u) as [->|D].
      * rewrite (pending_same _ _ _ th) by (rewrite send_out_threads; exact N). unfold pending. rewrite N, P. reflexivity.
      * rewrite pending_other by exact D. unfold pending. rewrite send_out_threads. reflexivity.
    + destruct (t_calls th) as [|[r b] cs]; [discriminate|]. injection E as <-. f_equal.
      * f_equal. unfold all_sent. rewrite sent_item, app_nil_r. reflexivity.
      * change (pending (with_item (with_thread st t {| t_pc := Idle; t_calls := cs |}) (Reply t r)) u)
          with (pending (with_thread st t {| t_pc := Idle; t_calls := cs |}) u).
        destruct (Nat.eq_dec t u) as [->|D]; [|apply pending_other; exact D].
        rewrite (pending_same _ _ _ _ N). unfold pending. rewrite N, P. reflexivity.
  - rewrite app_nil_r. destruct (t_pc th) eqn:P; try discriminate.
    assert (H : exists c, all_sent st' = all_sent st /\ pending st' u = pending (with_thread st t {| t_pc := Idle; t_calls := c |}) u).
    { destruct (_ <? _); injection E as <-; eexists; split; reflexivity. }
    destruct H as (c & -> & ->). f_equal. destruct (Nat.eq_dec t u) as [->|D]; [|apply pending_other; exact D].
    rewrite (pending_same _ _ _ _ N). unfold pending. rewrite N, P. reflexivity.
  - rewrite app_nil_r. destruct (t_pc th) eqn:P; try discriminate.
    assert (H : exists x, all_sent st' = all_sent st /\ pending st' u = pending (with_thread st t (at_pc th x)) u /\ match x with Raised _ => False | _ => True end).
    { destruct (t_calls th) as [|[r []] cs]; [discriminate| |]; injection E as <-; eexists; split; try reflexivity; split; try reflexivity; exact Logic.I. }
    destruct H as (x & -> & -> & X). f_equal. destruct (Nat.eq_dec t u) as [->|D]; [|apply pending_other; exact D].
    rewrite (pending_same _ _ _ _ N). unfold pending. rewrite N, P. cbn [at_pc t_pc]. destruct x; try reflexivity. contradiction.
Qed.

Lemma init_acc : forall v n t, acc (init v n) t = [].
Proof.
  intros v n t. unfold acc, all_sent, by_thread, sent, pending. cbn [init s_wire s_queue s_threads flat_map app filter map].
  destruct (nth_error _ t) as [th|] eqn:N; [|reflexivity]. apply nth_error_In in N. apply repeat_spec in N. subst. reflexivity.
Qed.

Lemma run_acc : forall h v n st t, run (init v n) h = Some st -> RaisedBy v h t (acc st t).
Proof.
  induction h as [|l h IH] using rev_ind; intros v n st t E.
  - injection E as <-. rewrite init_acc. constructor.
  - rewrite run_app in E. destruct (run (init v n) h) as [s|] eqn:R; [|discriminate]. cbn [run] in E.
    destruct (step s l) as [s'|] eqn:S0; [|discriminate]. injection E as <-.
    rewrite (step_acc _ _ _ t S0). specialize (IH v n s t R). pose proof (run_version _ _ _ _ R) as V.
    destruct l as [u e|u|u r|u|w]; try (rewrite app_nil_r; apply RB_other; [exact IH|discriminate]).
    destruct (Nat.eqb_spec u t) as [->|D]; cbn [andb].
    + destruct (packs (s_version s) e) eqn:K; rewrite V in K.
      * apply RB_yes; [exact IH|]. apply packs_spec. exact K.
      * rewrite app_nil_r. apply RB_no; [exact IH|]. intro F. apply packs_spec in F. congruence.
    + rewrite app_nil_r. apply RB_other; [exact IH|]. intros e' X. injection X as X _. congruence.
Qed.

Lemma raised_fun : forall v h t l, RaisedBy v h t l -> forall l', RaisedBy v h t l' -> l = l'.
Proof.
  intros v h t l H. induction H as [t|h t l e H IH F|h t l e H IH F|h t l x H IH X]; intros l' H'.
  - inversion H' as [|h' ? ? ? ? ? E|h' ? ? ? ? ? E|h' ? ? ? ? ? E]; subst; try reflexivity; destruct h'; discriminate.
  - inversion H' as [? E|h' ? ? ? H2 F2 E|h' ? ? ? H2 F2 E|h' ? ? ? H2 F2 E]; subst.
    + destruct h; discriminate.
    + apply app_inj_tail in E. destruct E as [-> E]. injection E as ->. f_equal. apply IH. exact H2.
    + apply app_inj_tail in E. destruct E as [-> E]. injection E as ->. contradiction.
    + apply app_inj_tail in E. destruct E as [-> E]. subst. exfalso. apply (F2 e). reflexivity.
  - inversion H' as [? E|h' ? ? ? H2 F2 E|h' ? ? ? H2 F2 E|h' ? ? ? H2 F2 E]; subst.
    + destruct h; discriminate.
    + apply app_inj_tail in E. destruct E as [-> E]. injection E as ->. contradiction.
    + apply app_inj_tail in E. destruct E as [-> E]. apply IH. exact H2.
    + apply app_inj_tail in E. destruct E as [-> E]. subst. exfalso. apply (F2 e). reflexivity.
  - inversion H' as [? E|h' ? ? ? H2 F2 E|h' ? ? ? H2 F2 E|h' ? ? ? H2 F2 E]; subst.
    + destruct h; discriminate.
    + apply app_inj_tail in E. destruct E as [-> E]. exfalso. apply (X e). congruence.
    + apply app_inj_tail in E. destruct E as [-> E]. exfalso. apply (X e). congruence.
    + apply app_inj_tail in E. destruct E as [-> E]. apply IH. exact H2.
Qed.

(** * The counter *)

Definition open_calls (th : thread) : nat :=
  length (filter (fun x => snd x) (t_calls th)) - match t_pc th with Left => 1 | _ => 0 end
  - match t_pc th, t_calls th with Replying, (_, true) :: _ => 1 | _, _ => 0 end.

Definition total (st : state) : nat := list_sum (map open_calls (s_threads st)).

Definition th_ok (th : thread) : Prop :=
  match t_pc th with
  | Left => exists r cs, t_calls th = (r, true) :: cs
  | Replying => t_calls th <> []
  | _ => True
  end.

Lemma sum_set : forall l n th th0, nth_error l n = Some th0 ->
  list_sum (map open_calls (set_nth n th l)) + open_calls th0 = list_sum (map open_calls l) + open_calls th.
Proof.
  induction l as [|x l IH]; intros [|n] th th0 H; try discriminate; cbn [set_nth map list_sum fold_right] in *.
  - injection H as ->. unfold list_sum in *. cbn [fold_right]. lia.
  - specialize (IH n th th0 H). unfold list_sum in *. cbn [fold_right]. lia.
Qed.

Lemma set_nth_Forall : forall A (P : A -> Prop) l n a, Forall P l -> P a -> Forall P (set_nth n a l).
Proof. induction l as [|x l IH]; intros [|n] a F H; cbn [set_nth]; inversion F; subst; auto. Qed.

Definition good (st : state) : Prop :=
  Forall th_ok (s_threads st) /\ s_counter st = total st /\
  (s_queue st <> [] -> s_counter st > 0 \/
     exists th, In th (s_threads st) /\ (t_pc th = Pushed \/ t_pc th = Sending \/ t_pc th = Left)).

Lemma in_set_nth : forall A (l : list A) n a b, nth_error l n = Some b -> In a (set_nth n a l).
Proof. intros A l n a b H. eapply nth_error_In. eapply nth_set_same. exact H. Qed.

Lemma in_set_other : forall A (l : list A) n a b x, nth_error l n = Some b -> In x l -> x = b \/ In x (set_nth n a l).
Proof.
  induction l as [|y l IH]; intros [|n] a b x H I; try discriminate; cbn [set_nth nth_error] in *.
  - injection H as ->. destruct I as [->|I]; [left; reflexivity|right; right; exact I].
  - destruct I as [->|I]; [right; left; reflexivity|]. destruct (IH n a b x H I) as [->|G]; [left; reflexivity|right; right; exact G].
Qed.

(** Someone still has to act: kept if thread t was not the one. *)
Lemma actor_kept : forall st t th th0, nth_error (s_threads st) t = Some th0 ->
  ~ (t_pc th0 = Pushed \/ t_pc th0 = Sending \/ t_pc th0 = Left) ->
  (exists x, In x (s_threads st) /\ (t_pc x = Pushed \/ t_pc x = Sending \/ t_pc x = Left)) ->
  exists x, In x (set_nth t th (s_threads st)) /\ (t_pc x = Pushed \/ t_pc x = Sending \/ t_pc x = Left).
Proof.
  intros st t th th0 N K (x & I & X). destruct (in_set_other _ _ _ th _ _ N I) as [->|G]; [contradiction|].
  exists x. auto.
Qed.

Lemma actor_new : forall st t th th0, nth_error (s_threads st) t = Some th0 ->
  (t_pc th = Pushed \/ t_pc th = Sending \/ t_pc th = Left) ->
  exists x, In x (set_nth t th (s_threads st)) /\ (t_pc x = Pushed \/ t_pc x = Sending \/ t_pc x = Left).
Proof. intros st t th th0 N X. exists th. split; [eapply in_set_nth; exact N|exact X]. Qed.

Lemma init_good : forall v n, good (init v n).
Proof.
  intros v n. split; [|split].
  - cbn [init s_threads]. apply Forall_forall. intros th I. apply repeat_spec in I. subst. exact Logic.I.
  - unfold total. cbn [init s_threads s_counter]. induction n as [|n IH]; [reflexivity|]. cbn [repeat map list_sum fold_right].
    unfold list_sum in *. cbn [fold_right]. rewrite <- IH. reflexivity.
  - cbn [init s_queue]. congruence.
Qed.

Lemma step_good : forall st l st', good st -> step st l = Some st' -> good st'.
Proof.
  intros st l st' (F & C & Q) E.
  destruct l as [t e|t|t r|t|w]; cbn [step] in E; [| | | |injection E as <-; split; [exact F|split; [exact C|exact Q]]];
    (destruct (nth_error (s_threads st) t) as [th|] eqn:N; [|discriminate]);
    assert (Ok : th_ok th) by (rewrite Forall_forall in F; apply F; eapply nth_error_In; exact N);
    pose proof (fun x => sum_set _ _ x _ N) as Sum; unfold total in C.
  - destruct (t_pc th) eqn:P; try discriminate. destruct (packs _ _); injection E as <-; [|split; [|split]; assumption].
    split; [|split]; cbn [with_thread s_threads s_counter s_queue].
    + apply set_nth_Forall; [exact F|exact Logic.I].
    + unfold total. cbn [with_thread s_threads]. specialize (Sum (at_pc th (Raised e))).
      assert (O : open_calls (at_pc th (Raised e)) = open_calls th) by (unfold open_calls; cbn [at_pc t_pc t_calls]; rewrite P; reflexivity). lia.
    + intro H. destruct (Q H) as [L|A]; [left; exact L|right]. eapply actor_kept; [exact N| |exact A].
      rewrite P. intros [X|[X|X]]; discriminate.
  - destruct (t_pc th) as [|e| | | |] eqn:P; try discriminate.
    + injection E as <-. split; [|split]; cbn [with_thread with_queue s_threads s_counter s_queue].
      * apply set_nth_Forall; [exact F|exact Logic.I].
      * unfold total. cbn [with_thread with_queue s_threads]. specialize (Sum (at_pc th Pushed)).
        assert (O : open_calls (at_pc th Pushed) = open_calls th) by (unfold open_calls; cbn [at_pc t_pc t_calls]; rewrite P; reflexivity). lia.
      * intros _. right. eapply actor_new; [exact N|left; reflexivity].
    + destruct ((s_version st <? 20) || (s_counter st =? 0)) eqn:B; injection E as <-; (split; [|split]);
        cbn [with_thread s_threads s_counter s_queue].
      * apply set_nth_Forall; [exact F|exact Logic.I].
      * unfold total. cbn [with_thread s_threads]. specialize (Sum (at_pc th Sending)).
        assert (O : open_calls (at_pc th Sending) = open_calls th) by (unfold open_calls; cbn [at_pc t_pc t_calls]; rewrite P; reflexivity). lia.
      * intros _. right. eapply actor_new; [exact N|right; left; reflexivity].
      * apply set_nth_Forall; [exact F|exact Logic.I].
      * unfold total. cbn [with_thread s_threads]. specialize (Sum (at_pc th Idle)).
        assert (O : open_calls (at_pc th Idle) = open_calls th) by (unfold open_calls; cbn [at_pc t_pc t_calls]; rewrite P; reflexivity). lia.
      * intros _. left. apply orb_false_iff in B. destruct B as [_ B]. apply Nat.eqb_neq in B. lia.
    + injection E as <-. split; [|split]; cbn [with_thread s_threads s_counter s_queue].
      * rewrite send_out_threads. apply set_nth_Forall; [exact F|exact Logic.I].
      * unfold total. cbn [with_thread s_threads]. rewrite send_out_threads, send_out_counter. specialize (Sum (at_pc th Idle)).
        assert (O : open_calls (at_pc th Idle) = open_calls th) by (unfold open_calls; cbn [at_pc t_pc t_calls]; rewrite P; reflexivity). lia.
      * rewrite send_out_queue. congruence.
    + injection E as <-. unfold th_ok in Ok. rewrite P in Ok. destruct Ok as (r & cs & Ec).
      split; [|split]; cbn [with_thread s_threads s_counter s_queue].
      * rewrite send_out_threads. apply set_nth_Forall; [exact F|]. unfold th_ok. cbn [at_pc t_pc t_calls]. rewrite Ec. discriminate.
      * unfold total. cbn [with_thread s_threads]. rewrite send_out_threads, send_out_counter. specialize (Sum (at_pc th Replying)).
        assert (O : open_calls (at_pc th Replying) = open_calls th) by (unfold open_calls; cbn [at_pc t_pc t_calls]; rewrite P, Ec; lia). lia.
      * rewrite send_out_queue. congruence.
    + destruct (t_calls th) as [|[r b] cs] eqn:Ec; [discriminate|]. injection E as <-.
      split; [|split]; cbn [with_thread with_item s_threads s_counter s_queue].
      * apply set_nth_Forall; [exact F|exact Logic.I].
      * unfold total. cbn [with_thread with_item s_threads]. specialize (Sum {| t_pc := Idle; t_calls := cs |}).
        assert (O : open_calls {| t_pc := Idle; t_calls := cs |} = open_calls th).
        { unfold open_calls. cbn [t_pc t_calls]. rewrite P, Ec. destruct b; cbn [filter snd length]; lia. } lia.
      * intro H. destruct (Q H) as [L|A]; [left; exact L|right]. eapply actor_kept; [exact N| |exact A].
        rewrite P. intros [X|[X|X]]; discriminate.
  - destruct (t_pc th) eqn:P; try discriminate.
    destruct (_ <? _); injection E as <-; (split; [|split]); cbn [with_thread with_counter s_threads s_counter s_queue].
    + apply set_nth_Forall; [exact F|exact Logic.I].
    + unfold total. cbn [with_thread s_threads]. specialize (Sum {| t_pc := Idle; t_calls := (r, false) :: t_calls th |}).
      assert (O : open_calls {| t_pc := Idle; t_calls := (r, false) :: t_calls th |} = open_calls th).
      { unfold open_calls. cbn [t_pc t_calls filter snd]. rewrite P. reflexivity. } lia.
    + intro H. destruct (Q H) as [L|A]; [left; exact L|right]. eapply actor_kept; [exact N| |exact A].
      rewrite P. intros [X|[X|X]]; discriminate.
    + apply set_nth_Forall; [exact F|exact Logic.I].
    + unfold total. cbn [with_thread with_counter s_threads]. specialize (Sum {| t_pc := Idle; t_calls := (r, true) :: t_calls th |}).
      assert (O : open_calls {| t_pc := Idle; t_calls := (r, true) :: t_calls th |} = S (open_calls th)).
      { unfold open_calls. cbn [t_pc t_calls filter snd length]. rewrite P. lia. } lia.
    + intro H. left. lia.
  - destruct (t_pc th) eqn:P; try discriminate. destruct (t_calls th) as [|[r b] cs] eqn:Ec; [discriminate|].
    assert (Oth : open_calls th = (if b then 1 else 0) + length (filter (fun x => snd x) cs)).
    { unfold open_calls. rewrite P, Ec. destruct b; cbn [filter snd length]; lia. }
    destruct b; injection E as <-; (split; [|split]); cbn [with_thread with_counter s_threads s_counter s_queue].
    + apply set_nth_Forall; [exact F|]. exists r, cs. exact Ec.
    + unfold total. cbn [with_thread with_counter s_threads]. specialize (Sum (at_pc th Left)).
      assert (O : open_calls (at_pc th Left) = length (filter (fun x => snd x) cs)).
      { unfold open_calls. cbn [at_pc t_pc t_calls]. rewrite Ec. cbn [filter snd length]. lia. } lia.
    + intros _. right. eapply actor_new; [exact N|right; right; reflexivity].
    + apply set_nth_Forall; [exact F|]. unfold th_ok. cbn [at_pc t_pc t_calls]. rewrite Ec. discriminate.
    + unfold total. cbn [with_thread s_threads]. specialize (Sum (at_pc th Replying)).
      assert (O : open_calls (at_pc th Replying) = length (filter (fun x => snd x) cs)).
      { unfold open_calls. cbn [at_pc t_pc t_calls]. rewrite Ec. cbn [filter snd length]. lia. } lia.
    + intro H. destruct (Q H) as [L|A]; [left; exact L|right]. eapply actor_kept; [exact N| |exact A].
      rewrite P. intros [X|[X|X]]; discriminate.
Qed.

Lemma run_good : forall h st st', good st -> run st h = Some st' -> good st'.
Proof.
  induction h as [|l h IH]; intros st st' G E; [injection E as <-; exact G|]. cbn [run] in E.
  destruct (step st l) as [s|] eqn:S0; [|discriminate]. eapply IH; [eapply step_good; eassumption|exact E].
Qed.

Lemma quiet_empty : forall st, good st -> quiet st -> s_queue st = [].
Proof.
  intros st (F & C & Q) K. destruct (s_queue st) as [|x q] eqn:E; [reflexivity|]. exfalso.
  destruct (Q ltac:(discriminate)) as [L|(th & I & X)].
  - assert (T : total st = 0).
    { unfold total, quiet in *. clear - K. induction (s_threads st) as [|th l IH]; [reflexivity|].
      cbn [map list_sum fold_right]. unfold list_sum in *. cbn [fold_right]. rewrite IH by (intros; apply K; right; assumption).
      destruct (K th (or_introl eq_refl)) as [P Ec]. unfold open_calls. rewrite P, Ec. reflexivity. }
    lia.
  - destruct (K th I) as [P _]. rewrite P in X. destruct X as [X|[X|X]]; discriminate.
Qed.

(** * Replies *)

(** With a version that does not change: where the events of a thread can be. *)
Definition own_done (st : state) : Prop :=
  forall t th, nth_error (s_threads st) t = Some th -> by_thread t (s_queue st) <> [] ->
    t_pc th = Pushed \/ t_pc th = Sending \/
    (20 <= s_version st /\ t_pc th <> Replying).

Definition tracked (st : state) : Prop :=
  forall th x, In th (s_threads st) -> In x (t_calls th) -> snd x = negb (s_version st <? 20).

Lemma step_tracked : forall st l st', (forall v, l <> Upgrade v) -> tracked st -> step st l = Some st' -> tracked st'.
Proof.
  intros st l st' U T E th' x I J. rewrite (step_version _ _ _ E).
  replace (match l with Upgrade w => w | _ => s_version st end) with (s_version st) by (destruct l; try reflexivity; exfalso; eapply U; reflexivity).
  assert (In2 : forall A (l : list A) n a y, In y (set_nth n a l) -> y = a \/ In y l).
  { clear. induction l as [|z l IH]; intros [|n] a y H; cbn [set_nth] in H; try contradiction.
    - destruct H as [<-|H]; auto. right. right. exact H.
    - destruct H as [<-|H]; [right; left; reflexivity|]. destruct (IH n a y H); auto. right. right. assumption. }
  assert (Upd : forall t th th2, nth_error (s_threads st) t = Some th -> In th' (set_nth t th2 (s_threads st)) ->
     (forall y, In y (t_calls th2) -> In y (t_calls th) \/ snd y = negb (s_version st <? 20)) -> snd x = negb (s_version st <? 20)).
  { intros t th th2 N H K. apply In2 in H. destruct H as [->|H]; [|eapply T; eassumption].
    destruct (K x J) as [G|G]; [|exact G]. eapply T; [eapply nth_error_In; exact N|exact G]. }
  destruct l as [t e|t|t r|t|w]; cbn [step] in E; [| | | |exfalso; eapply U; reflexivity];
    (destruct (nth_error (s_threads st) t) as [th|] eqn:N; [|discriminate]).
  - destruct (t_pc th); try discriminate. destruct (packs _ _); injection E as <-; [|eapply T; eassumption].
    eapply Upd; [exact N|exact I|]. cbn [at_pc t_calls]. auto.
  - destruct (t_pc th); try discriminate.
    + injection E as <-. eapply Upd; [exact N|exact I|]. cbn [at_pc t_calls]. auto.
    + destruct (_ || _); injection E as <-; (eapply Upd; [exact N|exact I|]); cbn [at_pc t_calls]; auto.
    + injection E as <-. cbn [with_thread s_threads] in I. rewrite send_out_threads in I.
      eapply Upd; [exact N|exact I|]. cbn [at_pc t_calls]. auto.
    + injection E as <-. cbn [with_thread s_threads] in I. rewrite send_out_threads in I.
      eapply Upd; [exact N|exact I|]. cbn [at_pc t_calls]. auto.
    + destruct (t_calls th) as [|c cs] eqn:Ec; [discriminate|]. destruct c as [r b]. injection E as <-.
      eapply Upd; [exact N|exact I|]. cbn [t_calls]. intros y Y. left. rewrite Ec. right. exact Y.
  - destruct (t_pc th); try discriminate. destruct (s_version st <? 20) eqn:V; injection E as <-;
      (eapply Upd; [exact N|exact I|]); cbn [t_calls]; intros y [<-|Y]; auto.
  - destruct (t_pc th); try discriminate. destruct (t_calls th) as [|[r []] cs]; try discriminate; injection E as <-;
      (eapply Upd; [exact N|exact I|]); cbn [at_pc t_calls]; auto.
Qed.

Lemma step_own : forall st l st', (forall v, l <> Upgrade v) -> tracked st -> own_done st -> step st l = Some st' -> own_done st'.
Proof.
  intros st l st' U T O E u th' Nu Bu. rewrite (step_version _ _ _ E).
  replace (match l with Upgrade w => w | _ => s_version st end) with (s_version st) by (destruct l; try reflexivity; exfalso; eapply U; reflexivity).
  assert (Upd : forall t th th2, nth_error (s_threads st) t = Some th -> nth_error (set_nth t th2 (s_threads st)) u = Some th' ->
     by_thread u (s_queue st) <> [] ->
     (t = u -> (t_pc th = Pushed \/ t_pc th = Sending \/ (20 <= s_version st /\ t_pc th <> Replying)) ->
               t_pc th2 = Pushed \/ t_pc th2 = Sending \/ (20 <= s_version st /\ t_pc th2 <> Replying)) ->
     t_pc th' = Pushed \/ t_pc th' = Sending \/ (20 <= s_version st /\ t_pc th' <> Replying)).
  { intros t th th2 N H B K. destruct (Nat.eq_dec t u) as [->|D].
    - rewrite (nth_set_same _ _ _ _ _ N) in H. injection H as <-. apply K; [reflexivity|]. apply (O u th N B).
    - rewrite nth_set_other in H by exact D. apply (O u th' H B). }
  destruct l as [t e|t|t r|t|w]; cbn [step] in E; [| | | |exfalso; eapply U; reflexivity];
    (destruct (nth_error (s_threads st) t) as [th|] eqn:N; [|discriminate]).
  - destruct (t_pc th) eqn:P; try discriminate. destruct (packs _ _); injection E as <-; [|eapply O; eassumption].
    refine (Upd t th _ N Nu Bu _). intros _ [X|[X|[X Y]]]; try (rewrite P in X; discriminate X). right. right. split; [exact X|discriminate].
  - destruct (t_pc th) as [|e| | | |] eqn:P; try discriminate.
    + injection E as <-. cbn [with_thread with_queue s_threads s_queue] in Nu, Bu.
      destruct (Nat.eq_dec t u) as [->|D].
      * rewrite (nth_set_same _ _ _ _ _ N) in Nu. injection Nu as <-. left. reflexivity.
      * refine (Upd t th _ N Nu _ _); [|intro; contradiction].
        rewrite by_thread_app in Bu. unfold by_thread in Bu at 2. cbn [filter fst] in Bu.
        destruct (Nat.eqb_spec t u); [contradiction|]. cbn [map] in Bu. rewrite app_nil_r in Bu. exact Bu.
    + destruct ((s_version st <? 20) || (s_counter st =? 0)) eqn:B; injection E as <-; refine (Upd t th _ N Nu Bu _); intros _ _.
      * right. left. reflexivity.
      * right. right. apply orb_false_iff in B. destruct B as [B _]. apply Nat.ltb_ge in B. split; [exact B|discriminate].
    + injection E as <-. cbn [with_thread s_queue] in Bu. rewrite send_out_queue in Bu. exfalso. apply Bu. reflexivity.
    + injection E as <-. cbn [with_thread s_queue] in Bu. rewrite send_out_queue in Bu. exfalso. apply Bu. reflexivity.
    + destruct (t_calls th) as [|[r b] cs]; [discriminate|]. injection E as <-.
      refine (Upd t th _ N Nu Bu _). intros _ [X|[X|[X Y]]]; try (rewrite P in X; discriminate X). exfalso. apply Y. exact P.
  - destruct (t_pc th) eqn:P; try discriminate. destruct (s_version st <? 20) eqn:V; injection E as <-;
      refine (Upd t th _ N Nu Bu _); intros _ [X|[X|[X Y]]]; try (rewrite P in X; discriminate X); right; right; (split; [exact X|discriminate]).
  - destruct (t_pc th) eqn:P; try discriminate. destruct (t_calls th) as [|[r b] cs] eqn:Ec; [discriminate|].
    pose proof (T th (r, b) (nth_error_In _ _ N) ltac:(rewrite Ec; left; reflexivity)) as Tb. cbn [snd] in Tb.
    destruct b; injection E as <-; refine (Upd t th _ N Nu Bu _); intros _ [X|[X|[X Y]]]; try (rewrite P in X; discriminate X).
    + right. right. split; [exact X|discriminate].
    + exfalso. symmetry in Tb. apply negb_false_iff in Tb. apply Nat.ltb_lt in Tb. lia.
Qed.

Lemma run_own : forall h v n st, no_upgrade h -> run (init v n) h = Some st -> own_done st /\ tracked st.
Proof.
  induction h as [|l h IH] using rev_ind; intros v n st U E.
  - injection E as <-. split.
    + intros t th _ B. exfalso. apply B. reflexivity.
    + intros th x I J. cbn [init s_threads] in I. apply repeat_spec in I. subst. contradiction.
  - rewrite run_app in E. destruct (run (init v n) h) as [s|] eqn:R; [|discriminate]. cbn [run] in E.
    destruct (step s l) as [s'|] eqn:S0; [|discriminate]. injection E as <-.
    destruct (IH v n s) as [O T]; [intros w I; apply (U w); apply in_or_app; left; exact I|exact R|].
    assert (Ul : forall w, l <> Upgrade w) by (intros w ->; apply (U w); apply in_or_app; right; left; reflexivity).
    split; [eapply step_own; eassumption|eapply step_tracked; eassumption].
Qed.

(** * What arrives *)

Lemma sublist_refl : forall A (l : list A), Sublist l l.
Proof. induction l; constructor; assumption. Qed.

Lemma sublist_nil : forall A (l : list A), Sublist [] l.
Proof. induction l; constructor; assumption. Qed.

Lemma sublist_app : forall A (a b c d : list A), Sublist a b -> Sublist c d -> Sublist (a ++ c) (b ++ d).
Proof. intros A a b c d H. induction H; intro K; cbn [app]; [exact K|constructor; auto|constructor; auto]. Qed.

Lemma received_sublist : forall st, Sublist (received st) (sent st).
Proof.
  intro st. unfold received, sent. induction (s_wire st) as [|i w IH]; [constructor|]. cbn [flat_map].
  apply sublist_app; [|exact IH]. destruct i as [l|t r]; cbn [arrives]; [|constructor].
  destruct (forallb _ l); [apply sublist_refl|apply sublist_nil].
Qed.

Lemma received_all : forall st, (forall x, In x (sent st) -> ev_serializes (snd x) = true) -> received st = sent st.
Proof.
  intro st. unfold received, sent. induction (s_wire st) as [|i w IH]; intro H; [reflexivity|]. cbn [flat_map] in *.
  rewrite IH by (intros x I; apply H; apply in_or_app; right; exact I). f_equal.
  destruct i as [l|t r]; [|reflexivity]. cbn [arrives].
  rewrite (proj2 (forallb_forall _ l)); [reflexivity|]. intros x I. apply H. apply in_or_app. left. exact I.
Qed.
