(** C35: the server has a signal subscribed exactly while somebody here wants
    it: subscriptions are counted, requests are sent on the first and after the
    last one, and they are repeated when the signal comes (back). *)
From Coq Require Import List Bool Arith Lia.
From Verif Require Import SubC_Model SubC_Spec SubC_Proofs.
Import ListNotations.

(** The main statement.  [_partial]: for histories in which ids are not
    ambiguous, no request fails to be sent, no signal is dropped that still has
    consumers, and value and domain signals are added and cancelled together;
    each of these conditions is needed (see the refutations). *)
Theorem c35_subscribed_partial : forall Rs Xs skipd h x,
  Unambiguous Rs Xs -> Disciplined skipd Rs Xs h ->
  (Subscribed (st_wire (run skipd init h)) x <->
   Announced h x /\ exists r n, Rs r /\ ends_with r x = true /\ Added h r /\ Consumers skipd h r n /\ 0 < n).
Proof. intros Rs Xs skipd h x U D. exact (subscribed_iff Rs Xs U skipd h x D). Qed.

(** The same for one signal: it is subscribed iff its count is positive. *)
Theorem c35_signal_partial : forall Rs Xs skipd h r x n,
  Unambiguous Rs Xs -> Disciplined skipd Rs Xs h ->
  Rs r -> ends_with r x = true -> Added h r -> Announced h x -> Xs x -> Consumers skipd h r n ->
  (Subscribed (st_wire (run skipd init h)) x <-> 0 < n).
Proof.
  intros Rs Xs skipd h r x n U D R E Ad An X Co. rewrite (subscribed_iff Rs Xs U skipd h x D). split.
  - intros (_ & q & m & Q & Eq & Adq & Coq & L). assert (q = r) by (apply (un_whose _ _ U q r x); assumption). subst q.
    rewrite (consumers_fun _ _ _ _ _ Co Coq). exact L.
  - intro L. split; [exact An|]. exists r, n. auto.
Qed.

(** Requests are never repeated: a subscription is requested only when the
    server does not have it, a cancellation only when it does. *)
Theorem c35_proper_partial : forall Rs Xs skipd h,
  Unambiguous Rs Xs -> Disciplined skipd Rs Xs h -> Proper (st_wire (run skipd init h)).
Proof. intros Rs Xs skipd h U D. exact (proper_run Rs Xs U skipd h D). Qed.

(** In such a history no subscription and no cancellation is refused. *)
Theorem c35_accepted_partial : forall Rs Xs skipd h o,
  Unambiguous Rs Xs -> Disciplined skipd Rs Xs (h ++ [o]) ->
  forall r d f, (o = Subscribe r d f \/ o = Unsubscribe r d f) -> d <> Some r ->
  snd (step skipd (run skipd init h) o) = OK.
Proof.
  intros Rs Xs skipd h o U D r d f [->| ->] X.
  - exact (replies_ok Rs Xs U skipd h (Subscribe r d f) D X).
  - exact (replies_ok Rs Xs U skipd h (Unsubscribe r d f) D X).
Qed.

(** The number of consumers is a function of the history, defined for every
    added signal. *)
Theorem c35_consumers_determined : forall skipd h r n m,
  Consumers skipd h r n -> Consumers skipd h r m -> n = m.
Proof. intros. eapply consumers_fun; eassumption. Qed.
Theorem c35_consumers_exist : forall Rs Xs skipd h r,
  Unambiguous Rs Xs -> Disciplined skipd Rs Xs h -> Rs r -> Added h r -> exists n, Consumers skipd h r n.
Proof. intros Rs Xs skipd h r U D R A. exact (consumers_exist Rs Xs U skipd h r D R A). Qed.

(** A cancellation without a subscription, and a call for a signal that is not
    added, is refused and changes nothing. *)
Theorem c35_extra_partial : forall Rs Xs skipd h r,
  Unambiguous Rs Xs -> Disciplined skipd Rs Xs h -> Rs r -> Added h r -> Consumers skipd h r 0 ->
  step skipd (run skipd init h) (Unsubscribe r None false) = (run skipd init h, BadState).
Proof. intros Rs Xs skipd h r U D R A C. exact (extra_refused Rs Xs U skipd h r D R A C). Qed.
Theorem c35_unknown_partial : forall Rs Xs skipd h r f o,
  Unambiguous Rs Xs -> Disciplined skipd Rs Xs h -> Rs r -> ~ Added h r -> (o = Subscribe r None f \/ o = Unsubscribe r None f) ->
  step skipd (run skipd init h) o = (run skipd init h, NotFound).
Proof. intros Rs Xs skipd h r f o U D R A O. exact (unknown_refused Rs Xs U skipd h r o f D R A O). Qed.

(** Without any condition: whatever happens, a request to the server is only
    ever sent for a signal the server has announced. *)
Theorem c35_only_announced : forall skipd h o, exists w,
  st_wire (run skipd init (h ++ [o])) = st_wire (run skipd init h) ++ w /\
  forall x, In (RSub x) w \/ In (RUnsub x) w -> Announced (h ++ [o]) x.
Proof.
  intros skipd h o. destruct (step_asks skipd (run skipd init h) o) as (w & E & H). exists w. rewrite run_snoc. split; [exact E|].
  intros x [I1|I1]; apply (avail_announced skipd); rewrite run_snoc; apply (H _ x I1); [left|right]; reflexivity.
Qed.

(* ---------- a case that meets the hypotheses ---------- *)
(** a value signal "/dev/7/1" and its domain "/dev/7/2", announced as "7/1" and
    "7/2"; the value is subscribed twice, the session restarts, the signals
    come back, one consumer leaves. *)
Definition rv : id := [8; 7; 1].
Definition rd : id := [8; 7; 2].
Definition xv : id := [7; 1].
Definition xd : id := [7; 2].
Definition story : list op :=
  [Add rv; Available xv; Add rd; Subscribe rv (Some rd) false; Available xd; Subscribe rv (Some rd) false; Reconnecting;
   Available xd; Connected; Available xv; Unsubscribe rv (Some rd) false].
Definition Rs0 (r : id) : Prop := r = rv \/ r = rd.
Definition Xs0 (x : id) : Prop := x = xv \/ x = xd.

Lemma un0 : Unambiguous Rs0 Xs0.
Proof.
  constructor.
  - intros r x y [->| ->] [->| ->] [->| ->] A B; try reflexivity; vm_compute in A, B; discriminate.
  - intros r q x [->| ->] [->| ->] [->| ->] A B; try reflexivity; vm_compute in A, B; discriminate.
  - intros x y [->| ->] [->| ->] A; try reflexivity; vm_compute in A; discriminate.
Qed.
Lemma added_in h1 r h2 : (forall o, In o h2 -> o <> Drop r) -> Added (h1 ++ [Add r] ++ h2) r.
Proof.
  induction h2 as [|o h2 IH] using rev_ind; intro H.
  - rewrite app_nil_r. constructor.
  - rewrite !app_assoc. rewrite <- (app_assoc h1). apply Ad_other; [apply IH; intros; apply H; apply in_app_iff; auto|].
    apply H. apply in_app_iff. right. left. reflexivity.
Qed.

Example c35_story_wire : st_wire (run false init story) = [RSub xv; RSub xd; Fresh; RSub xd; RSub xv].
Proof. vm_compute. reflexivity. Qed.
Example c35_story_counts : map (fun i => (i_rid i, i_cnt i)) (st_items (run false init story)) = [(rd, 1); (rv, 1)].
Proof. vm_compute. reflexivity. Qed.

Lemma disc_snoc h o : Disciplined false Rs0 Xs0 h -> uses Rs0 Xs0 o -> disciplined false h o -> Disciplined false Rs0 Xs0 (h ++ [o]).
Proof. apply Di_step. Qed.
Ltac noDrop := intros ? HH; repeat (destruct HH as [<-|HH]; [discriminate|]); destruct HH.
Example c35_story_disciplined : Disciplined false Rs0 Xs0 story.
Proof.
  assert (Av : forall h2, (forall o, In o h2 -> o <> Drop rv) -> Added (Add rv :: h2) rv) by (intros h2 H; exact (added_in [] rv h2 H)).
  assert (Ad : forall h2, (forall o, In o h2 -> o <> Drop rd) -> Added ([Add rv; Available xv; Add rd] ++ h2) rd) by (intros h2 H; exact (added_in [Add rv; Available xv] rd h2 H)).
  assert (D0 : Disciplined false Rs0 Xs0 ([Add rv; Available xv; Add rd])).
  { apply (Di_step _ _ _ [Add rv; Available xv]); [|right; reflexivity|exact Logic.I]. apply (Di_step _ _ _ [Add rv]); [|left; reflexivity|exact Logic.I].
    apply (Di_step _ _ _ []); [constructor|left; reflexivity|exact Logic.I]. }
  assert (Us : uses Rs0 Xs0 (Subscribe rv (Some rd) false)) by (split; [left; reflexivity|intros q E; inversion E; right; reflexivity]).
  assert (D1 : Disciplined false Rs0 Xs0 ([Add rv; Available xv; Add rd] ++ [Subscribe rv (Some rd) false])).
  { apply disc_snoc; [exact D0|exact Us|]. split; [reflexivity|]. split; [apply (Av [Available xv; Add rd]); noDrop|]. intros q E. inversion E. apply (Ad []); noDrop. }
  assert (D2 : Disciplined false Rs0 Xs0 ([Add rv; Available xv; Add rd; Subscribe rv (Some rd) false] ++ [Available xd])).
  { apply disc_snoc; [exact D1|right; reflexivity|exact Logic.I]. }
  assert (D3 : Disciplined false Rs0 Xs0 ([Add rv; Available xv; Add rd; Subscribe rv (Some rd) false; Available xd] ++ [Subscribe rv (Some rd) false])).
  { apply disc_snoc; [exact D2|exact Us|]. split; [reflexivity|]. split; [apply Av; noDrop|]. intros q E. inversion E. apply (Ad [_; _]); noDrop. }
  assert (D4 : Disciplined false Rs0 Xs0 [Add rv; Available xv; Add rd; Subscribe rv (Some rd) false; Available xd; Subscribe rv (Some rd) false; Reconnecting; Available xd; Connected; Available xv]).
  { apply (disc_snoc [Add rv; Available xv; Add rd; Subscribe rv (Some rd) false; Available xd; Subscribe rv (Some rd) false; Reconnecting; Available xd; Connected]); [|left; reflexivity|exact Logic.I].
    apply (disc_snoc [Add rv; Available xv; Add rd; Subscribe rv (Some rd) false; Available xd; Subscribe rv (Some rd) false; Reconnecting; Available xd]); [|exact Logic.I|exact Logic.I].
    apply (disc_snoc [Add rv; Available xv; Add rd; Subscribe rv (Some rd) false; Available xd; Subscribe rv (Some rd) false; Reconnecting]); [|right; reflexivity|exact Logic.I].
    apply (disc_snoc [Add rv; Available xv; Add rd; Subscribe rv (Some rd) false; Available xd; Subscribe rv (Some rd) false]); [exact D3|exact Logic.I|exact Logic.I]. }
  apply (disc_snoc [Add rv; Available xv; Add rd; Subscribe rv (Some rd) false; Available xd; Subscribe rv (Some rd) false; Reconnecting; Available xd; Connected; Available xv]); [exact D4| |].
  - split; [left; reflexivity|intros q E; inversion E; right; reflexivity].
  - pose proof (faithful_run Rs0 Xs0 un0 false _ D4) as (G & N & A & B & C).
    split; [reflexivity|]. intros q [->|[_ E]]; [|inversion E; subst q].
    + split; [apply Av; noDrop|]. exists 1. apply C. exists (mkI xv 2 rv). vm_compute. auto.
    + split; [apply (Ad [_; _; _; _; _; _; _]); noDrop|]. exists 1. apply C. exists (mkI xd 2 rd). vm_compute. auto.
Qed.
Example c35_story_subscribed : Subscribed (st_wire (run false init story)) xv.
Proof.
  rewrite c35_story_wire. apply (Su_yes [RSub xv; RSub xd; Fresh; RSub xd]).
Qed.

(* ---------- why the conditions are there ---------- *)
(** F109: the count goes up before the request is sent, and stays up when
    sending fails.  Every later subscription then counts as a further one: it
    is accepted and nothing is requested. *)
Theorem c35_failed_request_refuted : exists h r x,
  Added h r /\ ends_with r x = true /\ Announced h x /\
  snd (step false (run false init h) (Subscribe r None true)) = Failed /\
  snd (step false (run false init (h ++ [Subscribe r None true])) (Subscribe r None false)) = OK /\
  ~ Subscribed (st_wire (run false init (h ++ [Subscribe r None true; Subscribe r None false]))) x.
Proof.
  exists [Add rv; Available xv], rv, xv. split; [apply (added_in [] rv [Available xv]); noDrop|]. split; [reflexivity|]. split; [apply (An_yes [Add rv])|].
  split; [reflexivity|]. split; [reflexivity|]. replace (st_wire _) with (@nil note) by (vm_compute; reflexivity). apply not_subscribed_nil.
Qed.

(** F110: the domain signal is subscribed first; when the value signal turns
    out not to be there, the call fails and the domain signal stays subscribed,
    with nobody to cancel it. *)
Theorem c35_domain_kept_refuted : exists h r d x,
  snd (step false (run false init h) (Subscribe r (Some d) false)) = NotFound /\
  ~ Subscribed (st_wire (run false init h)) x /\
  Subscribed (st_wire (run false init (h ++ [Subscribe r (Some d) false]))) x.
Proof.
  exists [Add rd; Available xd], rv, rd, xd. split; [reflexivity|]. split; [apply not_subscribed_nil|].
  replace (st_wire _) with ([] ++ [RSub xd]) by (vm_compute; reflexivity). constructor.
Qed.

(** F111: the domain signal is cancelled first; when it has been removed, the
    call fails, and the value signal (and the domain signal) stays subscribed on
    the server although its only consumer has left. *)
Theorem c35_domain_gone_refuted : exists h r d x,
  snd (step false (run false init (h ++ [Subscribe r (Some d) false; Drop d])) (Unsubscribe r (Some d) false)) = NotFound /\
  Subscribed (st_wire (run false init (h ++ [Subscribe r (Some d) false; Drop d; Unsubscribe r (Some d) false]))) x /\ ends_with r x = true.
Proof.
  exists [Add rv; Add rd; Available xv; Available xd], rv, rd, xv. split; [reflexivity|]. split; [|reflexivity].
  replace (st_wire _) with ([RSub xd] ++ [RSub xv]) by (vm_compute; reflexivity). constructor.
Qed.

(** F112: ids are compared by their last characters.  When one id ends with
    another, the item of the longer one is looked up under the shorter one and
    lost: subscribing one signal requests another from the server. *)
Theorem c35_suffix_refuted : exists h r q,
  Added h r /\ Announced h r /\ Added h q /\ Announced h q /\ r <> q /\
  snd (step false (run false init h) (Subscribe r None false)) = OK /\
  st_wire (run false init (h ++ [Subscribe r None false])) = [RSub q] /\
  ~ Subscribed (st_wire (run false init (h ++ [Subscribe r None false]))) r.
Proof.
  exists [Add [2; 1]; Add [1]; Available [2; 1]; Available [1]], [2; 1], [1].
  split; [apply (added_in [] [2; 1] [Add [1]; Available [2; 1]; Available [1]]); noDrop|].
  split; [apply (An_other [Add [2; 1]; Add [1]; Available [2; 1]]); [apply (An_yes [Add [2; 1]; Add [1]])|discriminate|discriminate]|].
  split; [apply (added_in [Add [2; 1]] [1] [Available [2; 1]; Available [1]]); noDrop|].
  split; [apply (An_yes [Add [2; 1]; Add [1]; Available [2; 1]])|]. split; [discriminate|]. split; [reflexivity|].
  assert (W : st_wire (run false init ([Add [2; 1]; Add [1]; Available [2; 1]; Available [1]] ++ [Subscribe [2; 1] None false])) = [RSub [1]]) by (vm_compute; reflexivity).
  split; [exact W|]. rewrite W. intro H. apply (subscribed_snoc []) in H. destruct H as [E|[H _]]; [discriminate E|exact (not_subscribed_nil _ H)].
Qed.

(** F113: a domain signal removed while a value signal still uses it is not
    cancelled (only the signal's own listeners are looked at): the server goes
    on sending it although it is no longer added here. *)
Theorem c35_drop_refuted : exists h r d x,
  snd (step false (run false init h) (Subscribe r (Some d) false)) = OK /\
  snd (step false (run false init (h ++ [Subscribe r (Some d) false])) (Drop d)) = OK /\ ends_with d x = true /\
  ~ Added (h ++ [Subscribe r (Some d) false] ++ [Drop d]) d /\
  Subscribed (st_wire (run false init (h ++ [Subscribe r (Some d) false] ++ [Drop d]))) x.
Proof.
  exists [Add rv; Add rd; Available xv; Available xd], rv, rd, xd. split; [reflexivity|]. split; [reflexivity|]. split; [reflexivity|]. split.
  - intro H. rewrite app_assoc in H. apply added_snoc in H. destruct H as [E|[_ E]]; [discriminate E|apply E; reflexivity].
  - replace (st_wire _) with (([] ++ [RSub xd]) ++ [RSub xv]) by (vm_compute; reflexivity). apply Su_other; try discriminate. constructor.
Qed.

Print Assumptions c35_subscribed_partial.
Print Assumptions c35_signal_partial.
Print Assumptions c35_proper_partial.
Print Assumptions c35_accepted_partial.
Print Assumptions c35_consumers_determined.
Print Assumptions c35_consumers_exist.
Print Assumptions c35_extra_partial.
Print Assumptions c35_unknown_partial.
Print Assumptions c35_only_announced.
Print Assumptions c35_failed_request_refuted.
Print Assumptions c35_domain_kept_refuted.
Print Assumptions c35_domain_gone_refuted.
Print Assumptions c35_suffix_refuted.
Print Assumptions c35_drop_refuted.
