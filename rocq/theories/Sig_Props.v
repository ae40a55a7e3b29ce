(** C25 and C45: what the consumers of a signal know and get, and the last
    value. *)
From Coq Require Import List Bool Arith Lia.
From Verif Require Import Sig_Model Sig_Spec Sig_Proofs Sig_Hist.
Import ListNotations.

(** The first item on every connection is an event with the value and the
    domain descriptor the signal had when the connection was made, and a
    connection in use is never without it. Histories include sends cut in two. *)
Theorem c25_first : forall d0 h k,
  (st_log (run (init d0) h) k = [] \/
   exists h1 h2 v d,
     h = h1 ++ Connect k :: h2 /\ st_log (run (init d0) h1) k = [] /\
     Describes d0 h1 (k_sig k) v /\ DomainDesc (run (init d0) h1) (k_sig k) d /\
     starts_with (st_log (run (init d0) h) k) v d) /\
  (k_remote k = false -> Linked h k -> st_log (run (init d0) h) k <> []).
Proof.
  intros d0 h k. split.
  - destruct (first_item d0 h k) as [E|(h1 & h2 & rest & E1 & E2 & E3)]; [left; exact E|right].
    exists h1, h2, (s_desc (st_sig (run (init d0) h1) (k_sig k))), (domain_desc (run (init d0) h1) (k_sig k)).
    repeat split; [exact E1|exact E2|apply describes_now|apply domain_desc_ok|exists rest; exact E3].
  - intros R L E. apply (linked_iff d0 h k R) in L. apply value_known in L. rewrite E in L. discriminate L.
Qed.

(** Every time a connection is made (again), such an event follows at its end. *)
Theorem c25_connect : forall d0 h k, k_remote k = false -> ~ Linked h k ->
  exists v d, Describes d0 h (k_sig k) v /\ DomainDesc (run (init d0) h) (k_sig k) d /\
    snd (step (run (init d0) h) (Connect k)) = OK /\
    st_log (run (init d0) (h ++ [Connect k])) k = st_log (run (init d0) h) k ++ [IEv (Some v) (Some d)].
Proof.
  intros d0 h k R L. exists (s_desc (st_sig (run (init d0) h) (k_sig k))), (domain_desc (run (init d0) h) (k_sig k)).
  assert (M : linked (run (init d0) h) k = false).
  { destruct (linked (run (init d0) h) k) eqn:X; [|reflexivity]. apply (linked_iff d0 h k R) in X. contradiction. }
  split; [apply describes_now|]. split; [apply domain_desc_ok|]. split.
  - cbn [step]. unfold connect. rewrite R. unfold linked in M. rewrite M. reflexivity.
  - rewrite run_app, log_step by apply wf_run. cbn [added]. rewrite conn_eqb_refl, R, M. reflexivity.
Qed.

(** At every moment of every history the last value descriptor a consumer was
    sent is the current one. *)
Theorem c25_value : forall d0 h k v, k_remote k = false -> Linked h k -> Describes d0 h (k_sig k) v ->
  known_value (st_log (run (init d0) h) k) None = Some v.
Proof.
  intros d0 h k v R L D. apply (linked_iff d0 h k R) in L. rewrite (value_known d0 h k L).
  f_equal. exact (describes_det d0 h _ _ _ (describes_now d0 h _) D).
Qed.

(** The packets in a connection: each was handed to the signal by one call, at
    which the last value descriptor before it in the connection was current. *)
Theorem c25_packets_value : forall d0 h k l1 p l2, (forall o, In o h -> whole o) -> k_remote k = false ->
  st_log (run (init d0) h) k = l1 ++ IPk p :: l2 ->
  exists h1 o h2 v, h = h1 ++ o :: h2 /\ In p (packets_of o (k_sig k)) /\ Linked h1 k /\ Active h1 (k_sig k) /\
    Describes d0 h1 (k_sig k) v /\ known_value l1 None = Some v.
Proof.
  intros d0 h k l1 p l2 Wh R H.
  destruct (packet_origin d0 h k l1 p l2 Wh H) as (h1 & o & h2 & ps & E & L & A & I1 & El).
  exists h1, o, h2, (s_desc (st_sig (run (init d0) h1) (k_sig k))).
  split; [exact E|]. split; [exact I1|]. split; [apply (linked_iff d0 h1 k R); exact L|]. split; [apply (active_iff d0); exact A|].
  split; [apply describes_now|]. rewrite El, known_value_app, known_value_packets. apply value_known. exact L.
Qed.

(** Under [Careful] histories the same holds of the domain descriptor. *)
Theorem c25_packets_partial : forall d0 h k l1 p l2, Careful d0 h -> k_remote k = false ->
  st_log (run (init d0) h) k = l1 ++ IPk p :: l2 ->
  exists h1 o h2 v d, h = h1 ++ o :: h2 /\ In p (packets_of o (k_sig k)) /\
    Describes d0 h1 (k_sig k) v /\ known_value l1 None = Some v /\
    DomainDesc (run (init d0) h1) (k_sig k) d /\ known_domain l1 None = Some d.
Proof.
  intros d0 h k l1 p l2 C R H.
  destruct (packet_origin d0 h k l1 p l2 (careful_whole d0 h C) H) as (h1 & o & h2 & ps & E & L & A & I1 & El).
  exists h1, o, h2, (s_desc (st_sig (run (init d0) h1) (k_sig k))), (domain_desc (run (init d0) h1) (k_sig k)).
  split; [exact E|]. split; [exact I1|]. split; [apply describes_now|]. split.
  - rewrite El, known_value_app, known_value_packets. apply value_known. exact L.
  - split; [apply domain_desc_ok|]. rewrite El, known_domain_app, known_domain_packets.
    apply domain_known; [|exact L]. exact (careful_prefix d0 h C _ _ E).
Qed.

(** A connection holds exactly the packets sent while it was made and the
    signal was active, in order. *)
Theorem c25_delivery : forall d0 h k, (forall o, In o h -> whole o) -> k_remote k = false ->
  Sent h k (data (st_log (run (init d0) h) k)).
Proof. intros. apply sent_now; assumption. Qed.
Theorem c25_sent_determined : forall h k l m, Sent h k l -> Sent h k m -> l = m.
Proof. exact sent_det. Qed.

(** A signal is told in turn that it is listened to and that it is not, and
    what it was told last is right. *)
Theorem c25_listened : forall d0 h s, (forall t, ~ In (Remove t) h) ->
  Alternates true (s_told (st_sig (run (init d0) h) s)) /\
  (listened (s_told (st_sig (run (init d0) h) s)) = true <-> exists k, k_sig k = s /\ k_remote k = false /\ Linked h k).
Proof.
  intros d0 h s N. destruct (told_run d0 h s N) as [A B]. split; [exact A|]. rewrite B. clear A B.
  assert (W := wf_run d0 h). split.
  - destruct (s_conns (st_sig (run (init d0) h) s)) as [|k l] eqn:E; [discriminate|intros _].
    assert (Hk : In k (s_conns (st_sig (run (init d0) h) s))) by (rewrite E; left; reflexivity).
    destruct (wf_sig _ W _ _ Hk) as [E1 E2]. exists k. split; [exact E1|]. split; [exact E2|].
    apply (linked_iff d0 h k E2). unfold linked. rewrite E1. apply mem_iff. exact Hk.
  - intros (k & E1 & E2 & L). apply (linked_iff d0 h k E2) in L. unfold linked in L. rewrite E1 in L.
    destruct (s_conns (st_sig (run (init d0) h) s)); [discriminate L|reflexivity].
Qed.

(** C45: the last value is what the history says. *)
Theorem c45_last_value : forall d0 h s, LastValue h s (s_last (st_sig (run (init d0) h) s)).
Proof. exact last_now. Qed.
Theorem c45_determined : forall h s v w, LastValue h s v -> LastValue h s w -> v = w.
Proof. exact last_det. Qed.

(* ---------- cases that meet the hypotheses ---------- *)
Definition ka := mkK 0 0 false.
Definition kb := mkK 0 1 false.
Definition d1 (s : sid) : option desc := Some (100 + s).
Definition story : list op :=
  [SetDomain 0 (Some 1); Connect ka; Send 0 (mkP 1 5); SetDesc 1 (Some 7) false; Connect kb;
   SendMany 0 [mkP 2 5; mkP 3 5]; SetActive 0 false; Send 0 (mkP 4 5); SetDesc 0 (Some 8) false;
   SetActive 0 true; Disconnect ka; Send 0 (mkP 5 5)].

Example c25_story : st_log (run (init d1) story) ka =
  [IEv (Some (Some 100)) (Some (Some 101)); IPk (mkP 1 5); IEv None (Some (Some 7)); IPk (mkP 2 5); IPk (mkP 3 5);
   IEv (Some (Some 8)) None] /\
  st_log (run (init d1) story) kb =
  [IEv (Some (Some 100)) (Some (Some 7)); IPk (mkP 2 5); IPk (mkP 3 5); IEv (Some (Some 8)) None; IPk (mkP 5 5)] /\
  s_told (st_sig (run (init d1) story) 0) = [true] /\ s_last (st_sig (run (init d1) story) 0) = Some 5.
Proof. vm_compute. repeat split. Qed.

Lemma careful_list d0 : forall h2 h1, Careful d0 h1 ->
  (fix go (h1 h2 : list op) : Prop := match h2 with [] => True | o :: r => careful (run (init d0) h1) o /\ go (h1 ++ [o]) r end) h1 h2 ->
  Careful d0 (h1 ++ h2).
Proof.
  induction h2 as [|o r IH]; intros h1 C H; [rewrite app_nil_r; exact C|].
  destruct H as [H1 H2]. replace (h1 ++ o :: r) with ((h1 ++ [o]) ++ r) by (rewrite <- app_assoc; reflexivity).
  apply IH; [constructor; assumption|exact H2].
Qed.
Example c25_careful_meets : Careful d1 story /\ Linked story kb /\ Active story 0.
Proof.
  split; [|split].
  - apply (careful_list d1 story []); [constructor|]. cbn [story app careful]. repeat split; try exact Logic.I.
    + vm_compute. intro H. apply H. reflexivity.
    + intros s Hs _. destruct s as [|[|s]]; vm_compute in *; reflexivity.
    + intros s Hs Hc. destruct s as [|[|s]]; vm_compute in Hs; discriminate Hs.
  - apply (linked_iff d1); [reflexivity|vm_compute; reflexivity].
  - apply (active_iff d1). vm_compute. reflexivity.
Qed.

(* ---------- what does not hold ---------- *)

(** An inactive value signal does not pass on that its domain descriptor
    changed, and does not catch up when it is activated. *)
Theorem c25_inactive_refuted :
  ~ (forall d0 h k l1 p l2, (forall o, In o h -> whole o) -> k_remote k = false -> st_log (run (init d0) h) k = l1 ++ IPk p :: l2 ->
     exists h1 o h2 d, h = h1 ++ o :: h2 /\ In p (packets_of o (k_sig k)) /\
       DomainDesc (run (init d0) h1) (k_sig k) d /\ known_domain l1 None = Some d).
Proof.
  intro H.
  destruct (H d1 [SetDomain 0 (Some 1); Connect ka; SetActive 0 false; SetDesc 1 (Some 7) false; SetActive 0 true; Send 0 (mkP 1 5)] ka
             [IEv (Some (Some 100)) (Some (Some 101))] (mkP 1 5) []) as (h1 & o & h2 & d & E & I1 & D & K).
  - intros o Ho. cbn [In] in Ho. intuition (subst; exact Logic.I).
  - reflexivity.
  - vm_compute. reflexivity.
  - repeat (destruct h1 as [|? h1]; [inversion E; subst; cbn in I1; try contradiction|cbn [app] in E; inversion E as [[E1 E2]]; subst; clear E; rename E2 into E]).
    + vm_compute in D. vm_compute in K. congruence.
Qed.

(** Replacing the domain signal is not announced. *)
Theorem c25_domain_refuted :
  exists d0 h k, Linked h k /\ k_remote k = false /\ Active h (k_sig k) /\ (forall o, In o h -> whole o) /\
    forall d, DomainDesc (run (init d0) h) (k_sig k) d -> known_domain (st_log (run (init d0) h) k) None <> Some d.
Proof.
  exists d1, [SetDomain 0 (Some 1); Connect ka; SetDomain 0 (Some 2)], ka.
  split; [apply (linked_iff d1); [reflexivity|vm_compute; reflexivity]|]. split; [reflexivity|].
  split; [apply (active_iff d1); vm_compute; reflexivity|].
  split; [intros o Ho; cbn [In] in Ho; intuition (subst; exact Logic.I)|].
  intros d D. vm_compute in D. subst d. vm_compute. discriminate.
Qed.

(** Nor is the removal of the domain signal. *)
Theorem c25_removed_refuted :
  exists d0 h k, Linked h k /\ k_remote k = false /\ Active h (k_sig k) /\ (forall o, In o h -> whole o) /\
    forall d, DomainDesc (run (init d0) h) (k_sig k) d -> known_domain (st_log (run (init d0) h) k) None <> Some d.
Proof.
  exists d1, [SetDomain 0 (Some 1); Connect ka; Remove 1], ka.
  split; [apply (linked_iff d1); [reflexivity|vm_compute; reflexivity]|]. split; [reflexivity|].
  split; [apply (active_iff d1); vm_compute; reflexivity|].
  split; [intros o Ho; cbn [In] in Ho; intuition (subst; exact Logic.I)|].
  intros d D. vm_compute in D. subst d. vm_compute. discriminate.
Qed.

(** A send that is overtaken by a change of the descriptor puts a packet of
    the old descriptor after the event for the new one; one overtaken by a
    disconnection still puts it in the queue. *)
Theorem c25_race_refuted :
  st_log (run (init d1) [Connect ka; Copy 0 (mkP 1 5); SetDesc 0 (Some 8) false; Put 0]) ka =
    [IEv (Some (Some 100)) (Some None); IEv (Some (Some 8)) None; IPk (mkP 1 5)] /\
  st_log (run (init d1) [Connect ka; Copy 0 (mkP 1 5); Disconnect ka; Put 0]) ka =
    [IEv (Some (Some 100)) (Some None); IPk (mkP 1 5)].
Proof. vm_compute. split; reflexivity. Qed.

(** Removing a signal that is listened to does not tell it that nobody listens
    any more. *)
Theorem c25_listened_refuted :
  exists d0 h s, listened (s_told (st_sig (run (init d0) h) s)) = true /\ forall k, k_sig k = s -> k_remote k = false -> ~ Linked h k.
Proof.
  exists d1, [Connect ka; Remove 0], 0. split; [vm_compute; reflexivity|].
  intros k E R L. apply (linked_iff d1 _ k R) in L. unfold linked in L. rewrite E in L. vm_compute in L. discriminate L.
Qed.

(** Of packets sent together only the last one is looked at: when it has no
    samples, the samples before it are not remembered. *)
Theorem c45_batch_refuted :
  s_last (st_sig (run (init d1) [Send 0 (mkP 1 5); SendMany 0 [mkP 2 5; mkP 3 0]]) 0) = Some 1 /\
  s_last (st_sig (run (init d1) [Send 0 (mkP 1 5); Send 0 (mkP 2 5); Send 0 (mkP 3 0)]) 0) = Some 2.
Proof. vm_compute. split; reflexivity. Qed.

(** A value set by hand is returned even by a signal that keeps no values. *)
Theorem c45_hand_refuted :
  keep_of [KeepLast 0 false; SetLast 0 9] 0 = false /\
  s_last (st_sig (run (init d1) [KeepLast 0 false; SetLast 0 9]) 0) = Some 9.
Proof. vm_compute. split; reflexivity. Qed.

Print Assumptions c25_first.
Print Assumptions c25_connect.
Print Assumptions c25_value.
Print Assumptions c25_packets_value.
Print Assumptions c25_packets_partial.
Print Assumptions c25_delivery.
Print Assumptions c25_sent_determined.
Print Assumptions c25_listened.
Print Assumptions c45_last_value.
Print Assumptions c45_determined.
Print Assumptions c25_inactive_refuted.
Print Assumptions c25_domain_refuted.
Print Assumptions c25_removed_refuted.
Print Assumptions c25_race_refuted.
Print Assumptions c25_listened_refuted.
Print Assumptions c45_batch_refuted.
Print Assumptions c45_hand_refuted.
