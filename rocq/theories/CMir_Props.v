(** * C55: the client's component tree follows the device's *)

From Coq Require Import List Arith Bool Lia.
From Verif Require Import CMir_Model CMir_Spec CMir_Proofs CMir_Steps CMir_Run.
Import ListNotations.

(** A client fetches the device and starts to listen.  After any history of
    tame operations, however they are grouped into notifications, the client
    shows the device: every component that is not private, with its name,
    description, flags, tags, kind and statuses, and nothing else.  [gone]:
    whatever is sent of a component that was removed before the notification
    with it went out. *)
Theorem c55_mirror_follows_partial gone s bs :
  device s -> tame_hist s bs ->
  exists s' c',
    w_run gone (mkWorld s None false None) (HFetch :: HAccept :: batches bs)
    = mkWorld s' (Some c') true None /\
    mirrors c' (s_tree s').
Proof.
  intros D T.
  destruct (hist_mirrors gone bs s (cl_connect (s_tree s)) None D T
              (connect_closed (s_tree s)) (connect_mirrors s D))
    as (s' & c' & E & D' & CL & M).
  exists s', c'. split; [exact E|exact M].
Qed.

(** So a client that was there all along and one that connects at the end show
    the same. *)
Theorem c55_clients_agree_partial gone s bs :
  device s -> tame_hist s bs ->
  exists s' c',
    w_run gone (connected s) (batches bs) = mkWorld s' (Some c') true None /\
    agree c' (cl_connect (s_tree s')).
Proof.
  intros D T.
  destruct (hist_mirrors gone bs s (cl_connect (s_tree s)) None D T
              (connect_closed (s_tree s)) (connect_mirrors s D))
    as (s' & c' & E & D' & CL & M).
  exists s', c'. split; [exact E|]. intro q.
  pose proof (M q) as [M1 M2]. pose proof (connect_mirrors s' D' q) as [N1 N2].
  destruct (hidden_dec (s_tree s') q) as [H|H].
  - rewrite (M2 (or_intror H)), (N2 (or_intror H)). exact I.
  - destruct (s_tree s' q) as [[o n]|] eqn:E'.
    + destruct (M1 n (ex_intro _ o E') H) as (m & X & V).
      destruct (N1 n (ex_intro _ o E') H) as (m' & X' & V').
      rewrite X, X'. intro k. rewrite V, V'. reflexivity.
    + rewrite (M2 (or_introl eq_refl)), (N2 (or_introl eq_refl)). exact I.
Qed.

(** Reconnecting brings the client up to date with whatever happened, when
    what both still have in common is of the same kind and has the same tags
    and no lost statuses, and when the device has no private components. *)
Theorem c55_reconnect_partial gone s c a sn :
  device s -> updatable c (s_tree s) ->
  exists c', w_run gone (mkWorld s (Some c) a sn) [HRefetch; HReapply]
             = mkWorld s (Some c') true None /\
             mirrors c' (s_tree s).
Proof.
  intros (R & RT & LT & NM) U.
  exists (cl_update c [] (nodes (s_tree s))). split; [reflexivity|].
  apply update_mirrors; [exact RT|exact NM|exact U].
Qed.

(** ** What the operations do on the device *)

Lemma only_put s p o n k v :
  s_tree s p = Some (o, n) ->
  only_set s (mkSrv (put_node (s_tree s) p o (set_attr n k v)) (s_next s)) p k v.
Proof.
  intro E. unfold only_set, held. cbn [s_tree].
  split; [rewrite put_node_same; apply set_attr_same|]. split.
  - intros q k' N. destruct (list_eq_dec Nat.eq_dec q p) as [->|NE].
    + rewrite put_node_same, E. apply set_attr_other.
      destruct N as [N|N]; [contradiction|exact N].
    + rewrite (put_node_other _ _ _ _ _ NE). reflexivity.
  - intro q. apply oid_same_none. exact (put_oid _ _ _ _ _ q E).
Qed.

Lemma only_same s p k v : held s p k = Some v -> only_set s s p k v.
Proof. intro E. split; [exact E|]. split; [reflexivity|]. intro q. reflexivity. Qed.

(** Setting an attribute, the tags or a status sets just that. *)
Theorem c55_set_on_device s p v :
  (forall a, held s p (setter_attr a) <> None ->
     only_set s (fst (op_step s (OSet p a v))) p (setter_attr a) v) /\
  (s_tree s p <> None -> only_set s (fst (op_step s (OTags p v))) p ATags v) /\
  (forall k, held s p (AStatus k) <> None ->
     only_set s (fst (op_step s (OStatus p k v))) p (AStatus k) v) /\
  (forall k, s_tree s p <> None -> held s p (AStatus k) = None ->
     only_set s (fst (op_step s (OAddStatus p k v))) p (AStatus k) v).
Proof.
  split; [|split; [|split]].
  - intros a H. cbn [op_step]. unfold op_set.
    destruct (s_tree s p) as [[o n]|] eqn:E; unfold held in H; rewrite E in H; [|contradiction].
    destruct (n (setter_attr a)) as [w|] eqn:W; [|contradiction].
    destruct a; cbn [setter_attr] in *; rewrite W;
      try (destruct (Nat.eqb v w) eqn:Q; [apply Nat.eqb_eq in Q; subst w;
             apply only_same; unfold held; cbn [fst]; rewrite E; exact W|]);
      exact (only_put s p o n _ v E).
  - intro H. cbn [op_step]. unfold op_tags.
    destruct (s_tree s p) as [[o n]|] eqn:E; [|contradiction]. exact (only_put s p o n _ v E).
  - intros k H. cbn [op_step]. unfold op_status.
    destruct (s_tree s p) as [[o n]|] eqn:E; unfold held in H; rewrite E in H; [|contradiction].
    destruct (n (AStatus k)) as [w|] eqn:W; [|contradiction].
    destruct (Nat.eqb v w) eqn:Q; [|exact (only_put s p o n _ v E)].
    apply Nat.eqb_eq in Q. subst w. apply only_same. unfold held. cbn [fst]. rewrite E. exact W.
  - intros k H H'. cbn [op_step]. unfold op_add_status. unfold held in H'.
    destruct (s_tree s p) as [[o n]|] eqn:E; [|contradiction].
    rewrite H'. exact (only_put s p o n _ v E).
Qed.

(** Adding puts the component with all inside it at the free local id;
    removing takes away just what is there; loading leaves the rest alone and
    gives the components the loaded names, descriptions and flags. *)
Theorem c55_tree_on_device s p i c keep :
  (s_tree s p <> None -> s_tree s (p ++ [i]) = None ->
   let s' := fst (op_step s (OAdd p i c)) in
   (forall r, nodes (s_tree s') ((p ++ [i]) ++ r) = comp_at c r) /\
   (forall q, ~ leads_to (p ++ [i]) q -> s_tree s' q = s_tree s q)) /\
  (s_tree s (p ++ [i]) <> None ->
   let s' := fst (op_step s (ORemove p i)) in
   (forall q, leads_to (p ++ [i]) q -> s_tree s' q = None) /\
   (forall q, ~ leads_to (p ++ [i]) q -> s_tree s' q = s_tree s q)) /\
  (s_tree s p <> None ->
   let s' := fst (op_step s (OUpdate p c keep)) in
   (forall r, s_tree s' (p ++ r) = None <-> comp_at c r = None) /\
   (forall r n k, comp_at c r = Some n ->
      k = AName \/ k = ADesc \/ k = AVisible \/ k = AActive ->
      held s' (p ++ r) k = n k) /\
   (forall q, ~ leads_to p q -> s_tree s' q = s_tree s q)).
Proof.
  split; [|split].
  - intros E A. cbn [op_step]. unfold op_add.
    destruct (s_tree s p) as [x|]; [|contradiction]. rewrite A. cbn [fst s_tree]. split.
    + intro r. unfold nodes. rewrite graft_under. destruct (comp_at c r); reflexivity.
    + intros q N. exact (graft_out _ _ _ _ _ N).
  - intro E. cbn [op_step]. unfold op_remove.
    destruct (s_tree s (p ++ [i])); [|contradiction]. cbn [fst s_tree]. split.
    + intros q L. exact (prune_in _ _ _ L).
    + intros q N. exact (prune_out _ _ _ N).
  - intro E. cbn [op_step]. unfold op_update.
    destruct (s_tree s p); [|contradiction]. cbn [fst s_tree]. split; [|split].
    + intro r. apply load_none.
    + intros r n k C K. unfold held. cbn [s_tree]. rewrite load_under, C.
      destruct (s_tree s (p ++ r)) as [[o' old]|]; [|reflexivity].
      destruct (stays keep r); [|reflexivity].
      destruct K as [->|[->|[->| ->]]]; reflexivity.
    + intros q N. exact (load_out _ _ _ _ _ _ N).
Qed.

(** ** Examples *)

Lemma device_of c :
  (forall r n, comp_at c r = Some n -> n AName <> Some 0) -> device (consists_of c).
Proof.
  intro N. unfold consists_of. split; [|split; [|split]]; cbn [s_tree s_next].
  - unfold graft. cbn [below comp_at]. discriminate.
  - intros r q [x ->]. unfold graft. cbn [below].
    intros X Y. apply X.
    destruct (comp_at c (r ++ x)) as [n|] eqn:E; [|reflexivity].
    exfalso. assert (Q : comp_at c r <> None) by (apply (comp_at_app c r x); congruence).
    destruct (comp_at c r); [discriminate|contradiction].
  - intros q o n. unfold graft. cbn [below].
    destruct (comp_at c q); [|discriminate]. intro E. injection E as <- _. lia.
  - intros q n [o E]. cbn [s_tree] in E. unfold graft in E. cbn [below] in E.
    destruct (comp_at c q) as [m|] eqn:C; [|discriminate]. injection E as _ <-.
    exact (N q m C).
Qed.

Fixpoint named (c : comp) : bool :=
  match c with
  | Comp n ks =>
      negb (match n AName with Some 0 => true | _ => false end)
      && forallb (fun k => named (snd k)) ks
  end.

Lemma named_at c : named c = true ->
  forall r n, comp_at c r = Some n -> n AName <> Some 0.
Proof.
  intros H r. revert c H. induction r as [|i r IH]; intros [n0 ks] H n E;
    cbn [named] in H; apply andb_true_iff in H; destruct H as [H1 H2]; cbn [comp_at comp_node comp_kids] in E.
  - injection E as <-. intro X. rewrite X in H1. discriminate.
  - destruct (kid i ks) as [c'|] eqn:K; [|discriminate].
    apply (IH c'); [|exact E]. clear E IH.
    induction ks as [|[j d] ks IH]; [discriminate|].
    cbn [kid] in K. cbn [forallb] in H2. apply andb_true_iff in H2. destruct H2 as [H2 H3].
    destruct (Nat.eqb i j); [injection K as <-; exact H2|exact (IH H3 K)].
Qed.

(** A device with a folder of signals (one public, one private) and a folder
    of function blocks (one, with a status). *)
Definition ex_sigs : comp :=
  Comp (state 2 0 0 None None)
    [(1, Comp (state 11 5 1 (Some 1) None) []);
     (2, Comp (state 12 5 1 (Some 0) None) [])].
Definition ex_fb (kind tags : nat) : comp :=
  Comp (state 7 tags kind None (Some 3)) [].
Definition ex_fbs : comp := Comp (state 3 0 0 None None) [(1, ex_fb 20 6)].
Definition ex_root : comp :=
  Comp (state 1 0 0 None None) [(1, ex_sigs); (2, ex_fbs)].
Definition ex_dev : srv := consists_of ex_root.

Lemma ex_dev_ok : device ex_dev.
Proof. apply device_of. apply named_at. vm_compute. reflexivity. Qed.

Definition nothing : nat -> mirror := fun _ _ => None.

(** A history that meets the hypotheses: a block with a private signal is
    added, renamed, gets a status and is removed in one remote call; then
    another one; then a configuration is loaded into the block folder. *)
Definition ex_block : comp :=
  Comp (state 9 1 21 None (Some 0))
    [(4, Comp (state 13 0 1 (Some 0) None) []); (5, Comp (state 14 0 1 (Some 1) None) [])].

Definition ex_hist : list (list op) :=
  [[OAdd [2] 8 ex_block; OSet [2; 8] SName 30; OStatus [2; 8] 0 9; ORemove [2] 8];
   [OAdd [2] 8 ex_block; OTags [2; 8] 17; OSet [2; 8; 5] SActive 0];
   [OSet [1; 2] SName 44];
   [ORemove [2] 8];
   [OUpdate [2] (Comp (state 31 0 0 None None)
                   [(1, Comp (state 32 6 20 None (Some 3)) []);
                    (3, Comp (state 33 1 22 None None) [])])
            (fun _ => true)]].

Example c55_history_tame : tame_hist ex_dev ex_hist.
Proof.
  repeat match goal with
  | |- tame_hist _ _ => cbn [tame_hist ex_hist]
  | |- tame_all _ _ /\ _ => split
  | |- tame_all _ _ => cbn [tame_all]
  | |- tame _ _ /\ _ => split
  | |- True => exact I
  end; cbn [tame];
  try exact I;
  try (split; [discriminate|]; intro X; discriminate);
  try (split; [apply named_at; vm_compute; reflexivity|];
       intros n X; injection X as <-; vm_compute; discriminate).
  split; [apply named_at; vm_compute; reflexivity|].
  split.
  - intros r n NE. destruct r as [|i r]; [contradiction|]. cbn [comp_at comp_kids kid].
    destruct (Nat.eqb i 1) eqn:I1.
    + destruct r as [|j r]; cbn [comp_at comp_kids kid comp_node]; [|discriminate].
      intro X. injection X as <-. vm_compute. discriminate.
    + destruct (Nat.eqb i 3) eqn:I3; [|discriminate].
      destruct r as [|j r]; cbn [comp_at comp_kids kid comp_node]; [|discriminate].
      intro X. injection X as <-. vm_compute. discriminate.
  - intros r n NE H C. split; [reflexivity|].
    destruct r as [|i r]; [contradiction|]. cbn [comp_at comp_kids kid] in C.
    destruct (Nat.eqb i 1) eqn:I1.
    + apply Nat.eqb_eq in I1. subst i.
      destruct r as [|j r]; cbn [comp_at comp_kids kid comp_node] in C; [|contradiction].
      destruct H as [o H]. vm_compute in H. injection H as _ <-. vm_compute. discriminate.
    + destruct (Nat.eqb i 3) eqn:I3; [|contradiction].
      apply Nat.eqb_eq in I3. subst i.
      destruct r as [|j r]; cbn [comp_at comp_kids kid comp_node] in C; [|contradiction].
      destruct H as [o H]. vm_compute in H. discriminate.
Qed.

(** What it comes to. *)
Example c55_history_result :
  let w := w_run nothing (connected ex_dev) (batches ex_hist) in
  map (fun q => seen w q AName) [[2]; [2; 1]; [2; 3]; [2; 8]; [1; 1]; [1; 2]]
  = [Some 31; Some 32; Some 33; None; Some 11; None].
Proof. vm_compute. reflexivity. Qed.

Example c55_reconnect_case :
  updatable (fun q => match q with [] => Some (state 4 0 0 None None)
                              | [7] => Some (state 5 0 0 None None)
                              | _ => None end)
            (s_tree (consists_of (Comp (state 1 0 0 None None)
                                       [(2, ex_fb 20 6)]))).
Proof.
  split; [discriminate|]. split.
  - intros [|i q] n [o H] NE; [contradiction|]. unfold consists_of, graft in H.
    cbn [s_tree below comp_at comp_kids kid] in H.
    destruct (Nat.eqb i 2); [|discriminate].
    destruct q as [|j q]; cbn [ex_fb comp_at comp_kids kid comp_node] in H; [|discriminate].
    injection H as _ <-. vm_compute. discriminate.
  - intros [|i q] n m [o H] E.
    + vm_compute in H. injection H as _ <-. injection E as <-.
      split; [reflexivity|]. split; [reflexivity|]. split; [reflexivity|].
      intros k _. destruct k; reflexivity.
    + unfold consists_of, graft in H. cbn [s_tree below comp_at comp_kids kid] in H.
      destruct (Nat.eqb i 2) eqn:I2; [|discriminate]. apply Nat.eqb_eq in I2. subst i.
      destruct q as [|j q]; discriminate E.
Qed.

(** ** What the client does not follow *)

(** A signal the client did not get because it was private and that is made
    public never comes. *)
Theorem c55_made_public_refuted :
  exists s q, device s /\
    let w := w_run nothing (connected s) [HBatch [OSet q SPublic 1]] in
    real w q APublic = Some 1 /\ (forall k, seen w q k = None) /\
    exists k, real w q k <> None.
Proof.
  exists ex_dev, [1; 2]. split; [exact ex_dev_ok|]. cbn zeta.
  split; [vm_compute; reflexivity|]. split.
  - intro k. vm_compute. reflexivity.
  - exists AName. vm_compute. discriminate.
Qed.

(** A signal made private is shown on, and as public. *)
Theorem c55_made_private_refuted :
  exists s q, device s /\
    let w := w_run nothing (connected s) [HBatch [OSet q SPublic 0]] in
    real w q APublic = Some 0 /\ seen w q APublic = Some 1.
Proof.
  exists ex_dev, [1; 1]. split; [exact ex_dev_ok|]. cbn zeta.
  split; vm_compute; reflexivity.
Qed.

(** Loading a configuration that changes nothing makes the private signals
    appear at the client. *)
Theorem c55_private_after_load_refuted :
  exists s q, device s /\
    let w0 := connected s in
    let w := w_run nothing w0 [HBatch [OUpdate [] ex_root (fun _ => true)]] in
    real w q APublic = Some 0 /\ seen w0 q AName = None /\
    seen w q AName = Some 12.
Proof.
  exists ex_dev, [1; 2]. split; [exact ex_dev_ok|]. cbn zeta.
  split; [vm_compute; reflexivity|]. split; vm_compute; reflexivity.
Qed.

(** A private signal added while the client is connected is shown to it. *)
Theorem c55_private_added_refuted :
  exists s q, device s /\
    let w := w_run nothing (connected s)
               [HBatch [OAdd [1] 6 (Comp (state 13 0 1 (Some 0) None) [])]] in
    real w q APublic = Some 0 /\ seen w q APublic = Some 0 /\
    cl_connect (s_tree (w_srv w)) q = None.
Proof.
  exists ex_dev, [1; 6]. split; [exact ex_dev_ok|]. cbn zeta.
  split; [vm_compute; reflexivity|]. split; vm_compute; reflexivity.
Qed.

(** Loading a configuration in which a function block of another type has the
    local id of one that was there: the client keeps showing the old type and
    the old tags, and a status the new block does not have. *)
Theorem c55_replaced_block_refuted :
  exists s q, device s /\
    let w := w_run nothing (connected s)
               [HBatch [OUpdate [2] (Comp (state 3 0 0 None None)
                          [(1, Comp (state 8 9 25 None None) [])])
                          (fun _ => false)]] in
    seen w q AName = real w q AName /\
    real w q AKind = Some 25 /\ seen w q AKind = Some 20 /\
    real w q ATags = Some 9 /\ seen w q ATags = Some 6 /\
    real w q (AStatus 0) = None /\ seen w q (AStatus 0) = Some 3.
Proof.
  exists ex_dev, [2; 1]. split; [exact ex_dev_ok|]. cbn zeta.
  repeat (split; [vm_compute; reflexivity|]). vm_compute. reflexivity.
Qed.

(** A status that a component gets after the client connected never comes,
    nor do its later values. *)
Theorem c55_status_added_refuted :
  exists s q k, device s /\
    let w := w_run nothing (connected s)
               [HBatch [OAddStatus q k 1]; HBatch [OStatus q k 2]] in
    real w q (AStatus k) = Some 2 /\ seen w q (AStatus k) = None.
Proof.
  exists ex_dev, [2; 1], 5. split; [exact ex_dev_ok|]. cbn zeta.
  split; vm_compute; reflexivity.
Qed.

(** A component whose name is made empty: the client that is connected shows
    the empty name, one that connects later shows the local id. *)
Theorem c55_empty_name_refuted :
  exists s q, device s /\
    let w := w_run nothing (connected s) [HBatch [OSet q SName 0]] in
    real w q AName = Some 0 /\ seen w q AName = Some 0 /\
    seen (w_run nothing w [HFetch]) q AName = Some 2.
Proof.
  exists ex_dev, [1; 1]. split; [exact ex_dev_ok|]. cbn zeta.
  split; [vm_compute; reflexivity|]. split; vm_compute; reflexivity.
Qed.

(** A change made after the device was fetched and before the client starts
    to accept notifications is lost. *)
Theorem c55_change_while_connecting_refuted :
  exists s q, device s /\
    let w := w_run nothing (mkWorld s None false None)
               [HFetch; HBatch [OSet q SName 70]; HAccept] in
    real w q AName = Some 70 /\ seen w q AName = Some 11.
Proof.
  exists ex_dev, [1; 1]. split; [exact ex_dev_ok|]. cbn zeta.
  split; vm_compute; reflexivity.
Qed.

(** Tags changed while the connection was lost stay as they were at the
    client, also after reconnecting. *)
Theorem c55_tags_after_reconnect_refuted :
  exists s q, device s /\
    let w := w_run nothing (connected s)
               [HLost; HBatch [OTags q 99]; HRefetch; HReapply] in
    real w q ATags = Some 99 /\ seen w q ATags = Some 6.
Proof.
  exists ex_dev, [2; 1]. split; [exact ex_dev_ok|]. cbn zeta.
  split; vm_compute; reflexivity.
Qed.

(** A change the client hears of after the device was serialized for the
    reconnection and before it has applied that is undone again. *)
Theorem c55_change_while_reconnecting_refuted :
  exists s q, device s /\
    let w1 := w_run nothing (connected s)
                [HLost; HRefetch; HBatch [OSet q SName 70]] in
    let w := w_run nothing w1 [HReapply] in
    seen w1 q AName = Some 70 /\
    real w q AName = Some 70 /\ seen w q AName = Some 11.
Proof.
  exists ex_dev, [1; 1]. split; [exact ex_dev_ok|]. cbn zeta.
  split; [vm_compute; reflexivity|]. split; vm_compute; reflexivity.
Qed.

(** Two threads set the name of a component at once: the device ends with one
    name, and the last event carries the other. *)
Theorem c55_name_race_refuted :
  exists es,
    let s := n_run (mkN 0 (fun _ => None) []) es in
    es = [NWrite 1 5; NRead 1; NWrite 2 6; NRead 2; NPush 2; NPush 1] /\
    n_name s = 6 /\ heard s = 5.
Proof.
  exists [NWrite 1 5; NRead 1; NWrite 2 6; NRead 2; NPush 2; NPush 1].
  cbn zeta. split; [reflexivity|]. split; vm_compute; reflexivity.
Qed.

(** One call at a time: the last event carries the name. *)
Theorem c55_names_in_turn calls s :
  calls <> [] ->
  let s' := n_run s (concat (map (fun c => [NWrite (fst c) (snd c);
                                             NRead (fst c); NPush (fst c)]) calls)) in
  heard s' = n_name s' /\ n_name s' = snd (last calls (0, 0)).
Proof.
  intro NE. destruct (exists_last NE) as (l & [t v] & ->). cbn zeta.
  rewrite map_app, concat_app. unfold n_run. rewrite fold_left_app.
  rewrite last_last.
  match goal with |- context [fold_left n_do (concat (map ?g [?x])) ?a] => set (s0 := a) end.
  cbn [map concat app fold_left fst snd n_do n_held n_name n_log].
  rewrite Nat.eqb_refl. cbn [n_name n_log]. unfold heard. cbn [n_log n_name].
  rewrite last_last. split; reflexivity.
Qed.

Print Assumptions c55_mirror_follows_partial.
Print Assumptions c55_clients_agree_partial.
Print Assumptions c55_reconnect_partial.
Print Assumptions c55_set_on_device.
Print Assumptions c55_tree_on_device.
Print Assumptions c55_made_public_refuted.
Print Assumptions c55_made_private_refuted.
Print Assumptions c55_private_after_load_refuted.
Print Assumptions c55_private_added_refuted.
Print Assumptions c55_replaced_block_refuted.
Print Assumptions c55_status_added_refuted.
Print Assumptions c55_empty_name_refuted.
Print Assumptions c55_change_while_connecting_refuted.
Print Assumptions c55_tags_after_reconnect_refuted.
Print Assumptions c55_change_while_reconnecting_refuted.
Print Assumptions c55_name_race_refuted.
Print Assumptions c55_names_in_turn.
