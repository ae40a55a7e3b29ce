(** Signals: what holds along every history. *)
From Coq Require Import List Bool Arith Lia.
From Verif Require Import Sig_Model Sig_Spec Sig_Proofs.
Import ListNotations.

(* ---------- one call, field by field ---------- *)
Ltac set_at := rewrite set_sig_at;
  match goal with |- context [Nat.eqb ?t ?s] => let E := fresh "E" in destruct (Nat.eqb t s) eqn:E; [apply Nat.eqb_eq in E; subst|] end.

Lemma check_keep_fields x p : s_desc (check_keep x p) = s_desc x /\ s_active (check_keep x p) = s_active x /\
  s_dom (check_keep x p) = s_dom x /\ s_told (check_keep x p) = s_told x /\ s_conns (check_keep x p) = s_conns x /\
  s_public (check_keep x p) = s_public x /\ s_keepv (check_keep x p) = s_keepv x /\ s_keepp (check_keep x p) = s_keepp x.
Proof. unfold check_keep. destruct (s_keepp x) eqn:K; [destruct (0 <? p_count p)|]; repeat split; assumption. Qed.

Lemma set_domain_fields st s d t : wf st ->
  s_desc (st_sig (fst (set_domain st s d)) t) = s_desc (st_sig st t) /\
  s_active (st_sig (fst (set_domain st s d)) t) = s_active (st_sig st t) /\
  s_told (st_sig (fst (set_domain st s d)) t) = s_told (st_sig st t) /\
  s_conns (st_sig (fst (set_domain st s d)) t) = s_conns (st_sig st t) /\
  s_public (st_sig (fst (set_domain st s d)) t) = s_public (st_sig st t) /\
  s_keepv (st_sig (fst (set_domain st s d)) t) = s_keepv (st_sig st t) /\
  s_keepp (st_sig (fst (set_domain st s d)) t) = s_keepp (st_sig st t) /\
  s_last (st_sig (fst (set_domain st s d)) t) = s_last (st_sig st t) /\
  (t <> s -> s_dom (st_sig (fst (set_domain st s d)) t) = s_dom (st_sig st t)).
Proof.
  intro W. destruct (s_dlocked (st_sig st s)) eqn:L; [unfold set_domain; rewrite L; cbn [fst]; repeat split|].
  destruct (same_sig d (s_dom (st_sig st s))) eqn:D; [unfold set_domain; rewrite L, D; cbn [fst]; repeat split|].
  destruct (set_domain_sig st s d W L D) as [_ Q]. rewrite Q. cbn [with_refs s_desc s_active s_told s_conns s_public s_keepv s_keepp s_last s_dom].
  destruct (Nat.eqb t s) eqn:E; repeat split. intro N. apply Nat.eqb_eq in E. contradiction.
Qed.

Lemma removed_fields st s t :
  s_desc (st_sig (removed st s) t) = s_desc (st_sig st t) /\
  s_active (st_sig (removed st s) t) = s_active (st_sig st t) /\
  s_told (st_sig (removed st s) t) = s_told (st_sig st t) /\
  s_public (st_sig (removed st s) t) = s_public (st_sig st t) /\
  s_keepv (st_sig (removed st s) t) = s_keepv (st_sig st t) /\
  s_keepp (st_sig (removed st s) t) = s_keepp (st_sig st t) /\
  s_last (st_sig (removed st s) t) = s_last (st_sig st t) /\
  s_conns (st_sig (removed st s) t) = (if Nat.eqb t s then [] else s_conns (st_sig st t)) /\
  s_dom (st_sig (removed st s) t) = (if existsb (Nat.eqb t) (s_refs (st_sig st s)) then None else s_dom (st_sig st t)).
Proof.
  rewrite removed_sig. cbv zeta. destruct (Nat.eqb t s) eqn:E; [apply Nat.eqb_eq in E; subst t|]; destruct (existsb _ _); repeat split.
Qed.

Lemma connect_fields st k t :
  s_desc (st_sig (fst (connect st k)) t) = s_desc (st_sig st t) /\
  s_active (st_sig (fst (connect st k)) t) = s_active (st_sig st t) /\
  s_dom (st_sig (fst (connect st k)) t) = s_dom (st_sig st t) /\
  s_public (st_sig (fst (connect st k)) t) = s_public (st_sig st t) /\
  s_keepv (st_sig (fst (connect st k)) t) = s_keepv (st_sig st t) /\
  s_keepp (st_sig (fst (connect st k)) t) = s_keepp (st_sig st t) /\
  s_last (st_sig (fst (connect st k)) t) = s_last (st_sig st t).
Proof.
  unfold connect. destruct (k_remote k).
  - destruct (existsb _ _); cbn [fst]; [repeat split|]. set_at; repeat split.
  - destruct (existsb _ _); cbn [fst]; [repeat split|]. unfold enqueue; cbn [st_sig]. set_at; repeat split.
Qed.
Lemma disconnect_fields st k t :
  s_desc (st_sig (fst (disconnect st k)) t) = s_desc (st_sig st t) /\
  s_active (st_sig (fst (disconnect st k)) t) = s_active (st_sig st t) /\
  s_dom (st_sig (fst (disconnect st k)) t) = s_dom (st_sig st t) /\
  s_public (st_sig (fst (disconnect st k)) t) = s_public (st_sig st t) /\
  s_keepv (st_sig (fst (disconnect st k)) t) = s_keepv (st_sig st t) /\
  s_keepp (st_sig (fst (disconnect st k)) t) = s_keepp (st_sig st t) /\
  s_last (st_sig (fst (disconnect st k)) t) = s_last (st_sig st t).
Proof.
  unfold disconnect. destruct (k_remote k); destruct (existsb _ _); cbn [fst]; try (repeat split); set_at; repeat split.
Qed.

(** The signal a send leaves behind. *)
Lemma send_sig st s t p : st_sig (fst (send_one st s p)) t =
  if Nat.eqb t s && s_active (st_sig st s) then check_keep (st_sig st s) p else st_sig st t.
Proof. unfold send_one. destruct (s_active (st_sig st s)); cbn [fst]; [rewrite set_sig_at, andb_true_r; reflexivity|rewrite andb_false_r; reflexivity]. Qed.

Lemma rev_last {A} (l : list A) : nth_error l (length l - 1) = match rev l with [] => None | x :: _ => Some x end.
Proof.
  destruct l as [|a l] using rev_ind; [reflexivity|]. rewrite rev_app_distr. cbn [rev app].
  rewrite app_length. cbn [length]. rewrite nth_error_app2 by lia.
  replace (length l + 1 - 1 - length l) with 0 by lia. reflexivity.
Qed.

(** [step_sig]: the signals after each kind of send. *)
Definition after_packet (st : state) (o : op) (t : sid) : signal :=
  match last_packet o t with
  | Some p => if s_active (st_sig st t) then check_keep (st_sig st t) p else st_sig st t
  | None => st_sig st t
  end.
Lemma sends_sig st o t : match o with Send _ _ | SendMany _ _ | Copy _ _ | Put _ => True | _ => False end ->
  st_sig (fst (step st o)) t = after_packet st o t.
Proof.
  destruct o as [c|c|s d n|s d|s b|s b|s p|s ps|s|s b|s b|s v|s p|n]; try tauto; intros _; unfold after_packet; cbn [step last_packet].
  - rewrite (Nat.eqb_sym s t). pose proof (send_sig st s t p) as Q. unfold send_one in *.
    destruct (s_active (st_sig st s)) eqn:A; cbn [fst] in *; [rewrite enqueue_all_sig|]; rewrite Q;
      (destruct (Nat.eqb t s) eqn:E; cbn [andb]; [apply Nat.eqb_eq in E; subst; rewrite A|]; reflexivity).
  - rewrite (Nat.eqb_sym s t). rewrite rev_last. unfold send_many. destruct (rev ps) as [|p r]; cbn [fst].
    + destruct (Nat.eqb t s); reflexivity.
    + destruct (s_active (st_sig st s)) eqn:A; cbn [fst]; [rewrite enqueue_all_sig, set_sig_at|];
      (destruct (Nat.eqb t s) eqn:E; [apply Nat.eqb_eq in E; subst; rewrite A|]; reflexivity).
  - rewrite (Nat.eqb_sym s t). pose proof (send_sig st s t p) as Q. unfold send_one in *.
    destruct (s_active (st_sig st s)) eqn:A; cbn [fst st_sig] in *; rewrite Q;
      (destruct (Nat.eqb t s) eqn:E; cbn [andb]; [apply Nat.eqb_eq in E; subst; rewrite A|]; reflexivity).
  - destruct (take_nth n (st_flight st)) as [[[ks ps] r]|]; cbn [fst]; [rewrite enqueue_all_sig|]; reflexivity.
Qed.
Lemma after_fields st o t : 
  s_desc (after_packet st o t) = s_desc (st_sig st t) /\
  s_active (after_packet st o t) = s_active (st_sig st t) /\
  s_dom (after_packet st o t) = s_dom (st_sig st t) /\
  s_told (after_packet st o t) = s_told (st_sig st t) /\
  s_conns (after_packet st o t) = s_conns (st_sig st t) /\
  s_public (after_packet st o t) = s_public (st_sig st t) /\
  s_keepv (after_packet st o t) = s_keepv (st_sig st t) /\
  s_keepp (after_packet st o t) = s_keepp (st_sig st t).
Proof.
  unfold after_packet. destruct (last_packet o t) as [p|]; [|repeat split]. pose proof (check_keep_fields (st_sig st t) p) as C.
  destruct (s_active (st_sig st t)) eqn:A; [exact C|repeat split; assumption].
Qed.

Lemma step_desc st o t : wf st -> s_desc (st_sig (fst (step st o)) t) =
  match o with SetDesc s d n => if Nat.eqb t s && negb (match d with Some _ => n | None => false end) then d else s_desc (st_sig st t)
  | _ => s_desc (st_sig st t) end.
Proof.
  intro W. destruct o as [c|c|s d n|s d|s b|s b|s p|s ps|s|s b|s b|s v|s p|n].
  7,8,13,14: rewrite sends_sig by exact Logic.I; apply after_fields.
  all: cbn [step].
  - apply connect_fields.
  - apply disconnect_fields.
  - rewrite set_desc_sig. unfold accepted. destruct (match d with Some _ => n | None => false end); cbn [negb andb].
    + rewrite andb_false_r. reflexivity.
    + rewrite andb_true_r. destruct (same_desc d (s_desc (st_sig st s))) eqn:E; cbn [negb].
      * apply same_desc_iff in E. destruct (Nat.eqb t s) eqn:X; [apply Nat.eqb_eq in X; subst t; symmetry; exact E|reflexivity].
      * set_at; [rewrite ?Nat.eqb_refl|rewrite ?E0]; reflexivity.
  - apply set_domain_fields. exact W.
  - cbn [fst]. set_at; reflexivity.
  - cbn [fst]. set_at; reflexivity.
  - cbn [fst]. apply removed_fields.
  - cbn [fst]. set_at; reflexivity.
  - cbn [fst]. set_at; reflexivity.
  - cbn [fst]. set_at; reflexivity.
Qed.

Lemma step_active st o t : wf st -> s_active (st_sig (fst (step st o)) t) =
  match o with SetActive s b => if Nat.eqb t s then b else s_active (st_sig st t) | _ => s_active (st_sig st t) end.
Proof.
  intro W. destruct o as [c|c|s d n|s d|s b|s b|s p|s ps|s|s b|s b|s v|s p|n].
  7,8,13,14: rewrite sends_sig by exact Logic.I; apply after_fields.
  all: cbn [step].
  - apply connect_fields.
  - apply disconnect_fields.
  - rewrite set_desc_sig. destruct (accepted st s d n); [set_at|]; reflexivity.
  - apply set_domain_fields. exact W.
  - cbn [fst]. set_at; reflexivity.
  - cbn [fst]. set_at; reflexivity.
  - cbn [fst]. apply removed_fields.
  - cbn [fst]. set_at; reflexivity.
  - cbn [fst]. set_at; reflexivity.
  - cbn [fst]. set_at; reflexivity.
Qed.

Lemma step_flags st o t : wf st ->
  s_public (st_sig (fst (step st o)) t) = (match o with SetPublic s b => if Nat.eqb s t then b else s_public (st_sig st t) | _ => s_public (st_sig st t) end) /\
  s_keepv (st_sig (fst (step st o)) t) = (match o with KeepLast s b => if Nat.eqb s t then b else s_keepv (st_sig st t) | _ => s_keepv (st_sig st t) end) /\
  (s_keepp (st_sig st t) = s_keepv (st_sig st t) && s_public (st_sig st t) ->
   s_keepp (st_sig (fst (step st o)) t) = s_keepv (st_sig (fst (step st o)) t) && s_public (st_sig (fst (step st o)) t)).
Proof.
  intro W. destruct o as [c|c|s d n|s d|s b|s b|s p|s ps|s|s b|s b|s v|s p|n].
  7,8,13,14: rewrite sends_sig by exact Logic.I;
    match goal with |- context [after_packet ?a ?o ?b] => destruct (after_fields a o b) as (_ & _ & _ & _ & _ & A1 & B1 & C1); rewrite A1, B1, C1; repeat split; tauto end.
  all: cbn [step].
  - destruct (connect_fields st c t) as (_ & _ & _ & A & B & C & _). rewrite A, B, C. repeat split; tauto.
  - destruct (disconnect_fields st c t) as (_ & _ & _ & A & B & C & _). rewrite A, B, C. repeat split; tauto.
  - rewrite set_desc_sig. destruct (accepted st s d n); [set_at|]; repeat split; tauto.
  - destruct (set_domain_fields st s d t W) as (_ & _ & _ & _ & A & B & C & _). rewrite A, B, C. repeat split; tauto.
  - cbn [fst]. set_at; repeat split; tauto.
  - cbn [fst]. set_at; repeat split; tauto.
  - cbn [fst]. destruct (removed_fields st s t) as (_ & _ & _ & A & B & C & _). rewrite A, B, C. repeat split; tauto.
  - cbn [fst]. set_at; [rewrite Nat.eqb_refl|rewrite (Nat.eqb_sym s t), E]; repeat split; tauto.
  - cbn [fst]. set_at; [rewrite Nat.eqb_refl|rewrite (Nat.eqb_sym s t), E]; repeat split; tauto.
  - cbn [fst]. set_at; repeat split; tauto.
Qed.

Lemma step_linked st o k : wf st -> k_remote k = false -> linked (fst (step st o)) k =
  match o with
  | Connect c => conn_eqb k c || linked st k
  | Disconnect c => negb (conn_eqb k c) && linked st k
  | Remove s => negb (Nat.eqb (k_sig k) s) && linked st k
  | _ => linked st k
  end.
Proof.
  intros W R. unfold linked. destruct o as [c|c|s d n|s d|s b|s b|s p|s ps|s|s b|s b|s v|s p|n].
  7,8,13,14: rewrite sends_sig by exact Logic.I;
    match goal with |- context [after_packet ?a ?o ?b] => destruct (after_fields a o b) as (_ & _ & _ & _ & A & _) end; rewrite A; reflexivity.
  all: cbn [step].
  - unfold connect. destruct (k_remote c) eqn:Rc.
    + assert (X : conn_eqb k c = false) by (apply conn_eqb_neq; intros ->; congruence). rewrite X. cbn [orb].
      destruct (existsb (conn_eqb c) (s_rconns (st_sig st (k_sig c)))); cbn [fst]; [reflexivity|]. set_at; [rewrite E|]; reflexivity.
    + destruct (existsb (conn_eqb c) (s_conns (st_sig st (k_sig c)))) eqn:M; cbn [fst].
      * destruct (conn_eqb k c) eqn:E; [|reflexivity]. apply conn_eqb_iff in E. subst c. rewrite M. reflexivity.
      * unfold enqueue; cbn [st_sig]. set_at.
        -- rewrite E. cbn [with_conns s_conns]. rewrite existsb_app. cbn [existsb]. rewrite orb_false_r. apply orb_comm.
        -- rewrite (conn_eqb_neq k c); [reflexivity|]. intros ->. rewrite Nat.eqb_refl in E. discriminate.
  - unfold disconnect. destruct (k_remote c) eqn:Rc.
    + assert (X : conn_eqb k c = false) by (apply conn_eqb_neq; intros ->; congruence). rewrite X. cbn [negb andb].
      destruct (existsb (conn_eqb c) (s_rconns (st_sig st (k_sig c)))); cbn [fst]; [|reflexivity]. set_at; [rewrite E|]; reflexivity.
    + destruct (existsb (conn_eqb c) (s_conns (st_sig st (k_sig c)))) eqn:M; cbn [fst].
      * set_at.
        -- rewrite E. cbn [with_conns s_conns]. destruct (conn_eqb k c) eqn:X; cbn [negb andb].
           ++ apply conn_eqb_iff in X. subst c. apply mem_not. apply erase_nd. apply (wf_nd st W).
           ++ apply eq_true_iff_eq. rewrite !mem_iff. split; [apply erase_in|].
              apply erase_keep. intros ->. rewrite conn_eqb_refl in X. discriminate.
        -- rewrite (conn_eqb_neq k c); [reflexivity|]. intros ->. rewrite Nat.eqb_refl in E. discriminate.
      * destruct (conn_eqb k c) eqn:E; [|reflexivity]. apply conn_eqb_iff in E. subst c. rewrite M. reflexivity.
  - rewrite set_desc_sig. destruct (accepted st s d n); [|reflexivity]. set_at; reflexivity.
  - destruct (set_domain_fields st s d (k_sig k) W) as (_ & _ & _ & A & _). rewrite A. reflexivity.
  - cbn [fst]. set_at; reflexivity.
  - cbn [fst]. set_at; reflexivity.
  - cbn [fst]. destruct (removed_fields st s (k_sig k)) as (_ & _ & _ & _ & _ & _ & _ & A & _). rewrite A.
    destruct (Nat.eqb (k_sig k) s); reflexivity.
  - cbn [fst]. set_at; reflexivity.
  - cbn [fst]. set_at; reflexivity.
  - cbn [fst]. set_at; reflexivity.
Qed.

(* ---------- reading the history ---------- *)
Lemma linked_iff d0 h k : k_remote k = false -> (linked (run (init d0) h) k = true <-> Linked h k).
Proof.
  intro R. induction h as [|o h IH] using rev_ind.
  - split; [intro H; discriminate H|]. intro H. inversion H as [? ? E|? ? ? ? ? ? E]; destruct h; discriminate E.
  - rewrite run_app, step_linked by (try exact R; apply wf_run).
    assert (Inv : Linked (h ++ [o]) k <-> o = Connect k \/ (Linked h k /\ o <> Disconnect k /\ o <> Remove (k_sig k))).
    { split.
      - intro H. inversion H as [h' k' E1 E2|h' k' o' H1 H2 H3 E1 E2]; apply app_inj_tail in E1; destruct E1; subst; tauto.
      - intros [->|(A & B & C)]; [constructor|]. apply L_other; assumption. }
    rewrite Inv, <- IH.
    destruct o as [c|c|s d n|s d|s b|s b|s p|s ps|s|s b|s b|s v|s p|n];
      try (split; [intro H; right; repeat split; [exact H|discriminate|discriminate]|intros [H|[H _]]; [discriminate H|exact H]]).
    + rewrite orb_true_iff, conn_eqb_iff. split.
      * intros [->|H]; [left; reflexivity|right; repeat split; [exact H|discriminate|discriminate]].
      * intros [H|[H _]]; [inversion H; left; reflexivity|right; exact H].
    + rewrite andb_true_iff, negb_true_iff. split.
      * intros [A B]. right. repeat split; [exact B| |discriminate]. intro X. inversion X. subst c. rewrite conn_eqb_refl in A. discriminate.
      * intros [H|(A & B & C)]; [discriminate H|]. split; [|exact A]. apply conn_eqb_neq. congruence.
    + rewrite andb_true_iff, negb_true_iff, Nat.eqb_neq. split.
      * intros [A B]. right. repeat split; [exact B|discriminate|]. intro X. inversion X. congruence.
      * intros [H|(A & B & C)]; [discriminate H|]. split; [|exact A]. congruence.
Qed.

Lemma active_iff d0 h s : s_active (st_sig (run (init d0) h) s) = true <-> Active h s.
Proof.
  induction h as [|o h IH] using rev_ind.
  - split; [constructor|reflexivity].
  - rewrite run_app, step_active by apply wf_run.
    assert (Inv : Active (h ++ [o]) s <-> o = SetActive s true \/ (Active h s /\ forall b, o <> SetActive s b)).
    { split.
      - intro H. inversion H as [s' E|h' s' E1 E2|h' s' o' H1 H2 E1 E2]; [destruct h; discriminate E| |]; apply app_inj_tail in E1; destruct E1; subst; tauto.
      - intros [->|(A & B)]; [constructor|]. apply A_other; assumption. }
    rewrite Inv, <- IH.
    destruct o as [c|c|t d n|t d|t b|t b|t p|t ps|t|t b|t b|t v|t p|n];
      try (split; [intro H; right; split; [exact H|discriminate]|intros [H|[H _]]; [discriminate H|exact H]]).
    destruct (Nat.eqb s t) eqn:E.
    + apply Nat.eqb_eq in E. subst t. split; [intros ->; left; reflexivity|]. intros [H|[_ H]]; [congruence|exfalso; exact (H b eq_refl)].
    + apply Nat.eqb_neq in E. split; [intro H; right; split; [exact H|congruence]|intros [H|[H _]]; [congruence|exact H]].
Qed.

Lemma describes_now d0 h s : Describes d0 h s (s_desc (st_sig (run (init d0) h) s)).
Proof.
  induction h as [|o h IH] using rev_ind; [constructor|].
  rewrite run_app, step_desc by apply wf_run.
  destruct o as [c|c|t d n|t d|t b|t b|t p|t ps|t|t b|t b|t v|t p|n];
    try (apply D_other; [exact IH|intros w m H; discriminate H]).
  destruct (Nat.eqb s t) eqn:E; cbn [andb].
  - apply Nat.eqb_eq in E. subst t. destruct (match d with Some _ => n | None => false end) eqn:X; cbn [negb].
    + apply D_other; [exact IH|]. intros w m H. inversion H; subst. destruct w; [split; [discriminate|exact X]|discriminate X].
    + apply D_set. destruct d; [right; exact X|left; reflexivity].
  - apply D_other; [exact IH|]. apply Nat.eqb_neq in E. intros w m H. inversion H; subst. contradiction.
Qed.
Lemma describes_det d0 h s v w : Describes d0 h s v -> Describes d0 h s w -> v = w.
Proof.
  intro H. revert w. induction H as [s|h s v n H|h s v o H IH N]; intros w H2.
  - inversion H2 as [s' E|h' s' v' n' H' E|h' s' v' o' H' N' E]; [reflexivity| |]; destruct h'; discriminate E.
  - inversion H2 as [s' E|h' s' v' n' H' E|h' s' v' o' H' N' E]; [destruct h; discriminate E| |]; apply app_inj_tail in E; destruct E as [E1 E2]; subst.
    + inversion E2. reflexivity.
    + destruct (N' v n eq_refl) as [A B]. destruct H; congruence.
  - inversion H2 as [s' E|h' s' v' n' H' E|h' s' v' o' H' N' E]; [destruct h; discriminate E| |]; apply app_inj_tail in E; destruct E as [E1 E2]; subst.
    + destruct (N w n' eq_refl) as [A B]. destruct H'; congruence.
    + apply IH. exact H'.
Qed.

(* ---------- known descriptors ---------- *)
Lemma known_value_app a : forall b v, known_value (a ++ b) v = known_value b (known_value a v).
Proof. induction a as [|[[x|] y|p] a IH]; intros; cbn [app known_value]; auto. Qed.
Lemma known_domain_app a : forall b v, known_domain (a ++ b) v = known_domain b (known_domain a v).
Proof. induction a as [|[x [y|]|p] a IH]; intros; cbn [app known_domain]; auto. Qed.
Lemma known_value_packets ps v : known_value (map IPk ps) v = v.
Proof. induction ps; cbn [map known_value]; auto. Qed.
Lemma known_domain_packets ps v : known_domain (map IPk ps) v = v.
Proof. induction ps; cbn [map known_domain]; auto. Qed.

Lemma value_known d0 h k : linked (run (init d0) h) k = true ->
  known_value (st_log (run (init d0) h) k) None = Some (s_desc (st_sig (run (init d0) h) (k_sig k))).
Proof.
  intro L.
  assert (R : k_remote k = false).
  { unfold linked in L. apply mem_iff in L. apply (wf_sig _ (wf_run d0 h)) in L. tauto. }
  revert L. induction h as [|o h IH] using rev_ind; [discriminate|].
  rewrite run_app. set (st := run (init d0) h) in *. assert (W : wf st) by apply wf_run.
  rewrite (step_linked st o k W R), (step_desc st o _ W), (log_step st o k W), known_value_app.
  destruct o as [c|c|s d n|s d|s b|s b|s p|s ps|s|s b|s b|s v|s p|n]; cbn [added known_value]; intro L; try (apply IH; exact L).
  - destruct (conn_eqb k c) eqn:E; cbn [orb andb] in *.
    + rewrite R. cbn [negb andb]. destruct (linked st k) eqn:X; cbn [negb]; [cbn [known_value]; apply IH; reflexivity|reflexivity].
    + cbn [known_value]. apply IH. exact L.
  - apply andb_true_iff in L. apply IH. tauto.
  - specialize (IH L). unfold accepted. rewrite L.
    destruct (match d with Some _ => n | None => false end); cbn [negb andb].
    + rewrite andb_false_r. exact IH.
    + rewrite andb_true_r.
      destruct (Nat.eqb (k_sig k) s) eqn:E.
      * apply Nat.eqb_eq in E. subst s. destruct (same_desc d (s_desc (st_sig st (k_sig k)))) eqn:Y; cbn [negb].
        -- apply same_desc_iff in Y. subst d. exact IH.
        -- cbn [andb]. destruct (same_sig _ _ && _ && _); reflexivity.
      * cbn [andb app]. destruct (same_desc d (s_desc (st_sig st s))); cbn [negb app known_value]; [exact IH|]. destruct (same_sig _ _ && _ && _); exact IH.
  - destruct (Nat.eqb (k_sig k) s && linked st k && s_active (st_sig st s)); cbn [known_value]; apply IH; exact L.
  - destruct (Nat.eqb (k_sig k) s && linked st k && s_active (st_sig st s)); [rewrite known_value_packets|]; apply IH; exact L.
  - apply andb_true_iff in L. apply IH. tauto.
  - destruct (take_nth n (st_flight st)) as [[[ks ps] r]|]; [destruct (existsb (conn_eqb k) ks); [rewrite known_value_packets|]|]; apply IH; exact L.
Qed.

Lemma domain_desc_eq st st' s : s_dom (st_sig st' s) = s_dom (st_sig st s) ->
  (forall t, s_desc (st_sig st' t) = s_desc (st_sig st t)) -> domain_desc st' s = domain_desc st s.
Proof. intros A B. unfold domain_desc. rewrite A. destruct (s_dom (st_sig st s)); auto. Qed.

Lemma step_dom_same st o t : wf st -> match o with SetDomain s _ => t <> s | Remove _ => False | _ => True end ->
  s_dom (st_sig (fst (step st o)) t) = s_dom (st_sig st t).
Proof.
  intros W N. destruct o as [c|c|s d n|s d|s b|s b|s p|s ps|s|s b|s b|s v|s p|n]; try contradiction.
  7,8,12,13: rewrite sends_sig by exact Logic.I; apply after_fields.
  all: cbn [step].
  - apply connect_fields.
  - apply disconnect_fields.
  - rewrite set_desc_sig. destruct (accepted st s d n); [set_at|]; reflexivity.
  - apply (set_domain_fields st s d t W). exact N.
  - cbn [fst]. set_at; reflexivity.
  - cbn [fst]. set_at; reflexivity.
  - cbn [fst]. set_at; reflexivity.
  - cbn [fst]. set_at; reflexivity.
  - cbn [fst]. set_at; reflexivity.
Qed.

Lemma linked_has st k : linked st k = true -> has_consumers st (k_sig k).
Proof. unfold linked, has_consumers. intro H. destruct (s_conns (st_sig st (k_sig k))); [discriminate|discriminate]. Qed.

Lemma domain_known d0 h k : Careful d0 h -> linked (run (init d0) h) k = true ->
  known_domain (st_log (run (init d0) h) k) None = Some (domain_desc (run (init d0) h) (k_sig k)).
Proof.
  intros C L.
  assert (R : k_remote k = false).
  { unfold linked in L. apply mem_iff in L. apply (wf_sig _ (wf_run d0 h)) in L. tauto. }
  revert L. induction C as [|h o C IH F]; [discriminate|].
  rewrite run_app. set (st := run (init d0) h) in *. assert (W : wf st) by apply wf_run.
  rewrite (step_linked st o k W R), (log_step st o k W), known_domain_app.
  assert (Same : match o with SetDomain s _ => k_sig k <> s | Remove _ => False | SetDesc _ _ _ => False | _ => True end ->
                 domain_desc (fst (step st o)) (k_sig k) = domain_desc st (k_sig k)).
  { intro H. apply domain_desc_eq.
    - apply step_dom_same; [exact W|]. destruct o; tauto.
    - intro t. rewrite step_desc by exact W. destruct o; try reflexivity. contradiction. }
  destruct o as [c|c|s d n|s d|s b|s b|s p|s ps|s|s b|s b|s v|s p|n]; intro L;
    try (rewrite Same by exact Logic.I); cbn [added known_domain]; try (apply IH; exact L); try contradiction.
  - destruct (conn_eqb k c) eqn:E; cbn [orb andb] in *.
    + rewrite R. cbn [negb andb]. destruct (linked st k) eqn:X; cbn [negb]; [cbn [known_domain]; apply IH; reflexivity|reflexivity].
    + cbn [known_domain]. apply IH. exact L.
  - apply andb_true_iff in L. apply IH. tauto.
  - specialize (IH L). cbn [careful] in F. clear Same.
    assert (Q : domain_desc (fst (step st (SetDesc s d n))) (k_sig k) =
                if accepted st s d n && same_sig (s_dom (st_sig st (k_sig k))) (Some s) then d else domain_desc st (k_sig k)).
    { unfold domain_desc. rewrite (step_dom_same st (SetDesc s d n) (k_sig k) W Logic.I).
      destruct (s_dom (st_sig st (k_sig k))) as [e|]; [|cbn [same_sig]; rewrite andb_false_r; reflexivity].
      rewrite (step_desc st (SetDesc s d n) e W). cbn [same_sig]. unfold accepted.
      destruct (match d with Some _ => n | None => false end); cbn [negb andb]; [rewrite andb_false_r; reflexivity|]. rewrite andb_true_r.
      destruct (Nat.eqb e s) eqn:E; [|rewrite andb_false_r; reflexivity]. rewrite andb_true_r.
      apply Nat.eqb_eq in E. subst e. destruct (same_desc d (s_desc (st_sig st s))) eqn:Y; [|reflexivity].
      apply same_desc_iff in Y. exact Y. }
    rewrite Q. rewrite L. destruct (accepted st s d n); cbn [andb]; [|exact IH].
    rewrite known_domain_app.
    assert (Z : forall u, known_domain (if Nat.eqb (k_sig k) s && true then [IEv (Some d) None] else []) u = u).
    { intro u. destruct (Nat.eqb (k_sig k) s && true); reflexivity. }
    rewrite Z. destruct (same_sig (s_dom (st_sig st (k_sig k))) (Some s)) eqn:Y; cbn [andb]; [|exact IH].
    apply same_sig_iff in Y. rewrite (F (k_sig k) Y (linked_has st k L)). reflexivity.
  - cbn [careful] in F. rewrite Same; [apply IH; exact L|]. intros <-. apply F. apply linked_has. exact L.
  - destruct (Nat.eqb (k_sig k) s && linked st k && s_active (st_sig st s)); cbn [known_domain]; apply IH; exact L.
  - destruct (Nat.eqb (k_sig k) s && linked st k && s_active (st_sig st s)); [rewrite known_domain_packets|]; apply IH; exact L.
  - cbn [careful] in F. apply andb_true_iff in L. destruct L as [L1 L]. rewrite negb_true_iff, Nat.eqb_neq in L1.
    rewrite (IH L). f_equal. cbn [step fst]. symmetry. unfold domain_desc.
    destruct (removed_fields st s (k_sig k)) as (_ & _ & _ & _ & _ & _ & _ & _ & A). rewrite A.
    destruct (existsb (Nat.eqb (k_sig k)) (s_refs (st_sig st s))) eqn:X.
    + apply smem_iff in X. apply (wf_ref st W) in X. exfalso. apply (F (k_sig k) L1 X). apply linked_has. exact L.
    + destruct (s_dom (st_sig st (k_sig k))) as [e|]; [|reflexivity]. apply removed_fields.
Qed.

Lemma domain_desc_ok st s : DomainDesc st s (domain_desc st s).
Proof. unfold DomainDesc, domain_desc. destruct (s_dom (st_sig st s)); reflexivity. Qed.

(* ---------- packets ---------- *)
Lemma app_split {A} (a b l1 l2 : list A) x : a ++ b = l1 ++ x :: l2 ->
  (exists m, a = l1 ++ x :: m /\ l2 = m ++ b) \/ (exists m, l1 = a ++ m /\ b = m ++ x :: l2).
Proof.
  revert l1. induction a as [|y a IH]; intros l1 H.
  - right. exists l1. auto.
  - destruct l1 as [|z l1]; cbn [app] in H; inversion H; subst.
    + left. exists a. auto.
    + destruct (IH _ H2) as [(m & E1 & E2)|(m & E1 & E2)]; subst; [left|right]; exists m; auto.
Qed.
Lemma map_split ps m p l2 : map IPk ps = m ++ IPk p :: l2 -> exists ps1, m = map IPk ps1 /\ In p ps.
Proof.
  revert m. induction ps as [|q ps IH]; intros [|i m] H; cbn [map app] in H; inversion H; subst.
  - exists []. split; [reflexivity|left; reflexivity].
  - destruct (IH _ H2) as (ps1 & -> & I1). exists (q :: ps1). split; [reflexivity|right; exact I1].
Qed.

(** A packet got into a connection through a whole call. *)
Lemma packet_origin d0 h k l1 p l2 : (forall o, In o h -> whole o) ->
  st_log (run (init d0) h) k = l1 ++ IPk p :: l2 ->
  exists h1 o h2 ps, h = h1 ++ o :: h2 /\ linked (run (init d0) h1) k = true /\ s_active (st_sig (run (init d0) h1) (k_sig k)) = true /\
    In p (packets_of o (k_sig k)) /\ l1 = st_log (run (init d0) h1) k ++ map IPk ps.
Proof.
  revert l1 p l2. induction h as [|o h IH] using rev_ind; intros l1 p l2 Wh H; [destruct l1; discriminate H|].
  rewrite run_app, log_step in H by apply wf_run. set (st := run (init d0) h) in *.
  apply app_split in H. destruct H as [(m & E1 & E2)|(m & E1 & E2)].
  - destruct (IH l1 p m) as (h1 & o1 & h2 & ps & A & B); [intros; apply Wh; apply in_app_iff; left; assumption|exact E1|].
    exists h1, o1, (h2 ++ [o]), ps. split; [rewrite A, <- app_assoc; reflexivity|exact B].
  - assert (Key : forall s, packets_of o s = packets_of o s) by reflexivity.
    assert (Sends : (exists ps, added st o k = map IPk ps /\ packets_of o (k_sig k) = ps /\ linked st k = true /\ s_active (st_sig st (k_sig k)) = true) ).
    { assert (Wo : whole o) by (apply Wh; apply in_app_iff; right; left; reflexivity). clear - E2 Wo.
      destruct o as [c|c|s d n|s d|s b|s b|s q|s qs|s|s b|s b|s v|s q|n]; cbn [added] in *; try contradiction; try (destruct m; discriminate E2).
      - destruct (conn_eqb k c && negb (k_remote k) && negb (linked st k)); destruct m as [|? [|]]; discriminate E2.
      - exfalso. destruct (accepted st s d n); [|destruct m; discriminate E2].
        destruct (Nat.eqb (k_sig k) s && linked st k); destruct (same_sig _ _ && _ && _); destruct m as [|? [|? [|]]]; discriminate E2.
      - destruct (Nat.eqb (k_sig k) s) eqn:E; [|destruct m; discriminate E2]. apply Nat.eqb_eq in E. subst s.
        destruct (linked st k) eqn:L; [|destruct m; discriminate E2]. destruct (s_active (st_sig st (k_sig k))) eqn:A; [|destruct m; discriminate E2].
        exists [q]. cbn [packets_of]. rewrite Nat.eqb_refl. repeat split; reflexivity.
      - destruct (Nat.eqb (k_sig k) s) eqn:E; [|destruct m; discriminate E2]. apply Nat.eqb_eq in E. subst s.
        destruct (linked st k) eqn:L; [|destruct m; discriminate E2]. destruct (s_active (st_sig st (k_sig k))) eqn:A; [|destruct m; discriminate E2].
        exists qs. cbn [packets_of]. rewrite Nat.eqb_refl. repeat split; reflexivity. }
    destruct Sends as (ps & A1 & A2 & A3 & A4). rewrite A1 in E2. apply map_split in E2. destruct E2 as (ps1 & -> & I1).
    exists h, o, [], ps1. rewrite A2. repeat split; assumption.
Qed.

Lemma careful_whole d0 h : Careful d0 h -> forall o, In o h -> whole o.
Proof.
  induction 1 as [|h o C IH F]; intros x H; [destruct H|]. apply in_app_iff in H. destruct H as [H|[<-|[]]]; [auto|].
  destruct o; cbn [careful whole] in *; auto.
Qed.
Lemma careful_prefix d0 h : Careful d0 h -> forall h1 h2, h = h1 ++ h2 -> Careful d0 h1.
Proof.
  induction 1 as [|h o C IH F]; intros h1 h2 E.
  - destruct h1; [constructor|discriminate E].
  - destruct h2 as [|x h2] using rev_ind.
    + rewrite app_nil_r in E. subst h1. constructor; assumption.
    + rewrite app_assoc in E. apply app_inj_tail in E. destruct E as [E _]. exact (IH _ _ E).
Qed.

(* ---------- what is delivered ---------- *)
Lemma data_app a b : data (a ++ b) = data a ++ data b.
Proof. induction a as [|[]]; cbn [app data]; [reflexivity|assumption|f_equal; assumption]. Qed.
Lemma data_packets ps : data (map IPk ps) = ps.
Proof. induction ps; cbn [map data]; [reflexivity|f_equal; assumption]. Qed.

Lemma added_data st o k : whole o -> data (added st o k) =
  if linked st k && s_active (st_sig st (k_sig k)) then packets_of o (k_sig k) else [].
Proof.
  intro Wo. destruct o as [c|c|s d n|s d|s b|s b|s q|s qs|s|s b|s b|s v|s q|n]; cbn [added packets_of data]; try contradiction.
  all: try (match goal with |- _ = if ?b then [] else [] => destruct b; reflexivity end).
  - destruct (conn_eqb k c && negb (k_remote k) && negb (linked st k)); destruct (linked st k && _); reflexivity.
  - destruct (accepted st s d n); [rewrite data_app; destruct (Nat.eqb (k_sig k) s && linked st k); destruct (same_sig _ _ && _ && _)|]; destruct (linked st k && _); reflexivity.
  - rewrite (Nat.eqb_sym s (k_sig k)). destruct (Nat.eqb (k_sig k) s) eqn:E; cbn [andb].
    + apply Nat.eqb_eq in E. subst s. destruct (linked st k && s_active (st_sig st (k_sig k))); reflexivity.
    + destruct (linked st k && _); reflexivity.
  - rewrite (Nat.eqb_sym s (k_sig k)). destruct (Nat.eqb (k_sig k) s) eqn:E; cbn [andb].
    + apply Nat.eqb_eq in E. subst s. destruct (linked st k && s_active (st_sig st (k_sig k))); [apply data_packets|reflexivity].
    + destruct (linked st k && _); reflexivity.
Qed.

Lemma sent_now d0 h k : k_remote k = false -> (forall o, In o h -> whole o) -> Sent h k (data (st_log (run (init d0) h) k)).
Proof.
  intros R Wh. induction h as [|o h IH] using rev_ind; [constructor|].
  assert (IH' : Sent h k (data (st_log (run (init d0) h) k))) by (apply IH; intros; apply Wh; apply in_app_iff; left; assumption).
  rewrite run_app, log_step by apply wf_run. rewrite data_app, added_data by (apply Wh; apply in_app_iff; right; left; reflexivity).
  destruct (linked (run (init d0) h) k) eqn:L; destruct (s_active (st_sig (run (init d0) h) (k_sig k))) eqn:A; cbn [andb].
  - apply S_yes; [exact IH'|apply (linked_iff d0 h k R); exact L|apply (active_iff d0); exact A].
  - rewrite app_nil_r. apply S_no; [exact IH'|]. intros [_ X]. apply (active_iff d0) in X. congruence.
  - rewrite app_nil_r. apply S_no; [exact IH'|]. intros [X _]. apply (linked_iff d0 h k R) in X. congruence.
  - rewrite app_nil_r. apply S_no; [exact IH'|]. intros [X _]. apply (linked_iff d0 h k R) in X. congruence.
Qed.
Lemma sent_det h k l m : Sent h k l -> Sent h k m -> l = m.
Proof.
  intro H. revert m. induction H as [k|h k o l H IH L A|h k o l H IH N]; intros m H2.
  - inversion H2 as [k' E|h' k' o' l' H' L' A' E|h' k' o' l' H' N' E]; [reflexivity| |]; destruct h'; discriminate E.
  - inversion H2 as [k' E|h' k' o' l' H' L' A' E|h' k' o' l' H' N' E]; [destruct h; discriminate E| |]; apply app_inj_tail in E; destruct E as [E1 E2]; subst.
    + f_equal. apply IH. exact H'.
    + exfalso. apply N'. auto.
  - inversion H2 as [k' E|h' k' o' l' H' L' A' E|h' k' o' l' H' N' E]; [destruct h; discriminate E| |]; apply app_inj_tail in E; destruct E as [E1 E2]; subst.
    + exfalso. apply N. auto.
    + apply IH. exact H'.
Qed.

(* ---------- the first item ---------- *)
Lemma flight_linked d0 h : forall ks ps, In (ks, ps) (st_flight (run (init d0) h)) ->
  forall k, In k ks -> st_log (run (init d0) h) k <> [].
Proof.
  assert (NE : forall h k, linked (run (init d0) h) k = true -> st_log (run (init d0) h) k <> []).
  { intros g k L E. apply value_known in L. rewrite E in L. discriminate L. }
  induction h as [|o h IH] using rev_ind; intros ks ps H k Hk; [destruct H|].
  rewrite run_app in *. set (st := run (init d0) h) in *. assert (W : wf st) by apply wf_run.
  assert (Keep : st_log st k <> [] -> st_log (fst (step st o)) k <> []).
  { rewrite (log_step st o k W). intros N E. apply app_eq_nil in E. tauto. }
  assert (Old : In (ks, ps) (st_flight st) \/ exists s p, o = Copy s p /\ ks = s_conns (st_sig st s)).
  { destruct o as [c|c|s d n|s d|s b|s b|s p|s qs|s|s b|s b|s v|s p|n]; cbn [step] in H; try (left; exact H).
    - left. unfold connect in H. destruct (k_remote c); destruct (existsb _ _); exact H.
    - left. unfold disconnect in H. destruct (k_remote c); destruct (existsb _ _); exact H.
    - left. rewrite set_desc_flight in H. exact H.
    - left. rewrite set_domain_flight in H. exact H.
    - left. unfold send_one in H. destruct (s_active (st_sig st s)); cbn [fst] in H; [rewrite enqueue_all_flight in H|]; exact H.
    - left. unfold send_many in H. destruct (rev qs); [exact H|]. destruct (s_active (st_sig st s)); cbn [fst] in H; [rewrite enqueue_all_flight in H|]; exact H.
    - left. cbn [fst] in H. unfold removed in H. cbn [set_sig st_flight] in H. rewrite (proj1 (proj2 (clear_doms _ _))) in H. exact H.
    - unfold send_one in H. destruct (s_active (st_sig st s)) eqn:A; cbn [fst st_flight set_sig] in H; [|left; exact H].
      apply in_app_iff in H. destruct H as [H|[H|[]]]; [left; exact H|]. inversion H; subst. right. exists s, p. auto.
    - left. destruct (take_nth n (st_flight st)) as [[[ks' ps'] r]|] eqn:E; cbn [fst] in H; [|exact H].
      rewrite enqueue_all_flight in H. cbn [st_flight] in H. apply take_nth_in in E. apply E. exact H. }
  destruct Old as [Old|(s & p & -> & ->)].
  - apply Keep. exact (IH _ _ Old k Hk).
  - apply Keep. apply NE. unfold linked. destruct (wf_sig st W _ _ Hk) as [<- _]. apply mem_iff. exact Hk.
Qed.

Lemma first_item d0 h k : st_log (run (init d0) h) k = [] \/
  exists h1 h2 rest, h = h1 ++ Connect k :: h2 /\ st_log (run (init d0) h1) k = [] /\
    st_log (run (init d0) h) k =
    IEv (Some (s_desc (st_sig (run (init d0) h1) (k_sig k)))) (Some (domain_desc (run (init d0) h1) (k_sig k))) :: rest.
Proof.
  induction h as [|o h IH] using rev_ind; [left; reflexivity|].
  rewrite run_app. assert (W := wf_run d0 h). rewrite (log_step _ o k W).
  destruct IH as [IH|(h1 & h2 & rest & E1 & E2 & E3)].
  - rewrite IH. cbn [app]. set (st := run (init d0) h) in *.
    assert (NL : linked st k = false).
    { destruct (linked st k) eqn:L; [|reflexivity]. apply value_known in L. fold st in L. rewrite IH in L. discriminate L. }
    destruct o as [c|c|s d n|s d|s b|s b|s p|s qs|s|s b|s b|s v|s p|n]; cbn [added]; try (left; reflexivity); rewrite ?NL.
    + destruct (conn_eqb k c) eqn:E; cbn [andb]; [|left; reflexivity]. apply conn_eqb_iff in E. subst c.
      destruct (k_remote k); cbn [negb andb]; [left; reflexivity|]. right. exists h, [], []. repeat split. exact IH.
    + left. rewrite !andb_false_r. cbn [andb]. destruct (accepted st s d n); reflexivity.
    + left. rewrite andb_false_r. reflexivity.
    + left. rewrite andb_false_r. reflexivity.
    + left. destruct (take_nth n (st_flight st)) as [[[ks ps] r]|] eqn:E; [|reflexivity].
      destruct (existsb (conn_eqb k) ks) eqn:M; [|reflexivity]. apply mem_iff in M. apply take_nth_in in E. destruct E as [E _].
      exfalso. exact (flight_linked d0 h ks ps E k M IH).
  - right. exists h1, (h2 ++ [o]), (rest ++ added (run (init d0) h) o k). split; [rewrite E1, <- app_assoc; reflexivity|].
    split; [exact E2|]. rewrite E3. reflexivity.
Qed.

(* ---------- listened status ---------- *)
Lemma alternates_snoc l : forall b c, Alternates b l -> c = (if Nat.even (length l) then b else negb b) -> Alternates b (l ++ [c]).
Proof.
  induction l as [|x l IH]; intros b c H E; cbn [app].
  - cbn [length Nat.even] in E. subst c. constructor. constructor.
  - inversion H; subst. constructor. apply IH; [assumption|].
    cbn [length]. rewrite Nat.even_succ, <- Nat.negb_even. destruct (Nat.even (length l)); cbn [negb]; [reflexivity|rewrite negb_involutive; reflexivity].
Qed.
Lemma listened_parity l : forall b, Alternates b l -> l = [] \/ last l false = (if Nat.even (length l) then negb b else b).
Proof.
  induction l as [|x l IH]; intros b H; [left; reflexivity|]. right. inversion H; subst.
  destruct l as [|y l]; [reflexivity|]. destruct (IH (negb x)) as [E|E]; [assumption|discriminate E|].
  change (last (x :: y :: l) false) with (last (y :: l) false). rewrite E.
  change (length (x :: y :: l)) with (S (length (y :: l))). rewrite Nat.even_succ, <- Nat.negb_even.
  destruct (Nat.even (length (y :: l))); cbn [negb]; [apply negb_involutive|reflexivity].
Qed.
Lemma alternates_flip l c : Alternates true l -> listened l = negb c -> Alternates true (l ++ [c]).
Proof.
  intros A E. apply alternates_snoc; [exact A|]. destruct (listened_parity l true A) as [->|P].
  - cbn in *. destruct c; [reflexivity|discriminate E].
  - unfold listened in E. rewrite E in P. destruct (Nat.even (length l)); destruct c; cbn [negb] in *; congruence.
Qed.
Lemma listened_snoc l c : listened (l ++ [c]) = c.
Proof. unfold listened. apply last_last. Qed.

Definition told_ok (x : signal) : Prop :=
  Alternates true (s_told x) /\ listened (s_told x) = match s_conns x with [] => false | _ => true end.
Lemma told_step st o t : wf st -> (forall s, o <> Remove s) -> told_ok (st_sig st t) -> told_ok (st_sig (fst (step st o)) t).
Proof.
  intros W NR H. destruct o as [c|c|s d n|s d|s b|s b|s p|s ps|s|s b|s b|s v|s p|n].
  7,8,13,14: rewrite sends_sig by exact Logic.I; unfold told_ok in *;
    match goal with |- context [after_packet ?a ?o ?b] => destruct (after_fields a o b) as (_ & _ & _ & A & B & _) end; rewrite A, B; exact H.
  all: cbn [step].
  - unfold connect. destruct (k_remote c).
    + destruct (existsb _ _); cbn [fst]; [exact H|]. set_at; exact H.
    + destruct (existsb _ _); cbn [fst]; [exact H|]. unfold enqueue; cbn [st_sig]. set_at; [|exact H].
      destruct H as [H1 H2]. unfold told_ok. cbn [with_conns s_told s_conns].
      destruct (s_conns (st_sig st (k_sig c))) as [|k l] eqn:E; cbn [app].
      * split; [apply alternates_flip; [exact H1|exact H2]|apply listened_snoc].
      * split; [exact H1|exact H2].
  - unfold disconnect. destruct (k_remote c).
    + destruct (existsb _ _); cbn [fst]; [|exact H]. set_at; exact H.
    + destruct (existsb (conn_eqb c) (s_conns (st_sig st (k_sig c)))) eqn:M; cbn [fst]; [|exact H]. set_at; [|exact H].
      destruct H as [H1 H2]. unfold told_ok. cbn [with_conns s_told s_conns].
      assert (L : listened (s_told (st_sig st (k_sig c))) = true) by (destruct (s_conns (st_sig st (k_sig c))); [discriminate M|exact H2]).
      destruct (erase c (s_conns (st_sig st (k_sig c)))) as [|k l] eqn:E.
      * split; [apply alternates_flip; [exact H1|exact L]|apply listened_snoc].
      * split; [exact H1|exact L].
  - rewrite set_desc_sig. destruct (accepted st s d n); [set_at|]; exact H.
  - destruct (set_domain_fields st s d t W) as (_ & _ & A & B & _). unfold told_ok. rewrite A, B. exact H.
  - cbn [fst]. set_at; exact H.
  - cbn [fst]. set_at; exact H.
  - exfalso. exact (NR s eq_refl).
  - cbn [fst]. set_at; exact H.
  - cbn [fst]. set_at; exact H.
  - cbn [fst]. set_at; exact H.
Qed.
Lemma told_run d0 h t : (forall s, ~ In (Remove s) h) -> told_ok (st_sig (run (init d0) h) t).
Proof.
  induction h as [|o h IH] using rev_ind; intro N; [split; [constructor|reflexivity]|].
  rewrite run_app. apply told_step; [apply wf_run| |apply IH; intros s H; apply (N s); apply in_app_iff; left; exact H].
  intros s ->. apply (N s). apply in_app_iff. right. left. reflexivity.
Qed.

(* ---------- last value ---------- *)
Lemma flag_snoc f h o : flag_of f (h ++ [o]) = match f o with Some c => c | None => flag_of f h end.
Proof. unfold flag_of. rewrite fold_left_app. reflexivity. Qed.
Lemma flags_run d0 h t : s_public (st_sig (run (init d0) h) t) = public_of h t /\ s_keepv (st_sig (run (init d0) h) t) = keep_of h t /\
  s_keepp (st_sig (run (init d0) h) t) = keep_of h t && public_of h t.
Proof.
  induction h as [|o h (A & B & C)] using rev_ind; [repeat split|].
  rewrite run_app. destruct (step_flags (run (init d0) h) o t (wf_run d0 h)) as (A' & B' & C').
  assert (X : s_public (st_sig (fst (step (run (init d0) h) o)) t) = public_of (h ++ [o]) t).
  { rewrite A'. unfold public_of in *. rewrite flag_snoc, A. destruct o; try reflexivity. destruct (Nat.eqb s t); reflexivity. }
  assert (Y : s_keepv (st_sig (fst (step (run (init d0) h) o)) t) = keep_of (h ++ [o]) t).
  { rewrite B'. unfold keep_of in *. rewrite flag_snoc, B. destruct o; try reflexivity. destruct (Nat.eqb s t); reflexivity. }
  split; [exact X|]. split; [exact Y|]. rewrite C' by (rewrite A, B; exact C). rewrite X, Y. reflexivity.
Qed.

Lemma step_last st o t : wf st -> s_last (st_sig (fst (step st o)) t) =
  match last_packet o t with
  | Some p => if s_active (st_sig st t) && s_keepp (st_sig st t) && (0 <? p_count p) then Some (p_id p) else s_last (st_sig st t)
  | None =>
    match o with
    | SetLast s v => if Nat.eqb t s then Some v else s_last (st_sig st t)
    | SetPublic s b => if Nat.eqb t s then (if s_keepv (st_sig st t) && b then s_last (st_sig st t) else None) else s_last (st_sig st t)
    | KeepLast s b => if Nat.eqb t s then (if b && s_public (st_sig st t) then s_last (st_sig st t) else None) else s_last (st_sig st t)
    | _ => s_last (st_sig st t)
    end
  end.
Proof.
  intro W. destruct o as [c|c|s d n|s d|s b|s b|s p|s ps|s|s b|s b|s v|s p|n].
  7,8,13,14: rewrite sends_sig by exact Logic.I; unfold after_packet; destruct (last_packet _ t) as [q|]; [|reflexivity];
    destruct (s_active (st_sig st t)); [|reflexivity]; unfold check_keep; cbn [andb]; destruct (s_keepp (st_sig st t)); [|reflexivity]; destruct (0 <? p_count q); reflexivity.
  all: cbn [step last_packet].
  - apply connect_fields.
  - apply disconnect_fields.
  - rewrite set_desc_sig. destruct (accepted st s d n); [set_at|]; reflexivity.
  - apply set_domain_fields. exact W.
  - cbn [fst]. set_at; reflexivity.
  - cbn [fst]. set_at; reflexivity.
  - cbn [fst]. apply removed_fields.
  - cbn [fst]. set_at; reflexivity.
  - cbn [fst]. set_at; reflexivity.
  - cbn [fst]. set_at; reflexivity.
Qed.

Lemma last_now d0 h s : LastValue h s (s_last (st_sig (run (init d0) h) s)).
Proof.
  induction h as [|o h IH] using rev_ind; [constructor|].
  rewrite run_app, step_last by apply wf_run. destruct (flags_run d0 h s) as (A & B & C).
  destruct (flags_run d0 (h ++ [o]) s) as (_ & _ & _).
  destruct (last_packet o s) as [p|] eqn:P.
  - destruct (s_active (st_sig (run (init d0) h) s)) eqn:X; [destruct (s_keepp (st_sig (run (init d0) h) s)) eqn:Y; [destruct (0 <? p_count p) eqn:Z|]|]; cbn [andb].
    + assert (Y' : keep_of h s && public_of h s = true) by congruence. apply andb_true_iff in Y'. apply LV_packet; [exact P|apply (active_iff d0); exact X|tauto|tauto|apply Nat.ltb_lt; exact Z].
    + apply LV_other; [exact IH| | |].
      * intros w ->. discriminate P.
      * intros q Q _ _ _. rewrite P in Q. inversion Q; subst q. apply Nat.ltb_ge in Z. lia.
      * intros (b & [-> | ->]); discriminate P.
    + apply LV_other; [exact IH| | |].
      * intros w ->. discriminate P.
      * intros q Q _ U V. rewrite U, V in C. cbn [andb] in C. congruence.
      * intros (b & [-> | ->]); discriminate P.
    + apply LV_other; [exact IH| | |].
      * intros w ->. discriminate P.
      * intros q Q U _ _. apply (active_iff d0) in U. congruence.
      * intros (b & [-> | ->]); discriminate P.
  - assert (Oth : (forall w, o <> SetLast s w) -> (forall b, o <> SetPublic s b) -> (forall b, o <> KeepLast s b) ->
                  LastValue (h ++ [o]) s (s_last (st_sig (run (init d0) h) s))).
    { intros N1 N2 N3. apply LV_other; [exact IH|exact N1| |].
      - intros q Q. rewrite P in Q. discriminate Q.
      - intros (b & [-> | ->]); exfalso; [apply (N2 b)|apply (N3 b)]; reflexivity. }
    destruct o as [c|c|t d n|t d|t b|t b|t p|t ps|t|t b|t b|t v|t p|n]; try (apply Oth; discriminate).
    + destruct (Nat.eqb s t) eqn:E; [apply Nat.eqb_eq in E; subst t|apply Nat.eqb_neq in E; apply Oth; intros; congruence].
      rewrite B. assert (Pu : public_of (h ++ [SetPublic s b]) s = b) by (unfold public_of; rewrite flag_snoc, Nat.eqb_refl; reflexivity).
      assert (Ke : keep_of (h ++ [SetPublic s b]) s = keep_of h s) by (unfold keep_of; rewrite flag_snoc; reflexivity).
      destruct (keep_of h s && b) eqn:X.
      * apply LV_other; [exact IH|discriminate| |intros _; rewrite Pu, Ke, andb_comm; exact X]. intros q Q. discriminate Q.
      * apply LV_drop; [exists b; left; reflexivity|rewrite Pu, Ke, andb_comm; exact X].
    + destruct (Nat.eqb s t) eqn:E; [apply Nat.eqb_eq in E; subst t|apply Nat.eqb_neq in E; apply Oth; intros; congruence].
      rewrite A. assert (Pu : public_of (h ++ [KeepLast s b]) s = public_of h s) by (unfold public_of; rewrite flag_snoc; reflexivity).
      assert (Ke : keep_of (h ++ [KeepLast s b]) s = b) by (unfold keep_of; rewrite flag_snoc, Nat.eqb_refl; reflexivity).
      destruct (b && public_of h s) eqn:X.
      * apply LV_other; [exact IH|discriminate| |intros _; rewrite Pu, Ke, andb_comm; exact X]. intros q Q. discriminate Q.
      * apply LV_drop; [exists b; right; reflexivity|rewrite Pu, Ke, andb_comm; exact X].
    + destruct (Nat.eqb s t) eqn:E; [apply Nat.eqb_eq in E; subst t; constructor|apply Nat.eqb_neq in E; apply Oth; intros; congruence].
Qed.

Lemma last_det h s v w : LastValue h s v -> LastValue h s w -> v = w.
Proof.
  intro H. revert w. induction H as [s|h s o p P A Pu Ke N|h s v|h s o D F|h s o v H IH N1 N2 N3]; intros w H2;
    inversion H2 as [s' E|h' s' o' p' P' A' Pu' Ke' N' E|h' s' v' E|h' s' o' D' F' E|h' s' o' v' H' N1' N2' N3' E]; subst; try reflexivity;
    try (destruct h; discriminate E); try (destruct h'; discriminate E);
    try (apply app_inj_tail in E; destruct E as [E1 E2]; subst).
  - congruence.
  - discriminate P.
  - destruct D' as (b & [-> | ->]); discriminate P.
  - specialize (N2' _ P A Pu Ke). lia.
  - discriminate P'.
  - inversion E2. reflexivity.
  - destruct D' as (b & [D' | D']); discriminate D'.
  - exfalso. exact (N1' v eq_refl).
  - destruct D as (b & [-> | ->]); discriminate P'.
  - destruct D as (b & [D | D]); discriminate D.
  - exfalso. specialize (N3' D). congruence.
  - specialize (N2 _ P' A' Pu' Ke'). lia.
  - exfalso. exact (N1 _ eq_refl).
  - exfalso. specialize (N3 D'). congruence.
  - apply IH. exact H'.
Qed.
