(** * C64: component statuses and connection statuses *)
From Coq Require Import String List Bool Arith Lia.
From Verif Require Import CStat_Model CStat_Spec CStat_Proofs.
Import ListNotations.
Open Scope string_scope. Open Scope list_scope.

Lemma after_inv : forall l, cinv (after l).
Proof. intro l. apply run_inv. apply cinv_empty. Qed.

Lemma blank_shows : shows empty blank.
Proof. intro n. split; reflexivity. Qed.

Lemma after_shows : forall l, shows (after l) (acts l blank).
Proof. intro l. apply run_refine; [apply cinv_empty|apply blank_shows]. Qed.

(** ** Component statuses are a table: every history of calls leaves in it
    what the accepted calls put there, and every call gets the answer the
    table gives. *)
Theorem c64_table : forall l,
  shows (after l) (acts l blank) /\ forall o, reply l o = snd (act o (acts l blank)).
Proof.
  intro l. split; [apply after_shows|]. intro o.
  exact (proj2 (step_refine o _ _ (after_inv l) (after_shows l))).
Qed.

(** A status and its message come and go together, and have one name. *)
Theorem c64_together : forall l n,
  (getStatus (after l) n = None <-> getStatusMessage (after l) n = None) /\
  getStatus (after l) "" = None.
Proof.
  intros l n. assert (C := after_inv l). split.
  - apply same_keys_get. exact (ci_keys _ C).
  - apply dget_none. exact (ci_named _ C).
Qed.

(** ** A call that is not successful changes nothing and tells nobody. *)
Theorem c64_refused : forall l o, reply l o <> Success ->
  after (l ++ [o]) = after l /\ emits l o = None.
Proof.
  intros l o R. unfold after at 1. rewrite run_app. cbn [run]. fold (after l).
  unfold reply in R. unfold emits. assert (C := after_inv l).
  assert (Ad : forall n v m, snd (addStatusWithMessage n v m (after l)) <> Success ->
                             fst (addStatusWithMessage n v m (after l)) = after l).
  { intros n v m X. destruct (add_cases n v m _ C) as [[E _]|[[E _]|[E _]]]; rewrite E in *; try reflexivity.
    destruct X. reflexivity. }
  assert (Se : forall n v m, snd (fst (setStatusWithMessage n v m (after l))) <> Success ->
     fst (fst (setStatusWithMessage n v m (after l))) = after l /\ snd (setStatusWithMessage n v m (after l)) = None).
  { intros n v m X. assert (Q := set_cases n v m _ C).
    destruct (setStatusWithMessage n v m (after l)) as [[s' k] e]. cbn [fst snd] in *.
    destruct Q as [_ [_ [_ Q]]]. destruct k; try exact Q. destruct X. reflexivity. }
  destruct o as [n v|n v m|n v|n v m]; cbn [step fst snd] in *.
  - split; [apply Ad; exact R|reflexivity].
  - split; [apply Ad; exact R|reflexivity].
  - apply Se. exact R.
  - apply Se. exact R.
Qed.

(** ** Events: a successful set, and only that, is told to the listeners, with
    the name, the value and the message. *)
Theorem c64_event : forall l o,
  match setting o with
  | Some (n, v, m) =>
      (reply l o <> Success -> emits l o = None) /\
      (reply l o = Success -> exists e, emits l o = Some e /\
         dget "Message" e = Some (PStr m) /\ (n <> "Message" -> dget n e = Some (PEnum v)) /\
         forall x, x <> n -> x <> "Message" -> dget x e = None)
  | None => emits l o = None
  end.
Proof.
  intros l o. assert (C := after_inv l).
  assert (Se : forall n v m,
    (snd (fst (setStatusWithMessage n v m (after l))) <> Success -> snd (setStatusWithMessage n v m (after l)) = None) /\
    (snd (fst (setStatusWithMessage n v m (after l))) = Success -> exists e, snd (setStatusWithMessage n v m (after l)) = Some e /\
         dget "Message" e = Some (PStr m) /\ (n <> "Message" -> dget n e = Some (PEnum v)) /\
         forall x, x <> n -> x <> "Message" -> dget x e = None)).
  { intros n v m. assert (Q := set_cases n v m _ C).
    destruct (setStatusWithMessage n v m (after l)) as [[s' k] e]. cbn [fst snd].
    destruct Q as [_ [_ [_ Q]]]. split.
    - intro X. destruct k; try (exact (proj2 Q)). destruct X. reflexivity.
    - intros ->. destruct Q as [_ [_ [_ [_ E]]]]. subst e. exists (changeEvent n v m).
      split; [reflexivity|]. unfold changeEvent. split; [apply dget_set_same|]. split.
      + intro Nm. rewrite dget_set_other by exact Nm. apply dget_set_same.
      + intros x A B. rewrite dget_set_other by exact B. rewrite dget_set_other by exact A. reflexivity. }
  destruct o as [n v|n v m|n v|n v m]; cbn [setting]; unfold reply, emits; cbn [step fst snd].
  - reflexivity.
  - reflexivity.
  - apply Se.
  - apply Se.
Qed.

(** ** The enumeration type of a status never changes, and a status never
    goes away. *)
Theorem c64_type : forall l l2 n v, getStatus (after l) n = Some v ->
  exists v', getStatus (after (l ++ l2)) n = Some v' /\ en_type v' = en_type v.
Proof.
  intros l l2. unfold after. rewrite run_app. fold (after l).
  assert (C := after_inv l). assert (H := after_shows l). revert C H.
  generalize (after l) as s. generalize (acts l blank) as t.
  induction l2 as [|o l2 IH]; intros t s C H n v G; [exists v; split; [exact G|reflexivity]|].
  cbn [run]. assert (R := proj1 (step_refine o s t C H)).
  assert (Ty : exists v1, getStatus (fst (fst (step o s))) n = Some v1 /\ en_type v1 = en_type v).
  { destruct (R n) as [R1 _]. rewrite R1. destruct (H n) as [H1 _]. rewrite G in H1.
    destruct (t n) as [[v0 m0]|] eqn:Tn; [|discriminate H1]. cbn in H1. inversion H1. subst v0.
    assert (Ad : forall k w m, exists v1, option_map fst (fst (adds k w m t) n) = Some v1 /\ en_type v1 = en_type v).
    { intros k w m. exists v. split; [|reflexivity]. unfold adds.
      destruct (String.eqb k ""); [cbn [fst]; rewrite Tn; reflexivity|].
      destruct (t k) eqn:Tk; cbn [fst]; [rewrite Tn; reflexivity|].
      unfold put. destruct (String.eqb n k) eqn:E; [apply String.eqb_eq in E; congruence|]. rewrite Tn. reflexivity. }
    assert (Se : forall k w m, exists v1, option_map fst (fst (sets k w m t) n) = Some v1 /\ en_type v1 = en_type v).
    { intros k w m. unfold sets.
      assert (Same : exists v1, option_map fst (t n) = Some v1 /\ en_type v1 = en_type v).
      { exists v. rewrite Tn. split; reflexivity. }
      destruct (String.eqb k ""); [exact Same|]. destruct (t k) as [[vk mk]|] eqn:Tk; [|exact Same].
      destruct (en_type w =? en_type vk)%nat eqn:Tw; cbn [negb]; [|exact Same].
      destruct (String.eqb (en_value w) (en_value vk) && String.eqb m mk); [exact Same|].
      cbn [fst]. unfold put. destruct (String.eqb n k) eqn:E; [|exact Same].
      apply String.eqb_eq in E. subst k. exists w. split; [reflexivity|].
      apply Nat.eqb_eq in Tw. rewrite Tn in Tk. inversion Tk. subst. exact Tw. }
    destruct o; cbn [act]; [apply Ad|apply Ad|apply Se|apply Se]. }
  destruct Ty as [v1 [G1 T1]].
  destruct (IH _ _ (step_inv o s C) R n v1 G1) as [v2 [G2 T2]]. exists v2. split; [exact G2|congruence].
Qed.

(** ** A client that starts alike and receives every event stays alike, as
    long as nothing is added and no status is named "Message". *)
Theorem c64_follow_partial : forall l l0 l1, alike (after l0) (after l1) ->
  (forall o, In o l -> exists n v m, setting o = Some (n, v, m) /\ n <> "Message") ->
  exists s c, follow l (after l0) (after l1) = (s, c, true) /\ s = after (l0 ++ l) /\ alike s c.
Proof.
  intros l l0 l1 H0. replace (after (l0 ++ l)) with (run l (after l0)) by (unfold after; rewrite run_app; reflexivity).
  assert (C0 := after_inv l0). assert (C1 := after_inv l1). revert H0 C0 C1.
  generalize (after l0) as s, (after l1) as c.
  induction l as [|o l IH]; intros s c H C0 C1 A.
  - exists s, c. split; [reflexivity|]. split; [reflexivity|exact H].
  - cbn [follow run]. destruct (A o (or_introl eq_refl)) as [n [v [m [Eo Nm]]]].
    assert (Es : step o s = setStatusWithMessage n v m s).
    { destruct o; cbn in Eo; try discriminate Eo; inversion Eo; subst; reflexivity. }
    rewrite Es. assert (Cl := client_set n v m s c C0 C1 H Nm).
    assert (Ci : cinv (fst (fst (setStatusWithMessage n v m s)))) by (rewrite <- Es; apply step_inv; exact C0).
    assert (A' : forall o0, In o0 l -> exists n v m, setting o0 = Some (n, v, m) /\ n <> "Message").
    { intros o0 X. apply A. right. exact X. }
    destruct (setStatusWithMessage n v m s) as [[s' k] [e|]]; cbn [fst].
    + destruct k; try (destruct Cl as [_ X]; discriminate X).
      destruct Cl as [c' [E [Cc' Al]]]. rewrite E. apply IH; assumption.
    + assert (Z : s' = s) by (destruct k; exact (proj1 Cl)). subst s'. apply IH; assumption.
Qed.

(** ** A client that takes over the written statuses of a server then shows
    them, and keeps its other ones, if common ones have the same type. *)
Theorem c64_update : forall ls lc,
  (forall n v w, getStatus (after ls) n = Some v -> getStatus (after lc) n = Some w -> en_type v = en_type w) ->
  exists c, remoteUpdateStatuses (serialize (after ls)) (after lc) = (c, Success) /\
    forall n, (getStatus (after ls) n <> None ->
                 getStatus c n = getStatus (after ls) n /\ getStatusMessage c n = getStatusMessage (after ls) n) /\
              (getStatus (after ls) n = None ->
                 getStatus c n = getStatus (after lc) n /\ getStatusMessage c n = getStatusMessage (after lc) n).
Proof.
  intros ls lc T. assert (C := after_inv ls). assert (Cc := after_inv lc).
  unfold remoteUpdateStatuses, serialize. cbn [w_statuses w_messages].
  destruct (updateAll_spec (statuses (after ls)) (messages (after ls)) (statuses (after lc)) (after lc) Cc
              (ci_nodup _ C) (ci_named _ C)) as [c [E [_ [R1 R2]]]].
  - reflexivity.
  - exact T.
  - intros n X Y. apply dget_none in Y. apply Y. rewrite <- (ci_keys _ C). exact X.
  - exists c. split; [exact E|]. intro n. unfold getStatus, getStatusMessage. rewrite R1, R2.
    destruct (dget n (statuses (after ls))); split; intro X; try (split; reflexivity); try discriminate X.
    destruct X. reflexivity.
Qed.

(** ** A container read back reads the same, now and after any further
    calls; text of versions without messages gives empty messages. *)
Theorem c64_round_trip : forall l, exists s,
  deserialize (serialize (after l)) = Some s /\ forall l2, alike (after (l ++ l2)) (run l2 s).
Proof.
  intro l. assert (C := after_inv l). destruct (roundtrip _ C) as [s [E [Cs A]]].
  exists s. split; [exact E|]. intro l2. unfold after. rewrite run_app. fold (after l).
  assert (H := after_shows l).
  assert (Hs : shows s (acts l blank)).
  { intro n. destruct (A n) as [A1 A2]. destruct (H n) as [H1 H2]. split; congruence. }
  intro n. destruct (run_refine l2 _ _ C H n) as [P1 P2]. destruct (run_refine l2 _ _ Cs Hs n) as [Q1 Q2].
  split; congruence.
Qed.

Theorem c64_old_text : forall l, exists s,
  deserialize (Written (w_statuses (serialize (after l))) None) = Some s /\
  forall n, getStatus s n = getStatus (after l) n /\
            (getStatus (after l) n <> None -> getStatusMessage s n = Some "").
Proof.
  intro l. assert (C := after_inv l). unfold deserialize, serialize. cbn [w_statuses w_messages].
  destruct (addAll_old (statuses (after l)) empty cinv_empty (ci_nodup _ C) (ci_named _ C)) as [s [E [_ [R1 R2]]]];
    [reflexivity|].
  exists s. split; [exact E|]. intro n. unfold getStatus, getStatusMessage. rewrite R1, R2.
  destruct (dget n (statuses (after l))); split; try reflexivity. intro X. destruct X. reflexivity.
Qed.

(** ** Connection statuses: under the name told when a connection was added
    one reads its value and message of the last accepted update, until it is
    removed. *)
Theorem c64_conn_value : forall knows l o c v a l2, announces knows l o c v a ->
  ~ In (RemoveStreaming c) l2 ->
  cGetStatus (cafter knows (l ++ o :: l2)) a = Some (fst (track c (v, "") l2)) /\
  cGetMessage (cafter knows (l ++ o :: l2)) a = Some (snd (track c (v, "") l2)).
Proof.
  intros kn l o c v a l2 A N0. destruct (announced kn l o c v a A) as [K [Kn [_ [_ [Na _]]]]].
  rewrite cafter_cons. apply (known_reads _ c a); [apply crun_inv; exact K|exact Na|].
  apply known_run; assumption.
Qed.

(** Once removed, nothing is read under this name, for ever. *)
Theorem c64_conn_removed : forall knows l t c v a l2 l3, announces knows l (AddStreaming t c v) c v a ->
  ~ In (RemoveStreaming c) l2 ->
  cGetStatus (cafter knows (l ++ AddStreaming t c v :: l2 ++ RemoveStreaming c :: l3)) a = None /\
  cGetMessage (cafter knows (l ++ AddStreaming t c v :: l2 ++ RemoveStreaming c :: l3)) a = None.
Proof.
  intros kn l t c v a l2 l3 A N0. destruct (announced kn l _ c v a A) as [K [Kn [_ [_ [Na [_ Cf]]]]]].
  rewrite cafter_cons, crun_app. cbn [crun].
  assert (K2 := crun_inv kn l2 _ K). assert (Kn2 := known_run kn l2 _ c a _ K Kn N0).
  set (s := crun kn l2 _) in *. apply spent_reads. apply spent_run; [apply cstep_inv; exact K2|].
  assert (Ac : a <> configAlias) by (intro X; apply Cf in X; discriminate X).
  cbn [cstep]. assert (Q := remove_cases kn c s K2). destruct (removeStreaming kn c s) as [[s' k] e].
  destruct Q as [_ Q]. cbn [fst]. destruct Kn2 as [H1 [H2 _]].
  destruct k; try contradiction.
  - destruct Q as [v0 [a0 [_ [_ [Q _]]]]]. subst s'. apply removed_spent; assumption.
  - destruct Q as [_ [_ Q]]. rewrite Q in H2. discriminate H2.
  - destruct Q as [v0 [_ [_ [Q _]]]]. subst s'. apply removed_spent; assumption.
Qed.

(** No name is told twice. *)
Theorem c64_conn_fresh : forall knows l o c v a l2 o2 c2 v2,
  announces knows l o c v a -> ~ announces knows (l ++ o :: l2) o2 c2 v2 a.
Proof.
  intros kn l o c v a l2 o2 c2 v2 A B.
  destruct (announced kn l o c v a A) as [K [_ [U _]]].
  destruct (announced kn _ o2 c2 v2 a B) as [_ [_ [_ [N0 _]]]].
  apply N0. rewrite cafter_cons. apply used_run; assumption.
Qed.

(** A connection cannot be added twice, and there is one configuration
    connection at most. *)
Theorem c64_conn_once : forall knows l o c v a l2 o2 c2 v2 a2,
  announces knows l o c v a -> announces knows (l ++ o :: l2) o2 c2 v2 a2 ->
  (c2 = c -> In (RemoveStreaming c) l2) /\
  (o = AddConfiguration c v -> o2 <> AddConfiguration c2 v2).
Proof.
  intros kn l o c v a l2 o2 c2 v2 a2 A B.
  destruct (announced kn l o c v a A) as [K [Kn [U [_ [_ [_ Cf]]]]]].
  destruct (announced kn _ o2 c2 v2 a2 B) as [_ [_ [_ [N0 [_ [G Cf2]]]]]].
  split.
  - intros ->. rewrite cafter_cons in G.
    destruct (in_dec (fun x y : cop => ltac:(repeat decide equality) : {x = y} + {x <> y}) (RemoveStreaming c) l2) as [I0|I0]; [exact I0|].
    destruct (known_run kn l2 _ c a _ K Kn I0) as [_ [H _]]. rewrite H in G. discriminate G.
  - intros -> E. assert (Ea : a = configAlias) by (apply Cf; reflexivity).
    assert (Ea2 : a2 = configAlias) by (apply Cf2; exact E).
    apply N0. rewrite Ea2, <- Ea, cafter_cons. apply used_run; assumption.
Qed.

(** ** What an update answers: it is refused for another type, ignored when
    nothing changes, and otherwise told to the listeners under the name of
    the connection, with its protocol. *)
Theorem c64_conn_update : forall knows l o c v a l2 w m, announces knows l o c v a ->
  ~ In (RemoveStreaming c) l2 ->
  let (v0, m0) := track c (v, "") l2 in let h := l ++ o :: l2 in
  (en_type w <> en_type v0 -> creply knows h (Update c w m) = InvalidType) /\
  (w = v0 -> m = m0 -> creply knows h (Update c w m) = Ignored) /\
  (en_type w = en_type v0 -> w <> v0 \/ m <> m0 ->
     creply knows h (Update c w m) = Success /\
     exists p, cemits knows h (Update c w m) = Some (CEvent (Some a) w c p (Some m)) /\
               (p = Configuration <-> o = AddConfiguration c v)).
Proof.
  intros kn l o c v a l2 w m A N0. destruct (announced kn l o c v a A) as [K [Kn [_ [_ [_ [_ Cf]]]]]].
  assert (K2 := crun_inv kn l2 _ K). assert (Kn2 := known_run kn l2 _ c a _ K Kn N0).
  destruct (track c (v, "") l2) as [v0 m0]. cbv zeta. unfold creply, cemits. rewrite cafter_cons.
  set (s := crun kn l2 _) in *. cbn [cstep]. assert (Q := update_cases c w m s K2).
  destruct (updateConnection c w m s) as [[s' k] e]. destruct Q as [_ Q]. cbn [fst snd].
  destruct Kn2 as [H1 [H2 H3]]. cbn [fst snd] in H2, H3.
  destruct k; try contradiction.
  - destruct Q as [v1 [m1 [a1 [G1 [G2 [G3 [T [D [_ E]]]]]]]]].
    rewrite H2 in G1. rewrite H3 in G2. rewrite H1 in G3. inversion G1. inversion G2. inversion G3. subst v1 m1 a1.
    split; [intro X; contradiction|]. split; [intros X Y; destruct D; contradiction|].
    intros _ _. split; [reflexivity|]. rewrite E.
    exists (if String.eqb a configAlias then Configuration else Streaming). split; [reflexivity|].
    rewrite <- Cf. destruct (String.eqb a configAlias) eqn:Ea.
    + apply String.eqb_eq in Ea. split; [intros _; exact Ea|reflexivity].
    + apply String.eqb_neq in Ea. split; [discriminate|intro X; contradiction].
  - destruct Q as [_ [_ [G1 G2]]]. rewrite H2 in G1. rewrite H3 in G2. inversion G1. inversion G2. subst.
    split; [intro X; destruct X; reflexivity|]. split; [reflexivity|]. intros _ [X|X]; destruct X; reflexivity.
  - destruct Q as [_ [_ X]]. subst c. exfalso. apply (k_named s K2). apply dget_in in H2. apply (in_map fst) in H2. exact H2.
  - destruct Q as [_ [_ X]]. rewrite X in H2. discriminate H2.
  - destruct Q as [_ [_ [v1 [G1 T]]]]. rewrite H2 in G1. inversion G1. subst v1.
    split; [reflexivity|]. split; [intros X; subst; destruct T; reflexivity|]. intro X. contradiction.
Qed.

(** A call that is refused changes nothing and tells nobody. *)
Theorem c64_conn_refused_partial : forall knows l o,
  creply knows l o <> Success -> creply knows l o <> Thrown ->
  cafter knows (l ++ [o]) = cafter knows l /\ cemits knows l o = None.
Proof.
  intros kn l o R1 R2. rewrite cafter_cons. cbn [crun]. unfold creply in *. unfold cemits.
  assert (K : kinv (cafter kn l)) by (apply crun_inv; apply kinv_none).
  destruct o as [c v|t c v|c|c v m]; cbn [cstep] in *.
  - assert (Q := addConf_cases c v _ K). destruct (addConfiguration c v (cafter kn l)) as [[s' k] e].
    cbn [fst snd] in *. destruct k; try (destruct Q as [A [B _]]; split; assumption). destruct R1. reflexivity.
  - assert (Q := addStr_cases t c v _ K). destruct (addStreaming t c v (cafter kn l)) as [[s' k] e].
    cbn [fst snd] in *. destruct k; try (destruct Q as [A [B _]]; split; assumption). destruct R1. reflexivity.
  - assert (Q := remove_cases kn c _ K). destruct (removeStreaming kn c (cafter kn l)) as [[s' k] e].
    cbn [fst snd] in *. destruct Q as [_ Q].
    destruct k; try contradiction; try (destruct R1; reflexivity); try (destruct R2; reflexivity).
    destruct Q as [A [B _]]. split; assumption.
  - assert (Q := update_cases c v m _ K). destruct (updateConnection c v m (cafter kn l)) as [[s' k] e].
    cbn [fst snd] in *. destruct Q as [_ Q].
    destruct k; try contradiction; try (destruct R1; reflexivity);
      destruct Q as [A [B _]]; split; assumption.
Qed.

(** A removal is told under the name of the connection, with the value
    "Removed" of its type. *)
Theorem c64_conn_removal : forall knows l o c v a l2, announces knows l o c v a ->
  ~ In (RemoveStreaming c) l2 -> knows (en_type (fst (track c (v, "") l2))) = true ->
  creply knows (l ++ o :: l2) (RemoveStreaming c) = Success /\
  exists p, cemits knows (l ++ o :: l2) (RemoveStreaming c) =
    Some (CEvent (Some a) (Enum (en_type (fst (track c (v, "") l2))) "Removed") c p None).
Proof.
  intros kn l o c v a l2 A N0 Kw. destruct (announced kn l o c v a A) as [K [Kn _]].
  assert (K2 := crun_inv kn l2 _ K). assert (Kn2 := known_run kn l2 _ c a _ K Kn N0).
  unfold creply, cemits. rewrite cafter_cons. set (s := crun kn l2 _) in *. cbn [cstep].
  assert (Q := remove_cases kn c s K2). destruct (removeStreaming kn c s) as [[s' k] e].
  destruct Q as [_ Q]. cbn [fst snd]. destruct Kn2 as [H1 [H2 H3]]. destruct k; try contradiction.
  - destruct Q as [v1 [a1 [G1 [G2 [_ E]]]]]. rewrite H2 in G1. rewrite H1 in G2. inversion G1. inversion G2.
    split; [reflexivity|]. exists Streaming. rewrite E. subst. reflexivity.
  - destruct Q as [_ [_ Q]]. rewrite Q in H2. discriminate H2.
  - destruct Q as [v1 [G1 [X _]]]. rewrite H2 in G1. inversion G1. subst. rewrite Kw in X. discriminate X.
Qed.

(** ** Reading back the connections gives the configuration status with its
    message, and nothing else. *)
Theorem c64_conn_read_back_partial : forall knows l, exists s,
  cReadBack (cafter knows l) = Some s /\
  cGetStatus s "ConfigurationStatus" = cGetStatus (cafter knows l) "ConfigurationStatus" /\
  cGetMessage s "ConfigurationStatus" = cGetMessage (cafter knows l) "ConfigurationStatus" /\
  forall n, n <> "ConfigurationStatus" -> cGetStatus s n = None /\ cGetMessage s n = None.
Proof.
  intros kn l. assert (K : kinv (cafter kn l)) by (apply crun_inv; apply kinv_none).
  unfold cReadBack. set (s := cafter kn l) in *.
  destruct (restore_spec (c_aliases s) (c_statuses s) (c_messages s)) as [[A [B C]]|[c [v [m [A [B C]]]]]].
  - intros c a X. apply (in_map fst) in X. cbn [fst] in X. split; [|split].
    + intros ->. apply (k_named s K). rewrite (k_sa s K). exact X.
    + intro Y. apply dget_none in Y. apply Y. rewrite (k_sa s K). exact X.
    + intro Y. apply dget_none in Y. apply Y. rewrite <- (k_sm s K), (k_sa s K). exact X.
  - exists noConn. split; [exact C|]. unfold cGetStatus, cGetMessage. cbn [String.eqb].
    change (byAlias (c_aliases s) configAlias (c_statuses s)) with (byAlias (c_aliases s) "ConfigurationStatus" (c_statuses s)) in A.
    change (byAlias (c_aliases s) configAlias (c_messages s)) with (byAlias (c_aliases s) "ConfigurationStatus" (c_messages s)) in B.
    rewrite A, B. split; [reflexivity|]. split; [reflexivity|].
    intros n _. destruct (String.eqb n ""); split; reflexivity.
  - exists (Conn [(c, v)] [(c, m)] [(c, configAlias)] 0 true). split; [exact C|].
    unfold cGetStatus, cGetMessage.
    change (String.eqb "ConfigurationStatus" "") with false.
    change "ConfigurationStatus" with configAlias. rewrite A, B.
    cbn [c_aliases c_statuses c_messages byAlias dget]. rewrite !String.eqb_refl.
    split; [reflexivity|]. split; [reflexivity|].
    intros n Nn. destruct (String.eqb n "") eqn:En; [split; reflexivity|].
    cbn [byAlias]. assert (X : String.eqb configAlias n = false) by (apply String.eqb_neq; congruence).
    rewrite X. split; reflexivity.
Qed.

(** ** Non-trivial cases *)

Definition ok (n : nat) := Enum n "Ok".
Definition err (n : nat) := Enum n "Error".

Example table_case :
  let l := [Add "A" (ok 0); AddMsg "B" (ok 1) "fine"; SetMsg "A" (err 0) "broken"; SetTo "B" (err 0)] in
  getStatus (after l) "A" = Some (err 0) /\ getStatusMessage (after l) "A" = Some "broken" /\
  reply l (SetTo "B" (err 0)) = InvalidType /\ reply l (SetMsg "B" (ok 1) "fine") = Ignored /\
  reply l (Add "A" (ok 0)) = AlreadyExists /\ reply l (SetTo "C" (ok 0)) = NotFound /\
  reply l (SetTo "B" (err 1)) = Success.
Proof. repeat split; vm_compute; reflexivity. Qed.

Example follow_case :
  let l0 := [Add "A" (ok 0); Add "B" (ok 1)] in
  alike (after l0) (after l0) /\
  (let l := [SetMsg "A" (err 0) "x"; SetTo "B" (err 1); SetTo "A" (err 0)] in
   (forall o, In o l -> exists n v m, setting o = Some (n, v, m) /\ n <> "Message") /\
   getStatusMessage (snd (fst (follow l (after l0) (after l0)))) "A" = Some "").
Proof.
  split; [intro n; split; reflexivity|]. split; [|vm_compute; reflexivity].
  intros o [H|[H|[H|[]]]]; subst o; cbn [setting]; eexists _, _, _; split; try reflexivity; discriminate.
Qed.

Example update_case :
  let ls := [Add "A" (err 0); AddMsg "B" (ok 1) "new"] in let lc := [Add "A" (ok 0); Add "C" (ok 2)] in
  (forall n v w, getStatus (after ls) n = Some v -> getStatus (after lc) n = Some w -> en_type v = en_type w) /\
  getStatusMessage (fst (remoteUpdateStatuses (serialize (after ls)) (after lc))) "B" = Some "new".
Proof.
  split; [|vm_compute; reflexivity]. intros n v w X Y.
  change (dget n [("A", err 0); ("B", ok 1)] = Some v) in X. change (dget n [("A", ok 0); ("C", ok 2)] = Some w) in Y.
  cbn [dget] in X, Y. destruct (String.eqb n "A").
  - inversion X. inversion Y. reflexivity.
  - destruct (String.eqb n "B") eqn:Z; [|discriminate X]. apply String.eqb_eq in Z. subst n. discriminate Y.
Qed.

Definition all (_ : nat) := true.
Definition types := [("OpenDAQNativeStreaming", "daq.ns://"); ("OpenDAQLTStreaming", "daq.lt://")].

Example conn_case :
  announces all [AddConfiguration "daq.nd://1" (ok 0)] (AddStreaming types "daq.lt://1" (ok 0))
    "daq.lt://1" (ok 0) "StreamingStatus_OpenDAQLTStreaming_1" /\
  announces all [] (AddConfiguration "daq.nd://1" (ok 0)) "daq.nd://1" (ok 0) "ConfigurationStatus" /\
  announces all [AddStreaming types "daq.lt://1" (ok 0); RemoveStreaming "daq.lt://1"]
    (AddStreaming types "daq.lt://1" (ok 0)) "daq.lt://1" (ok 0) "StreamingStatus_OpenDAQLTStreaming_2".
Proof.
  split; [|split].
  - split; [left; exists types; reflexivity|]. split; [vm_compute; reflexivity|]. exists Streaming. vm_compute. reflexivity.
  - split; [right; reflexivity|]. split; [vm_compute; reflexivity|]. exists Configuration. vm_compute. reflexivity.
  - split; [left; exists types; reflexivity|]. split; [vm_compute; reflexivity|]. exists Streaming. vm_compute. reflexivity.
Qed.

(** ** What does not hold *)

(** The change of a status called "Message" never reaches a client. *)
Theorem c64_message_name_refuted : exists l o, reply l o = Success /\
  exists c, follow [o] (after l) (after l) = (after (l ++ [o]), c, true) /\ ~ alike (after (l ++ [o])) c.
Proof.
  exists [Add "Message" (ok 0)], (SetTo "Message" (err 0)). split; [vm_compute; reflexivity|].
  exists (after [Add "Message" (ok 0)]). split; [vm_compute; reflexivity|].
  intro H. destruct (H "Message") as [A _]. vm_compute in A. discriminate A.
Qed.

(** A status added while a client is connected is not told, and its next
    change makes the client throw. *)
Theorem c64_added_later_refuted : exists l o1 o2,
  reply l o1 = Success /\ emits l o1 = None /\ reply (l ++ [o1]) o2 = Success /\
  snd (follow [o1; o2] (after l) (after l)) = false.
Proof.
  exists [Add "A" (ok 0)], (Add "B" (ok 0)), (SetTo "B" (err 0)).
  split; [|split; [|split]]; vm_compute; reflexivity.
Qed.

(** The configuration status can be removed as if it were a streaming one,
    is reported as such, and can never be added again. *)
Theorem c64_config_removed_refuted : exists l c v,
  announces all l (AddConfiguration c v) c v "ConfigurationStatus" /\
  (let h := l ++ [AddConfiguration c v] in
   creply all h (RemoveStreaming c) = Success /\
   (exists e, cemits all h (RemoveStreaming c) = Some e /\ v_protocol e = Streaming) /\
   forall l2 c' v', creply all (h ++ RemoveStreaming c :: l2) (AddConfiguration c' v') <> Success).
Proof.
  exists [], "daq.nd://1", (ok 0). split; [exact (proj1 (proj2 conn_case))|]. cbv zeta.
  split; [vm_compute; reflexivity|]. split.
  - eexists. split; [vm_compute; reflexivity|reflexivity].
  - intros l2 c' v' R.
    assert (A := proj1 (proj2 conn_case)).
    destruct (announced _ _ _ _ _ _ A) as [K [_ [U _]]].
    assert (U2 : used (cafter all (([] ++ [AddConfiguration "daq.nd://1" (ok 0)]) ++ RemoveStreaming "daq.nd://1" :: l2)) configAlias).
    { change (([] ++ [AddConfiguration "daq.nd://1" (ok 0)]) ++ RemoveStreaming "daq.nd://1" :: l2)
        with ([] ++ AddConfiguration "daq.nd://1" (ok 0) :: (RemoveStreaming "daq.nd://1" :: l2)).
      rewrite cafter_cons. apply used_run; [exact K|exact U]. }
    assert (K2 : kinv (cafter all (([] ++ [AddConfiguration "daq.nd://1" (ok 0)]) ++ RemoveStreaming "daq.nd://1" :: l2)))
      by (apply crun_inv; apply kinv_none).
    unfold creply in R. cbn [cstep] in R. revert R U2 K2.
    generalize (cafter all (([] ++ [AddConfiguration "daq.nd://1" (ok 0)]) ++ RemoveStreaming "daq.nd://1" :: l2)) as s.
    intros s R U2 K2.
    assert (Q := addConf_cases c' v' s K2). destruct (addConfiguration c' v' s) as [[s' k] e]. cbn [fst snd] in R. subst k.
    destruct Q as [_ [_ [F _]]]. destruct U2 as [[_ X]|[n [_ X]]]; [congruence|exact (config_not_numbered _ X)].
Qed.

(** If the enumeration type has no "Removed", removing a connection fails
    after having removed it, and tells nobody. *)
Theorem c64_removed_anyway_refuted : exists knows l c,
  creply knows l (RemoveStreaming c) = Thrown /\ cemits knows l (RemoveStreaming c) = None /\
  cGetStatus (cafter knows l) "StreamingStatus_1" = Some (ok 0) /\
  cGetStatus (cafter knows (l ++ [RemoveStreaming c])) "StreamingStatus_1" = None.
Proof.
  exists (fun _ => false), [AddStreaming [] "daq.lt://1" (ok 0)], "daq.lt://1".
  split; [|split; [|split]]; vm_compute; reflexivity.
Qed.

(** Reading back loses the streaming connections. *)
Theorem c64_streaming_lost_refuted : exists l s, cReadBack (cafter all l) = Some s /\ ~ sameConn (cafter all l) s.
Proof.
  exists [AddStreaming [] "daq.lt://1" (ok 0)], noConn. split; [vm_compute; reflexivity|].
  intro H. destruct (H "StreamingStatus_1") as [A _]. vm_compute in A. discriminate A.
Qed.

Print Assumptions c64_table.
Print Assumptions c64_together.
Print Assumptions c64_refused.
Print Assumptions c64_event.
Print Assumptions c64_type.
Print Assumptions c64_follow_partial.
Print Assumptions c64_update.
Print Assumptions c64_round_trip.
Print Assumptions c64_old_text.
Print Assumptions c64_conn_value.
Print Assumptions c64_conn_removed.
Print Assumptions c64_conn_fresh.
Print Assumptions c64_conn_once.
Print Assumptions c64_conn_update.
Print Assumptions c64_conn_refused_partial.
Print Assumptions c64_conn_removal.
Print Assumptions c64_conn_read_back_partial.
Print Assumptions c64_message_name_refuted.
Print Assumptions c64_added_later_refuted.
Print Assumptions c64_config_removed_refuted.
Print Assumptions c64_removed_anyway_refuted.
Print Assumptions c64_streaming_lost_refuted.
