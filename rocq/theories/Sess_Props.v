(** C60: the clients of a native streaming server. *)
From Verif Require Import Base Sess_Model Sess_Spec Sess_Proofs Sess_Count Sess_Types Sess_Lists Sess_Keep Sess_Effect Sess_Back.
Local Open Scope Z_scope.

(** ** The limit of configuring clients: after any messages of any clients there are never more
    than the limit, when there is one. *)
Theorem c60_limit : forall max ms,
  0 < max < two64 -> Z.of_nat (length (configuring (run (start max) ms))) <= max.
Proof.
  intros max ms M. assert (Limit (run (start max) ms)) as L by (apply limit_run; apply limit_start; lia).
  pose proof (run_max ms (start max) (wf_start max)) as E. cbn [start sv_max] in E.
  pose proof (lm_below _ L) as B. rewrite E in B. rewrite configuring_cnt. apply B. lia.
Qed.

(** ** Exclusive control: while a client has it, no other can change the device -- as long as
    no configuring client announces another type than it was let in as (and within 2^64
    messages).  See c60_two_exclusive_refuted for what is missing. *)
Theorem c60_exclusive_partial : forall max ms a b,
  0 <= max < two64 -> Z.of_nat (length ms) < two64 ->
  along keeps_type (start max) ms ->
  connected (run (start max) ms) a -> connected (run (start max) ms) b -> a <> b ->
  has_rights a Exclusive -> ~ may_change b.
Proof.
  intros max ms a b M N K A B D R C. destruct (typed_run ms (start max) (typed_start max M) K N) as [T _].
  pose proof (lm_wf _ (ty_limit _ T)) as W. apply (rights_type _ a Exclusive T A) in R. destruct R as [UA TA].
  assert (h_sess a <> h_sess b) as NS by (intro E; apply D; exact (same_session _ a b W A B E)).
  assert (h_used b = true /\ (h_type b = Control \/ h_type b = Exclusive)) as [UB TB].
  { destruct C as [C|C]; apply (rights_type _ b _ T B) in C; destruct C as [C1 C2]; (split; [exact C1|]); [left|right]; exact C2. }
  apply connected_in in A; [|exact W]. apply connected_in in B; [|exact W].
  pose proof (tm_alone _ (ty_map _ T) _ _ A B UA UB NS TA) as V. cbn [snd] in V. destruct TB; congruence.
Qed.

(** A client that asks to configure is let in exactly when there is room and nobody is in its
    way, or it asked, as an exclusive client on its first connection, for those to be dropped.
    It then has the rights of its type, those in its way are gone, and every other client is
    as it was. *)
Theorem c60_accepted_partial : forall max ms h,
  0 <= max < two64 -> Z.of_nat (length ms) < two64 ->
  along keeps_type (start max) ms ->
  connected (run (start max) ms) h -> h_used h = false ->
  let sv := run (start max) ms in
  let r := step sv (Config (h_sess h)) in
  (snd r = Done <-> room sv /\ ((forall o, ~ in_the_way sv h o) \/ drops_others h)) /\
  (snd r = Done ->
     (forall o, o <> h -> connected sv o -> (connected (fst r) o <-> ~ in_the_way sv h o)) /\
     (exists h', connected (fst r) h' /\ h_sess h' = h_sess h /\ h_id h' = h_id h /\ h_user h' = h_user h /\ has_rights h' (h_type h))).
Proof.
  intros max ms h M N K C U sv r. destruct (typed_run ms (start max) (typed_start max M) K N) as [T B].
  destruct (config_result _ h T B C U) as [R1 [_ [_ R4]]]. fold sv r in R1, R4. split; [exact R1|]. intro D. specialize (R4 D). split.
  - intros o NO CO. rewrite R4. split.
    + intros [E|[_ [_ Q]]]; [|exact Q]. exfalso. apply NO.
      apply (same_session sv o h (lm_wf _ (ty_limit _ T)) CO C). subst o. reflexivity.
    + intro Q. right. repeat split; assumption.
  - exists (setUsed h). split; [apply R4; left; reflexivity|]. repeat split.
Qed.
(** It is told of the limit exactly when there is no room, and a refusal changes nothing. *)
Theorem c60_refused_partial : forall max ms h,
  0 <= max < two64 -> Z.of_nat (length ms) < two64 ->
  along keeps_type (start max) ms ->
  connected (run (start max) ms) h -> h_used h = false ->
  let sv := run (start max) ms in
  let r := step sv (Config (h_sess h)) in
  (snd r = LimitReached <-> ~ room sv) /\ (snd r <> Done -> fst r = sv).
Proof.
  intros max ms h M N K C U sv r. destruct (typed_run ms (start max) (typed_start max M) K N) as [T B].
  destruct (config_result _ h T B C U) as [_ [R2 [R3 _]]]. split; assumption.
Qed.

(** ** Without any condition on the messages *)

(** A client is gone only for one of the reasons of the specification: it closed, somebody
    reconnected under its id, or an exclusive client asked for those that may change the
    device to be dropped. *)
Theorem c60_ends : forall max ms m o,
  connected (run (start max) ms) o ->
  (forall o', connected (fst (step (run (start max) ms) m)) o' -> h_sess o' <> h_sess o) ->
  ends (run (start max) ms) m o.
Proof.
  intros max ms m o C G. apply step_ends; [apply wf_run; apply wf_start|exact C|]. intros [x [X E]]. exact (G x X E).
Qed.
(** And for these reasons it is gone: closed, or its id taken over. *)
Theorem c60_closed : forall max ms s o,
  connected (fst (step (run (start max) ms) (Close s))) o <-> connected (run (start max) ms) o /\ h_sess o <> s.
Proof.
  intros max ms s o. set (sv := run (start max) ms). assert (Wf sv) as W by (apply wf_run; apply wf_start).
  cbn [step]. unfold withHandler. destruct (findSession s (sv_map sv)) as [[i h]|] eqn:F; cbn [fst].
  - apply connected_release. exact W.
  - split; [|tauto]. intro C. split; [exact C|]. intro E. subst s. rewrite (found sv o W C) in F. discriminate.
Qed.
Theorem c60_taken_over : forall max ms h o p o',
  connected (run (start max) ms) h -> connected (run (start max) ms) o -> o <> h -> p_identity p = Some (h_id o, true) ->
  connected (fst (step (run (start max) ms) (Props (h_sess h) p))) o' -> h_sess o' <> h_sess o.
Proof.
  intros max ms h o p o' C O N P. set (sv := run (start max) ms) in *. assert (Wf sv) as W by (apply wf_run; apply wf_start).
  assert (h_sess o <> h_sess h) as NS by (intro E; apply N; exact (same_session sv o h W O C E)).
  intros C' E. assert (o' = o) as ->.
  { apply (step_others sv (Props (h_sess h) p) o o' W O); [cbn [session_of]; congruence|exact C'|exact E]. }
  pose proof C as HI. apply connected_in in HI; [|exact W]. pose proof (wf_take sv h (h_id o) true W HI) as W1.
  cbn [step] in C'. unfold withHandler in C'. rewrite (found sv h W C) in C'. unfold onProps in C'. rewrite P in C'.
  assert (connected (fst (takeId sv h (h_id o) true)) o) as K.
  { destruct (takeId sv h (h_id o) true) as [sv1 ok]. cbn [fst] in *. destruct ok; cbn [fst] in C'; [|exact C'].
    eapply (on_back sv1 _ (h_sess h) (setKind (announced p) (announcedDrop p)) o W1); [| | |exact C'|exact NS].
    - eapply wf_onSession; [exact W1|apply (mild_kind (announced p) (announcedDrop p))|reflexivity|reflexivity].
    - reflexivity.
    - reflexivity. }
  apply take_connected_other in K; [|exact W|exact C|exact NS]. destruct K as [_ K]. apply K. split; reflexivity.
Qed.
(** What one client sends changes nothing of another client that stays. *)
Theorem c60_untouched : forall max ms m o o',
  connected (run (start max) ms) o -> session_of m <> Some (h_sess o) ->
  connected (fst (step (run (start max) ms) m)) o' -> h_sess o' = h_sess o -> o' = o.
Proof. intros max ms m o o' C N C' E. apply (step_others (run (start max) ms) m); try assumption. apply wf_run. apply wf_start. Qed.
(** The rights a client was given stay the same while it is connected, and so does its user. *)
Theorem c60_rights_fixed : forall max ms m h h' t,
  connected (run (start max) ms) h -> connected (fst (step (run (start max) ms) m)) h' -> h_sess h' = h_sess h ->
  h_user h' = h_user h /\ (has_rights h t -> has_rights h' t).
Proof.
  intros max ms m h h' t C C' E. assert (Wf (run (start max) ms)) as W by (apply wf_run; apply wf_start).
  assert (session_of m = Some (h_sess h) \/ session_of m <> Some (h_sess h)) as [SM|SM].
  { destruct (session_of m) as [n|]; [|right; discriminate]. destruct (Nat.eq_dec n (h_sess h)); [left|right]; congruence. }
  - pose proof (step_self _ m h h' W C SM C' E) as A. unfold has_rights. destruct m as [u|s p|s|s|s|]; try discriminate; cbn [self_after] in A.
    + destruct A as [A1 [A2 [_ [A4 _]]]]. rewrite A1, A2. split; [exact A4|tauto].
    + destruct A as [A|[A [U _]]]; [subst h'; tauto|]. subst h'. split; [reflexivity|]. intros [Q _]. congruence.
    + destruct A as [A|[A _]]; subst h'; split; cbn; tauto.
    + contradiction.
  - rewrite (step_others _ m h h' W C SM C' E). tauto.
Qed.
(** It gets them only by asking for them itself, and then those of the type it announced. *)
Theorem c60_rights_given : forall max ms m h h',
  connected (run (start max) ms) h -> connected (fst (step (run (start max) ms) m)) h' -> h_sess h' = h_sess h ->
  h_used h = false -> h_used h' = true ->
  m = Config (h_sess h) /\ snd (step (run (start max) ms) m) = Done /\ has_rights h' (h_type h).
Proof.
  intros max ms m h h' C C' E U U'. assert (Wf (run (start max) ms)) as W by (apply wf_run; apply wf_start).
  assert (session_of m = Some (h_sess h) \/ session_of m <> Some (h_sess h)) as [SM|SM].
  { destruct (session_of m) as [n|]; [|right; discriminate]. destruct (Nat.eq_dec n (h_sess h)); [left|right]; congruence. }
  - pose proof (step_self _ m h h' W C SM C' E) as A. destruct m as [u|s p|s|s|s|]; try discriminate; cbn [self_after session_of] in A, SM.
    + destruct A as [A _]. congruence.
    + injection SM as ->. destruct A as [A|[A [_ D]]]; [congruence|]. subst h'. split; [reflexivity|]. split; [exact D|]. split; reflexivity.
    + destruct A as [A|[A _]]; subst h'; cbn in U'; congruence.
    + contradiction.
  - exfalso. rewrite (step_others _ m h h' W C SM C' E) in U'. congruence.
Qed.
(** A new connection has no rights, and the type a client announces is the one it is let in as. *)
Theorem c60_announced : forall max ms s p h h',
  connected (run (start max) ms) h -> h_sess h = s ->
  connected (fst (step (run (start max) ms) (Props s p))) h' -> h_sess h' = s ->
  announces p (h_type h') /\ h_drop h' = (match p_drop p with Some b => b | None => false end).
Proof.
  intros max ms s p h h' C E C' E'. subst s. assert (Wf (run (start max) ms)) as W by (apply wf_run; apply wf_start).
  pose proof (step_self _ (Props (h_sess h) p) h h' W C eq_refl C' E') as A. cbn [self_after] in A.
  destruct A as [_ [_ [_ [_ [A B]]]]]. split; [|rewrite B; reflexivity]. rewrite A. apply announces_announced.
Qed.
Theorem c60_new_client : forall max ms u h,
  connected (fst (step (run (start max) ms) (Open u))) h -> ~ connected (run (start max) ms) h ->
  h_user h = u /\ h_used h = false /\ h_stream h = None /\ (forall o, connected (run (start max) ms) o -> h_sess o <> h_sess h /\ h_id o <> h_id h).
Proof.
  intros max ms u h C N. set (sv := run (start max) ms) in *. assert (Wf sv) as W by (apply wf_run; apply wf_start).
  cbn [step] in C. unfold connected, clients, onOpen in C. cbn [fst sv_map] in C. unfold insert in C.
  destruct (lookup (Assigned (sv_next sv)) (sv_map sv)) eqn:L; [contradiction|]. rewrite map_app in C. apply in_app_or in C.
  destruct C as [C|[C|[]]]; [contradiction|]. cbn [snd] in C. subst h. cbn [h_user h_used h_stream h_sess h_id].
  split; [reflexivity|]. split; [reflexivity|]. split; [reflexivity|]. intros o O. apply connected_in in O; [|exact W]. split.
  - pose proof (wf_old sv W _ O) as K. unfold sessOf in K. cbn [snd] in K. lia.
  - intro Q. rewrite <- Q in L. rewrite (in_lookup _ _ _ _ (wf_keys sv W) O) in L. discriminate.
Qed.

(** ** Ids *)
Theorem c60_ids : forall max ms a b,
  connected (run (start max) ms) a -> connected (run (start max) ms) b ->
  (h_id a = h_id b \/ h_sess a = h_sess b) -> a = b.
Proof.
  intros max ms a b A B E. assert (Wf (run (start max) ms)) as W by (apply wf_run; apply wf_start).
  destruct E as [E|E]; [apply (same_id _ a b W A B E)|apply (same_session _ a b W A B E)].
Qed.
(** A client that asks for an id gets it when it is free or when it says that it reconnects;
    otherwise it keeps the one it has.  (The case left out is c60_own_id_refuted.) *)
Theorem c60_id_given_partial : forall max ms h p i again,
  connected (run (start max) ms) h -> p_identity p = Some (i, again) -> ~ (again = true /\ i = h_id h) ->
  let r := step (run (start max) ms) (Props (h_sess h) p) in
  snd r = Done /\
  exists h', connected (fst r) h' /\ h_sess h' = h_sess h /\ h_again h' = again /\
    (((forall o, connected (run (start max) ms) o -> h_id o <> i) \/ again = true -> h_id h' = i) /\
     ((exists o, connected (run (start max) ms) o /\ h_id o = i) -> again = false -> h_id h' = h_id h)).
Proof.
  intros max ms h p i again C P N r. set (sv := run (start max) ms) in *. assert (Wf sv) as W by (apply wf_run; apply wf_start).
  pose proof C as HI. apply connected_in in HI; [|exact W]. pose proof (wf_take sv h i again W HI) as W1.
  destruct (take_id sv h i again W C) as [[A [B _]]|[OK [x [X [EX [AX IX]]]]]]; [tauto|].
  subst r. cbn [step]. unfold withHandler. rewrite (found sv h W C). unfold onProps. rewrite P.
  destruct (takeId sv h i again) as [sv1 ok]. cbn [fst snd] in *. subst ok. cbn [fst snd]. split; [reflexivity|].
  exists (setKind (announced p) (announcedDrop p) x). split.
  { apply kind_connected; [exact W1|]. exists x. split; [exact X|]. rewrite EX, Nat.eqb_refl. reflexivity. }
  split; [exact EX|]. split; [exact AX|]. cbn [setKind h_id]. rewrite IX. split.
  - intros [F|F].
    + destruct (lookup i (sv_map sv)) as [o|] eqn:L; [|reflexivity]. exfalso. apply lookup_in in L.
      pose proof (wf_ids sv W _ L) as Q. cbn [fst snd] in Q. apply (F o); [|congruence]. apply connected_in; [exact W|]. rewrite <- Q. exact L.
    + rewrite F. destruct (lookup i (sv_map sv)); reflexivity.
  - intros [o [O Q]] F. rewrite F. apply connected_in in O; [|exact W]. rewrite <- Q, (in_lookup _ _ _ _ (wf_keys sv W) O). reflexivity.
Qed.

(** ** The device's list of clients *)
Theorem c60_numbers : forall max ms, NoDup (map e_num (sv_shown (run (start max) ms))).
Proof. intros max ms. exact (nu_shown _ (nums_run ms (start max) (wf_start max) (nums_start max))). Qed.
(** Exactly the clients that configure or stream are listed, each once, with the rights it
    has -- if clients in use keep their id and no session is used for both. *)
Theorem c60_listed_partial : forall max ms,
  along keeps_id (start max) ms -> along one_use (start max) ms ->
  let sv := run (start max) ms in
  (forall h, connected sv h -> in_use h <-> exists e, In e (sv_shown sv) /\ entry_of h e) /\
  (forall e, In e (sv_shown sv) -> exists h, connected sv h /\ entry_of h e) /\
  NoDup (map e_sess (sv_shown sv)).
Proof. intros max ms A B sv. apply listed_facts. apply listed_run; [apply listed_start|exact A|exact B]. Qed.

(** A listed client that leaves and comes back under its id is listed under its number, marked
    as being back, if nobody used the id in between. *)
Theorem c60_same_number_partial : forall max ms1 h e ms2 h' m,
  along keeps_id (start max) ms1 -> along one_use (start max) ms1 ->
  connected (run (start max) ms1) h -> In e (sv_shown (run (start max) ms1)) -> entry_of h e ->
  let left := fst (step (run (start max) ms1) (Close (h_sess h))) in
  along (unused_id (h_id h)) left ms2 ->
  connected (run left ms2) h' -> h_id h' = h_id h ->
  (m = Config (h_sess h') /\ h_used h' = false) \/ m = Stream (h_sess h') ->
  snd (step (run left ms2) m) = Done ->
  exists e', In e' (sv_shown (fst (step (run left ms2) m))) /\ e_sess e' = h_sess h' /\ e_num e' = e_num e /\ e_again e' = true.
Proof.
  intros max ms1 h e ms2 h' m A B C I0 E left UN C' EI M D.
  assert (Listed (run (start max) ms1)) as L by (apply listed_run; [apply listed_start|exact A|exact B]).
  pose proof (li_wf _ L) as W. assert (Wf left) as WL by (apply wf_step; exact W).
  assert (Apart (run (start max) ms1)) as AP by (apply apart_run; [apply wf_start|apply apart_start]).
  pose proof (close_keeps_number _ h e L AP C I0 E) as K. fold left in K.
  pose proof (kept_run _ _ ms2 left WL UN K) as K2. rewrite <- EI in K2.
  apply step_again; [apply wf_run; exact WL| |exact K2|exact C'|exact M|exact D].
  apply nums_run; [exact WL|]. apply nums_step; [exact W|]. exact (li_nums _ L).
Qed.

(** ** Streaming *)
(** A new signal is announced to exactly the clients that asked for streaming, and never
    fails -- if clients in use keep their id. *)
Theorem c60_streams_partial : forall max ms,
  along keeps_id (start max) ms ->
  let sv := run (start max) ms in
  step sv NewSignal = (sv, Done) /\
  (forall s, In s (told sv) <-> exists h, connected sv h /\ h_sess h = s /\ h_stream h <> None).
Proof.
  intros max ms A sv. assert (Wf sv) as W by (apply wf_run; apply wf_start).
  assert (Streamed sv) as ST by (apply streamed_run; [apply wf_start|apply streamed_start|exact A]).
  split; [apply signal_done; assumption|]. intro s. apply told_spec; assumption.
Qed.
(** A client that does not stream yet and asks for it is served. *)
Theorem c60_stream_request_partial : forall max ms h,
  along keeps_id (start max) ms -> connected (run (start max) ms) h -> h_stream h = None ->
  let r := step (run (start max) ms) (Stream (h_sess h)) in
  snd r = Done /\ In (h_sess h) (told (fst r)) /\ exists h', connected (fst r) h' /\ h_sess h' = h_sess h /\ h_stream h' <> None.
Proof.
  intros max ms h A C N r. set (sv := run (start max) ms) in *. assert (Wf sv) as W by (apply wf_run; apply wf_start).
  assert (Streamed sv) as ST by (apply streamed_run; [apply wf_start|apply streamed_start|exact A]).
  assert (Streamed (fst r)) as ST1 by (apply streamed_step; [exact W|exact ST|exact I]).
  assert (Wf (fst r)) as W1 by (apply wf_step; exact W).
  assert (snd r = Done /\ exists h', connected (fst r) h' /\ h_sess h' = h_sess h /\ h_stream h' <> None) as [R1 R2].
  { subst r. cbn [step] in *. unfold withHandler in *. rewrite (found sv h W C) in *. unfold onStream in *.
    destruct (hasId (h_id h) (sv_streams sv)) eqn:Q.
    - exfalso. apply hasId_spec in Q. apply (st_ids sv ST) in Q. destruct Q as [o [O [E F]]]. rewrite (same_id sv o h W O C E) in F. contradiction.
    - cbv zeta in *. cbn [fst snd] in *. split; [reflexivity|]. exists (setStream h). split; [|split; [reflexivity|discriminate]].
      eapply (connected_on sv _ (h_sess h) setStream W); [exact W1|reflexivity|]. exists h. split; [exact C|]. rewrite Nat.eqb_refl. reflexivity. }
  split; [exact R1|]. split; [|exact R2]. apply told_spec; assumption.
Qed.

(** ** What is missing *)
Definition nobody : handler :=
  {| h_sess := 9; h_user := 0; h_id := Own 0; h_again := false; h_type := Control; h_drop := false;
     h_used := false; h_rights := None; h_stream := None |}.
Definition asks (t : Z) (drop : bool) : props := {| p_identity := None; p_type := Some t; p_drop := Some drop |}.
Definition named (i : cid) (again : bool) : props := {| p_identity := Some (i, again); p_type := None; p_drop := None |}.

(** A client let in as exclusive that then announces another type keeps its rights; a second
    exclusive client is let in, asking for the others to be dropped and without it being. *)
Theorem c60_two_exclusive_refuted : exists ms a b,
  connected (run (start 0) ms) a /\ connected (run (start 0) ms) b /\ a <> b /\
  has_rights a Exclusive /\ has_rights b Exclusive.
Proof.
  set (ms := [Open 0; Props 0 (asks 1 false); Config 0; Props 0 (asks 2 false); Open 1; Props 1 (asks 1 true); Config 1]).
  exists ms. exists (nth 0 (clients (run (start 0) ms)) nobody).
  exists (nth 1 (clients (run (start 0) ms)) nobody).
  split; [vm_compute; left; reflexivity|]. split; [vm_compute; right; left; reflexivity|]. split; [vm_compute; discriminate|].
  split; split; vm_compute; reflexivity.
Qed.
(** A client that leaves after announcing another type than it was let in as makes the count
    wrap; from then on no exclusive client is let in, with nobody configuring. *)
Theorem c60_locked_out_refuted : exists ms h,
  connected (run (start 0) ms) h /\ h_type h = Exclusive /\ configuring (run (start 0) ms) = [] /\
  step (run (start 0) ms) (Config (h_sess h)) = (run (start 0) ms, ControlRejected).
Proof.
  set (ms := [Open 0; Props 0 (asks 2 false); Config 0; Props 0 (asks 0 false); Close 0; Open 1; Props 1 (asks 1 false)]).
  exists ms. exists (nth 0 (clients (run (start 0) ms)) nobody).
  split; [vm_compute; left; reflexivity|]. split; [vm_compute; reflexivity|]. split; vm_compute; reflexivity.
Qed.
(** A client of one user ends the connection of a client of another user by naming its id. *)
Theorem c60_kicked_refuted : exists ms m a b,
  connected (run (start 0) ms) a /\ connected (run (start 0) ms) b /\ h_user a <> h_user b /\
  session_of m = Some (h_sess b) /\ has_rights a Exclusive /\ h_used b = false /\
  (forall o, connected (fst (step (run (start 0) ms) m)) o -> h_sess o <> h_sess a).
Proof.
  set (ms := [Open 0; Props 0 (asks 1 false); Config 0; Open 1]).
  exists ms, (Props 1 (named (Assigned 0) true)).
  exists (nth 0 (clients (run (start 0) ms)) nobody).
  exists (nth 1 (clients (run (start 0) ms)) nobody).
  split; [vm_compute; left; reflexivity|]. split; [vm_compute; right; left; reflexivity|]. split; [vm_compute; discriminate|].
  split; [vm_compute; reflexivity|]. split; [split; vm_compute; reflexivity|]. split; [vm_compute; reflexivity|].
  intros o H. vm_compute in H. destruct H as [H|[]]. subst o. vm_compute. discriminate.
Qed.
(** A client that says again who it is, as reconnected, ends its own connection, and an
    exception leaves the handler. *)
Theorem c60_own_id_refuted : exists ms h p,
  connected (run (start 0) ms) h /\ p_identity p = Some (h_id h, true) /\
  snd (step (run (start 0) ms) (Props (h_sess h) p)) = Raised /\
  clients (fst (step (run (start 0) ms) (Props (h_sess h) p))) = [].
Proof.
  set (ms := [Open 0; Props 0 (named (Own 7) true); Config 0]).
  exists ms. exists (nth 0 (clients (run (start 0) ms)) nobody).
  exists (named (Own 7) true). split; [vm_compute; left; reflexivity|]. split; [vm_compute; reflexivity|]. split; vm_compute; reflexivity.
Qed.
(** A client that takes the id the server would give to the next one makes the next client be
    accepted and never served. *)
Theorem c60_future_id_refuted : exists ms,
  clients (fst (step (run (start 0) ms) (Open 1))) = clients (run (start 0) ms) /\
  snd (step (run (start 0) ms) (Open 1)) = Done /\
  snd (step (run (start 0) (ms ++ [Open 1])) (Config 1)) = Ignored.
Proof.
  exists [Open 0; Props 0 (named (Assigned 1) false)]. split; [vm_compute; reflexivity|]. split; vm_compute; reflexivity.
Qed.
(** A session that configures and streams leaves an entry behind. *)
Theorem c60_listed_both_refuted : exists ms,
  along keeps_id (start 0) ms /\ clients (run (start 0) ms) = [] /\ length (sv_shown (run (start 0) ms)) = 1%nat.
Proof.
  exists [Open 0; Config 0; Stream 0; Close 0]. split; [vm_compute; tauto|]. split; vm_compute; reflexivity.
Qed.
(** So does a configuring client that takes another id. *)
Theorem c60_listed_renamed_refuted : exists ms,
  along one_use (start 0) ms /\ clients (run (start 0) ms) = [] /\ length (sv_shown (run (start 0) ms)) = 1%nat.
Proof.
  exists [Open 0; Config 0; Props 0 (named (Own 3) false); Close 0]. split; [|split; vm_compute; reflexivity].
  cbn [along one_use]. split; [exact I|]. split; [|tauto]. intros h H _. vm_compute in H. destruct H as [H|[]]. subst h. reflexivity.
Qed.
(** A second request for streaming is an exception. *)
Theorem c60_stream_twice_refuted : exists ms,
  snd (step (run (start 0) ms) (Stream 0)) = Raised.
Proof. exists [Open 0; Stream 0]. vm_compute. reflexivity. Qed.
(** A streaming client that takes another id makes every new signal of the device an exception;
    once another client takes the old id, that one is told instead. *)
Theorem c60_renamed_stream_refuted : exists ms,
  along one_use (start 0) ms /\ snd (step (run (start 0) ms) NewSignal) = Raised.
Proof.
  exists [Open 0; Stream 0; Props 0 (named (Own 3) false)]. split; [|vm_compute; reflexivity].
  cbn [along one_use]. split; [exact I|]. split; [|tauto]. intros h H _. vm_compute in H. destruct H as [H|[]]. subst h. reflexivity.
Qed.
Theorem c60_misdelivered_refuted : exists ms,
  told (run (start 0) ms) = [1%nat] /\
  (forall h, connected (run (start 0) ms) h -> h_stream h <> None -> h_sess h = 0%nat).
Proof.
  exists [Open 0; Stream 0; Props 0 (named (Own 3) false); Open 1; Props 1 (named (Assigned 0) false)].
  split; [vm_compute; reflexivity|]. intros h H. vm_compute in H. destruct H as [H|[H|[]]]; subst h; vm_compute; congruence.
Qed.
(** The limit is looked at before the others are dropped: with room for one, an exclusive
    client that asks for the one to be dropped is refused. *)
Theorem c60_limit_before_drop_refuted : exists ms h,
  connected (run (start 1) ms) h /\ drops_others h /\ snd (step (run (start 1) ms) (Config (h_sess h))) = LimitReached /\
  along keeps_type (start 1) ms.
Proof.
  set (ms := [Open 0; Config 0; Open 1; Props 1 (asks 1 true)]).
  exists ms. exists (nth 1 (clients (run (start 1) ms)) nobody).
  split; [vm_compute; right; left; reflexivity|]. split; [repeat split; vm_compute; reflexivity|]. split; [vm_compute; reflexivity|].
  cbn [along keeps_type ms]. split; [exact I|]. split; [exact I|]. split; [exact I|]. split; [|exact I].
  intros h t H E R. vm_compute in H. destruct H as [H|[H|[]]]; subst h; [discriminate E|]. destruct R as [R _]. discriminate R.
Qed.

(** ** Cases *)
Definition story : list msg :=
  [Open 5; Open 6; Props 0 (named (Own 1) false); Config 0; Open 7; Props 2 (asks 2 false); Config 2;
   Stream 1; Props 1 (asks 1 true); Open 8; Props 3 (asks 1 true)].
Ltac walk := repeat (first [exact I | (split; [exact I|]) | split]).
(** Three clients configure or stream; the conditions hold along the way. *)
Example story_clients : map (fun h => (h_sess h, h_used h)) (clients (run (start 2) story)) = [(1%nat, false); (0%nat, true); (2%nat, true); (3%nat, false)].
Proof. vm_compute. reflexivity. Qed.
Example story_shown : map (fun e => (e_num e, e_sess e)) (sv_shown (run (start 2) story)) = [(1%nat, 0%nat); (2%nat, 2%nat); (3%nat, 1%nat)].
Proof. vm_compute. reflexivity. Qed.
Example story_keeps_type : along keeps_type (start 0) story.
Proof.
  unfold story. cbn [along keeps_type]. walk; intros h t H E R; vm_compute in H;
    repeat (destruct H as [H|H]; [subst h; try discriminate E; destruct R as [R1 R2]; try discriminate R1; try discriminate R2|]); try contradiction.
Qed.
Example story_keeps_id : along keeps_id (start 0) story.
Proof.
  unfold story. cbn [along keeps_id]. walk; intros h i again H E U P; vm_compute in H;
    repeat (destruct H as [H|H]; [subst h; try discriminate E; try discriminate P; destruct U as [U|U]; vm_compute in U; try discriminate U; try (exfalso; apply U; reflexivity)|]); try contradiction.
Qed.
Example story_one_use : along one_use (start 0) story.
Proof.
  unfold story. cbn [along one_use]. walk; intros h H E; vm_compute in H;
    repeat (destruct H as [H|H]; [subst h; try discriminate E; reflexivity|]); try contradiction.
Qed.
(** The exclusive client is let in, the controlling one goes, the viewing and the streaming ones stay. *)
Example story_exclusive : snd (step (run (start 0) story) (Config 3)) = Done /\
  map h_sess (clients (fst (step (run (start 0) story) (Config 3)))) = [1%nat; 2%nat; 3%nat].
Proof. split; vm_compute; reflexivity. Qed.
Example story_limit : snd (step (run (start 2) story) (Config 3)) = LimitReached.
Proof. vm_compute. reflexivity. Qed.
(** A client that comes back under its id gets its number again. *)
Example story_back : map (fun e => (e_num e, e_sess e, e_again e))
  (sv_shown (run (start 0) (story ++ [Close 0; Open 5; Props 4 (named (Own 1) true); Config 4])))
  = [(2%nat, 2%nat, false); (3%nat, 1%nat, false); (1%nat, 4%nat, true)].
Proof. vm_compute. reflexivity. Qed.

Print Assumptions c60_limit.
Print Assumptions c60_exclusive_partial.
Print Assumptions c60_accepted_partial.
Print Assumptions c60_refused_partial.
Print Assumptions c60_ends.
Print Assumptions c60_closed.
Print Assumptions c60_taken_over.
Print Assumptions c60_untouched.
Print Assumptions c60_rights_fixed.
Print Assumptions c60_rights_given.
Print Assumptions c60_announced.
Print Assumptions c60_new_client.
Print Assumptions c60_ids.
Print Assumptions c60_id_given_partial.
Print Assumptions c60_numbers.
Print Assumptions c60_listed_partial.
Print Assumptions c60_same_number_partial.
Print Assumptions c60_streams_partial.
Print Assumptions c60_stream_request_partial.
Print Assumptions c60_two_exclusive_refuted.
Print Assumptions c60_locked_out_refuted.
Print Assumptions c60_kicked_refuted.
Print Assumptions c60_own_id_refuted.
Print Assumptions c60_future_id_refuted.
Print Assumptions c60_listed_both_refuted.
Print Assumptions c60_listed_renamed_refuted.
Print Assumptions c60_stream_twice_refuted.
Print Assumptions c60_renamed_stream_refuted.
Print Assumptions c60_misdelivered_refuted.
Print Assumptions c60_limit_before_drop_refuted.
