(** C61: who is let in, as which user. *)
From Coq Require Import String Ascii.
From Verif Require Import Base Auth_Model Auth_Spec Auth_Proofs.

(** ** Passwords: a name and a password are accepted exactly when the last user listed under the
    name has that password, and the user given is that user. *)
Theorem c61_static : forall bcrypt anon users name password u,
  authenticate bcrypt (static anon users) name password = Some u <->
  last_named users name u /\ right_password bcrypt (u_hash u) password.
Proof.
  intros bcrypt anon users name password u. unfold authenticate. cbn [static p_users].
  destruct (find_user (loadUsers users) name) as [v|] eqn:F.
  - pose proof F as L. apply find_load in L. destruct (passwordValid bcrypt (u_hash v) password) eqn:P.
    + apply password_spec in P. split; [intro H; injection H as <-; split; assumption|].
      intros [LU _]. apply find_load in LU. congruence.
    + split; [discriminate|]. intros [LU R]. apply find_load in LU. rewrite F in LU. injection LU as ->. apply password_spec in R. congruence.
  - split; [discriminate|]. intros [LU _]. apply find_load in LU. congruence.
Qed.

(** ** Anonymous users: accepted exactly when allowed, and then with the group everyone only. *)
Theorem c61_anonymous : forall anon users u,
  authenticateAnonymous (static anon users) = Some u <->
  anon = true /\ u_name u = t "" /\ u_hash u = t "" /\ u_groups u = [t "everyone"].
Proof.
  intros anon users u. unfold authenticateAnonymous. cbn [static p_anon p_anonymous]. destruct anon.
  - split.
    + intro H. injection H as <-. repeat split; vm_compute; reflexivity.
    + intros [_ [A [B C]]]. destruct u as [n h g]. cbn [u_name u_hash u_groups] in *. subst. vm_compute. reflexivity.
  - split; [discriminate|]. intros [H _]. discriminate.
Qed.

(** ** Sessions: a session is accepted exactly for the user its login stands for. *)
Theorem c61_session : forall bcrypt anon users l u,
  onAuthenticate bcrypt (static anon users) l = Some u <->
  match l with
  | Anonymous => anon = true /\ u = mkUser [] [] []
  | Basic name password => last_named users name u /\ right_password bcrypt (u_hash u) password
  end.
Proof.
  intros bcrypt anon users l u. destruct l as [|n w]; cbn [onAuthenticate]; [|apply c61_static].
  unfold authenticateAnonymous. cbn [static p_anon p_anonymous]. destruct anon.
  - split; [intro H; injection H as <-; split; reflexivity|]. intros [_ ->]. reflexivity.
  - split; [discriminate|]. intros [H _]. discriminate.
Qed.

(** ** Groups: a user has the groups given and everyone, each once. *)
Theorem c61_groups : forall name hash groups,
  (forall g, In g (u_groups (mkUser name hash groups)) <-> g = t "everyone" \/ In g groups) /\
  NoDup (u_groups (mkUser name hash groups)).
Proof.
  intros name hash groups. cbn [mkUser u_groups]. split; [intro g; apply sanitize_in|]. apply sorted_nodup. apply sanitize_sorted.
Qed.
(** Users are equal exactly when they have the same name, hash and groups, in whatever order and
    number these were given. *)
Theorem c61_equal : forall n h g n' h' g',
  userEqual (mkUser n h g) (mkUser n' h' g') = true <-> same_user (mkUser n h g) (mkUser n' h' g').
Proof.
  intros n h g n' h' g'. rewrite userEqual_spec. unfold same_user. split; [intros <-; repeat split; intro H; exact H|].
  cbn [mkUser u_name u_hash u_groups]. intros [-> [-> E]]. unfold mkUser. f_equal.
  apply sorted_same; try apply sanitize_sorted. exact E.
Qed.
(** A user that is written and read is the same user. *)
Theorem c61_round_trip : forall n h g, deserializeUser (serializeUser (mkUser n h g)) = Some (mkUser n h g).
Proof.
  intros n h g. unfold serializeUser, deserializeUser.
  change (member _ (t "username")) with (Some (JString (u_name (mkUser n h g)))).
  change (member _ (t "passwordHash")) with (Some (JString (u_hash (mkUser n h g)))).
  change (member _ (t "groups")) with (Some (JArray (map JString (u_groups (mkUser n h g))))). cbn beta iota. rewrite strings_map.
  cbn [mkUser u_name u_hash u_groups]. unfold mkUser. rewrite sanitize_again. reflexivity.
Qed.

(** A written user without groups is read as one without groups. *)
Theorem c61_no_groups : forall o n h,
  has o "username" (JString n) -> has o "passwordHash" (JString h) -> lacks o "groups" ->
  deserializeUser (JObject o) = Some (mkUser n h []).
Proof.
  intros o n h A B C. cbn [deserializeUser]. apply member_has in A. apply member_has in B. apply member_lacks in C.
  rewrite A, B, C. reflexivity.
Qed.
(** A user is called anonymous exactly if it has neither a name nor a password. *)
Theorem c61_is_anonymous : forall u, isAnonymous u = true <-> u_name u = t "" /\ u_hash u = t "".
Proof.
  intro u. unfold isAnonymous. rewrite andb_true_iff, !text_eqb_spec. reflexivity.
Qed.
(** A provider made without users lets nobody in by name, and anonymous sessions if allowed. *)
Theorem c61_no_users : forall bcrypt anon,
  (forall name password, onAuthenticate bcrypt (empty anon) (Basic name password) = None) /\
  (forall u, onAuthenticate bcrypt (empty anon) Anonymous = Some u <->
     anon = true /\ u_name u = t "" /\ u_hash u = t "" /\ u_groups u = [t "everyone"]).
Proof.
  intros bcrypt anon. split; [reflexivity|]. intro u. exact (c61_anonymous anon [] u).
Qed.

(** ** Documents: a provider is made from a document exactly when the document can be read, and
    it is the one with the users read; every other text, and every other object, is refused. *)
Theorem c61_json : forall j p,
  loadJson (Some j) = Loaded p <-> exists anon us, reads j anon us /\ p = static anon (map user_of us).
Proof. exact loadJson_spec. Qed.
Theorem c61_json_refused_partial : forall o,
  (forall anon us, ~ reads (JObject o) anon us) -> loadJson (Some (JObject o)) = ParseFailed /\ loadJson None = ParseFailed.
Proof.
  intros o N. split; [|reflexivity]. destruct (loadJson (Some (JObject o))) as [p| |] eqn:E; [|reflexivity|].
  - exfalso. apply loadJson_spec in E. destruct E as [anon [us [R _]]]. exact (N anon us R).
  - exfalso. cbn [loadJson] in E. destruct (member o (t "allowAnonymous")) as [[| | | | |]|]; try discriminate.
    destruct (parseUsers o); discriminate.
Qed.

(** ** Use: whatever is done with the users a provider gives, the same names and passwords are
    accepted afterwards, for users of the same name and hash that have at least their groups. *)
Theorem c61_use_partial : forall bcrypt p l name password,
  (authenticate bcrypt (uses p l) name password = None <-> authenticate bcrypt p name password = None) /\
  (forall u, authenticate bcrypt p name password = Some u ->
     exists u', authenticate bcrypt (uses p l) name password = Some u' /\ u_name u' = u_name u /\ u_hash u' = u_hash u /\ incl (u_groups u) (u_groups u')).
Proof.
  intros bcrypt p l name password.
  assert (forall l p, match find_user (p_users p) name with
     | None => find_user (p_users (uses p l)) name = None
     | Some u => exists u', find_user (p_users (uses p l)) name = Some u' /\ u_name u' = u_name u /\ u_hash u' = u_hash u /\ incl (u_groups u) (u_groups u') end) as K.
  { clear. induction l as [|x l IH]; intro p.
    - cbn [uses fold_left]. destruct (find_user (p_users p) name) as [u|]; [|reflexivity]. exists u. split; [reflexivity|]. repeat split. apply incl_refl.
    - change (uses p (x :: l)) with (uses (after p x) l). specialize (IH (after p x)).
      assert (match find_user (p_users p) name with
        | None => find_user (p_users (after p x)) name = None
        | Some u => exists u', find_user (p_users (after p x)) name = Some u' /\ u_name u' = u_name u /\ u_hash u' = u_hash u /\ incl (u_groups u) (u_groups u') end) as ST.
      { assert (p_users (after p x) = p_users p -> match find_user (p_users p) name with
          | None => find_user (p_users (after p x)) name = None
          | Some u => exists u', find_user (p_users (after p x)) name = Some u' /\ u_name u' = u_name u /\ u_hash u' = u_hash u /\ incl (u_groups u) (u_groups u') end) as SAME.
        { intros ->. destruct (find_user (p_users p) name) as [u|]; [|reflexivity]. exists u. split; [reflexivity|]. repeat split. apply incl_refl. }
        destruct x as [lg|n g|g]; cbn [after] in *.
        - apply SAME. reflexivity.
        - cbn [p_users]. rewrite find_on by reflexivity. destruct (find_user (p_users p) name) as [u|]; destruct (text_eqb n name); cbn [option_map].
          + exists (pushGroup g u). split; [reflexivity|]. split; [reflexivity|]. split; [reflexivity|]. cbn [pushGroup u_groups]. intros y Y. apply in_or_app. left. exact Y.
          + exists u. split; [reflexivity|]. repeat split. apply incl_refl.
          + reflexivity.
          + reflexivity.
        - apply SAME. destruct (p_anon p); reflexivity. }
      destruct (find_user (p_users p) name) as [u|].
      + destruct ST as [v [E [A [B C]]]]. rewrite E in IH. destruct IH as [w [E2 [A2 [B2 C2]]]]. exists w. split; [exact E2|].
        split; [congruence|]. split; [congruence|]. eapply incl_tran; eassumption.
      + rewrite ST in IH. exact IH. }
  specialize (K l p). unfold authenticate. destruct (find_user (p_users p) name) as [u|].
  - destruct K as [v [E [A [B C]]]]. rewrite E, B. destruct (passwordValid bcrypt (u_hash u) password).
    + split; [split; discriminate|]. intros x H. injection H as <-. exists v. repeat split; assumption.
    + split; [split; reflexivity|]. intros x H. discriminate.
  - rewrite K. split; [split; reflexivity|]. intros x H. discriminate.
Qed.
(** The same for anonymous sessions. *)
Theorem c61_use_anonymous_partial : forall p l,
  (authenticateAnonymous (uses p l) = None <-> authenticateAnonymous p = None) /\
  (forall u, authenticateAnonymous p = Some u ->
     exists u', authenticateAnonymous (uses p l) = Some u' /\ u_name u' = u_name u /\ u_hash u' = u_hash u /\ incl (u_groups u) (u_groups u')).
Proof.
  intros p l. revert p. induction l as [|x l IH]; intro p.
  - cbn [uses fold_left]. split; [tauto|]. intros u H. exists u. repeat split; [exact H|apply incl_refl].
  - change (uses p (x :: l)) with (uses (after p x) l). destruct (IH (after p x)) as [A B].
    unfold authenticateAnonymous in *. destruct x as [lg|n g|g]; cbn [after p_anon p_anonymous] in *.
    + split; [exact A|exact B].
    + split; [exact A|exact B].
    + destruct (p_anon p) eqn:E; cbn [p_anon p_anonymous] in *.
      * split; [rewrite A; split; discriminate|]. intros u H. injection H as <-.
        destruct (B _ eq_refl) as [u' [B1 [B2 [B3 B4]]]]. exists u'. split; [exact B1|]. split; [exact B2|]. split; [exact B3|].
        intros y Y. apply B4. cbn [pushGroup u_groups]. apply in_or_app. left. exact Y.
      * rewrite E in A, B. split; [exact A|]. intros u H. discriminate.
Qed.
(** The groups of a user can be changed from outside: a user listed without a group gets it, for
    every later session, through the list getGroups returns. *)
Theorem c61_group_pushed_refuted : forall bcrypt, exists users l u,
  authenticate bcrypt (static false users) (t "guest") (t "guest") = Some (mkUser (t "guest") (t "guest") []) /\
  authenticate bcrypt (uses (static false users) l) (t "guest") (t "guest") = Some u /\
  In (t "admin") (u_groups u) /\ ~ In (t "admin") (u_groups (mkUser (t "guest") (t "guest") [])).
Proof.
  intro bcrypt. exists [mkUser (t "guest") (t "guest") []], [PushGroup (t "guest") (t "admin")].
  exists (pushGroup (t "admin") (mkUser (t "guest") (t "guest") [])).
  split; [vm_compute; reflexivity|]. split; [vm_compute; reflexivity|]. split; [vm_compute; tauto|].
  vm_compute. intros [H|[]]. discriminate.
Qed.
(** With anonymous users not allowed, a listed user without name and password is let in, and is
    an anonymous user. *)
Theorem c61_empty_user_refuted : forall bcrypt, exists users u,
  onAuthenticate bcrypt (static false users) Anonymous = None /\
  onAuthenticate bcrypt (static false users) (Basic (t "") (t "")) = Some u /\ isAnonymous u = true.
Proof.
  intro bcrypt. exists [mkUser [] [] []], (mkUser [] [] []). split; [reflexivity|]. split; vm_compute; reflexivity.
Qed.
(** A JSON text that is no object is not refused. *)
Theorem c61_not_object_refuted : exists j, (forall anon us, ~ reads j anon us) /\ loadJson (Some j) = Undefined.
Proof. exists (JArray []). split; [|reflexivity]. intros anon us R. inversion R. Qed.
(** Users that are not given as an array are dropped without a word. *)
Theorem c61_users_ignored_refuted : exists o p,
  loadJson (Some (JObject [(t "allowAnonymous", JBool true); (t "users", JObject o)])) = Loaded p /\ o <> [] /\ p_users p = [].
Proof.
  exists [(t "username", JString (t "a")); (t "passwordHash", JString (t "b"))]. eexists. split; [reflexivity|]. split; [discriminate|reflexivity].
Qed.
(** A name ends at a zero byte: a user listed under another name replaces the user. *)
Theorem c61_zero_byte_refuted : forall bcrypt, exists j p n1 n2,
  n1 <> n2 /\
  j = JObject [(t "allowAnonymous", JBool false);
               (t "users", JArray [JObject [(t "username", JString n1); (t "passwordHash", JString (t "secret"))];
                                   JObject [(t "username", JString n2); (t "passwordHash", JString (t "other"))]])] /\
  loadJson (Some j) = Loaded p /\ authenticate bcrypt p n1 (t "secret") = None /\
  authenticate bcrypt p n1 (t "other") <> None.
Proof.
  intro bcrypt. eexists. eexists. exists (t "admin"), (t "admin" ++ zero :: t "x"). split; [discriminate|]. split; [reflexivity|].
  split; [reflexivity|]. split; vm_compute; [reflexivity|discriminate].
Qed.

(** ** Cases *)
Definition hash1 : text := t "$2a$10$VEVmGHy4F4XQMJ3eOZJAUeb.MedU0W10pTPCuf53eHdKJPiSE8sMK".
Example hash1_form : bcrypt_form hash1.
Proof. apply bcrypt_spec. vm_compute. reflexivity. Qed.
Example short_form : ~ bcrypt_form (t "$2a$10$VEVmGHy4F4XQMJ3eOZJAUeb").
Proof. intro H. apply bcrypt_spec in H. vm_compute in H. discriminate. Qed.
Definition two : list user := [mkUser (t "jure") hash1 [t "admin"; t "admin"]; mkUser (t "tomaz") (t "pw") []; mkUser (t "tomaz") (t "pw2") [t "a"]].
Example two_hashed : forall bcrypt, bcrypt (t "hi,mom") hash1 = true ->
  authenticate bcrypt (static true two) (t "jure") (t "hi,mom") = Some (mkUser (t "jure") hash1 [t "admin"]).
Proof.
  intros bcrypt H. apply c61_static. split.
  - exists [], (tl two). split; [reflexivity|]. split; [reflexivity|]. intros v [V|[V|[]]]; subst v; discriminate.
  - left. split; [exact hash1_form|exact H].
Qed.
Example two_plain : forall bcrypt, authenticate bcrypt (static true two) (t "tomaz") (t "pw") = None /\
  authenticate bcrypt (static true two) (t "tomaz") (t "pw2") = Some (mkUser (t "tomaz") (t "pw2") [t "a"]).
Proof. intro bcrypt. split; vm_compute; reflexivity. Qed.
Example two_groups : u_groups (mkUser (t "x") (t "y") [t "zoo"; t "admin"; t "zoo"]) = [t "admin"; t "everyone"; t "zoo"].
Proof. vm_compute. reflexivity. Qed.
Example document : exists p, loadJson (Some (JObject [(t "allowAnonymous", JBool true);
   (t "users", JArray [JObject [(t "username", JString (t "u")); (t "passwordHash", JString (t "p")); (t "groups", JArray [JString (t "g")])]])])) = Loaded p
   /\ p = static true [mkUser (t "u") (t "p") [t "g"]].
Proof. eexists. split; reflexivity. Qed.
Example document_refused : loadJson (Some (JObject [(t "allowAnonymous", JNumber)])) = ParseFailed.
Proof. reflexivity. Qed.

Print Assumptions c61_static.
Print Assumptions c61_anonymous.
Print Assumptions c61_session.
Print Assumptions c61_groups.
Print Assumptions c61_equal.
Print Assumptions c61_round_trip.
Print Assumptions c61_json.
Print Assumptions c61_json_refused_partial.
Print Assumptions c61_use_partial.
Print Assumptions c61_use_anonymous_partial.
Print Assumptions c61_no_groups.
Print Assumptions c61_is_anonymous.
Print Assumptions c61_no_users.
Print Assumptions c61_group_pushed_refuted.
Print Assumptions c61_empty_user_refuted.
Print Assumptions c61_not_object_refuted.
Print Assumptions c61_users_ignored_refuted.
Print Assumptions c61_zero_byte_refuted.
