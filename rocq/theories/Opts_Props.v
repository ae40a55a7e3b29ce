(** C59: what configuration providers do to the options of an instance. *)
From Coq Require Import String Ascii.
From Verif Require Import Base Opts_Model Opts_Spec Opts_Proofs Opts_Acts Opts_Again Opts_Text Opts_Effect.
Local Open Scope Z_scope.

Lemma populate_keeps : forall pr l p x, At (ODict l) p x -> x <> ONull ->
  exists y, At (ODict (populate pr l)) p y /\ SameType x y.
Proof.
  intros pr l p x A N. destruct p as [|k p].
  - inversion A; subst. exists (ODict (populate pr l)). split; constructor.
  - apply At_get in A; [ | discriminate ]. rewrite populate_acts.
    destruct (acts_keeps _ _ _ _ (provider_good pr) A N) as (y & G & K). exists y. split; [ apply At_get; [ discriminate | exact G ] | ].
    apply SameType_kind. split; [ congruence | exact N ].
Qed.
Lemma SameType_trans : forall x y z, SameType x y -> SameType y z -> SameType x z.
Proof. intros x y z A B. apply SameType_kind in A, B. apply SameType_kind. destruct A, B. split; congruence. Qed.
Lemma SameType_nonull : forall x y, SameType x y -> x <> ONull /\ y <> ONull.
Proof. intros x y H. destruct H; split; discriminate. Qed.
Lemma SameType_refl : forall x, x <> ONull -> SameType x x. Proof. intros. apply SameType_kind. split; [ reflexivity | assumption ]. Qed.
Lemma all_keeps : forall ps l p x, At (ODict l) p x -> x <> ONull ->
  exists y, At (ODict (fold_left (fun l p => populate p l) ps l)) p y /\ SameType x y.
Proof.
  induction ps as [|pr ps IH]; intros l p x A N; [ exists x; split; [ exact A | apply SameType_refl, N ] | ].
  destruct (populate_keeps pr _ _ _ A N) as (y & A1 & T1). destruct (IH _ _ _ A1 (proj2 (SameType_nonull _ _ T1))) as (z & A2 & T2).
  exists z. split; [ exact A2 | eapply SameType_trans; eassumption ].
Qed.

(** No configuration, of any provider, takes an option away or changes its
    type. *)
Theorem c59_types_kept : forall ops b p x, Forall configures ops -> At (ODict (options b)) p x -> x <> ONull ->
  exists y, At (ODict (options (run b ops))) p y /\ SameType x y.
Proof.
  induction ops as [|o ops IH]; intros b p x F A N; [ exists x; split; [ exact A | apply SameType_refl, N ] | ].
  inversion F as [|? ? F1 F2]; subst. change (run b (o :: ops)) with (run (step b o) ops).
  assert (S1 : exists y, At (ODict (options (step b o))) p y /\ SameType x y).
  { destruct o; try destruct F1; cbn [step options with_options]; try (exists x; split; [ exact A | apply SameType_refl, N ]);
      unfold populateAll; apply all_keeps; assumption. }
  destruct S1 as (y & A1 & T1). destruct (IH _ _ _ F2 A1 (proj2 (SameType_nonull _ _ T1))) as (z & A2 & T2).
  exists z. split; [ exact A2 | eapply SameType_trans; eassumption ].
Qed.

(** Options a provider does not name stay as they are, and none appear. *)
Theorem c59_untouched : forall pr l p x, p <> [] -> (forall q, Concerns pr q -> Apart p q) ->
  (At (ODict (populate pr l)) p x <-> At (ODict l) p x).
Proof. intros pr l p x NE H. rewrite !At_get by exact NE. rewrite not_concerned by assumption. reflexivity. Qed.

(** The last provider that gives an option a value of its type decides. *)
Theorem c59_last_provider_wins : forall b ps pr p x y, providers b = ps ++ [pr] -> At (ODict (options b)) p x ->
  Gives pr p x y -> At (ODict (options (step b GetOptions))) p y.
Proof.
  intros b ps pr p x y EP A G. cbn [step options with_options]. unfold populateAll. rewrite EP.
  assert (NX : x <> ONull).
  { destruct G as [? ? ? ? ? _ R|? ? ? ? ? _ R|? ? ? ? ? _ _ _ _ T]; [ destruct R; discriminate | destruct R; discriminate | destruct T; discriminate ]. }
  assert (NP : p <> []).
  { destruct G as [? ? ? ? ? SL R|? ? ? ? ? SL R|]; [ destruct SL as [(? & ? & ? & _ & (NE & _) & _) _]; exact NE | destruct SL as [(? & ? & ? & _ & (NE & _) & _) _]; exact NE | assumption ]. }
  assert (E : forall l0, exists l1, fold_left (fun l p0 => populate p0 l) (match standard b with Some d => Json d :: ps ++ [pr] | None => ps ++ [pr] end) l0 = populate pr l1 /\
                         exists qs, l1 = fold_left (fun l p0 => populate p0 l) qs l0).
  { intros l0. destruct (standard b) as [d|].
    - exists (fold_left (fun l p0 => populate p0 l) (Json d :: ps) l0). split; [ | eexists; reflexivity ].
      change (Json d :: ps ++ [pr]) with ((Json d :: ps) ++ [pr]). rewrite fold_left_app. reflexivity.
    - exists (fold_left (fun l p0 => populate p0 l) ps l0). split; [ | eexists; reflexivity ]. rewrite fold_left_app. reflexivity. }
  destruct (E (options b)) as (l1 & EQ & qs & E1). rewrite EQ. subst l1.
  destruct (all_keeps qs _ _ _ A NX) as (x1 & A1 & T1). apply At_get; [ exact NP | ]. apply At_get in A1; [ | exact NP ].
  eapply Gives_effect; [ eapply Gives_same; eassumption | exact A1 | apply (SameType_nonull _ _ T1) ].
Qed.

(** An option that does not exist is made, with the type its text or its
    JSON value suggests. *)
Theorem c59_new_option : forall pr l p y, Free (ODict l) p -> GivesNew pr p y -> At (ODict (populate pr l)) p y.
Proof.
  intros pr l p y F G. destruct (Free_open _ _ F) as (GN & O & NE). apply At_get; [ exact NE | ]. apply GivesNew_effect; assumption.
Qed.

(** A text that is no value of the option's type changes nothing, and
    neither does a JSON value of another type. *)
Theorem c59_unreadable : forall args l p x v, At (ODict l) p x -> Unreadable x v ->
  (SaysLast (prefixOf (Env args)) args p v -> At (ODict (populate (Env args) l)) p x) /\
  (SaysLast (prefixOf (Cmd args)) args p v -> At (ODict (populate (Cmd args) l)) p x).
Proof.
  intros args l p x v A U.
  assert (K : forall prefix, SaysLast prefix args p v -> At (ODict (populateFrom args prefix l)) p x).
  { intros prefix SL. assert (NP : p <> []) by (destruct SL as [(? & ? & ? & _ & (NE & _) & _) _]; exact NE).
    apply At_get in A; [ | exact NP ]. apply At_get; [ exact NP | ].
    rewrite (text_effect _ _ _ _ _ SL) by (eapply get_open, A). rewrite A. cbn [wText]. rewrite (Unreadable_leaf _ _ U). reflexivity. }
  split; apply K.
Qed.
Lemma strict_prefix_dict : forall q l p c, get l p = Some c -> Prefix q p -> q <> p -> q <> [] -> exists d, get l q = Some (ODict d).
Proof.
  induction q as [|k q IH]; intros l p c G [r ->] NE NQ; [ congruence | ]. cbn [app] in *. destruct q as [|k' q].
  - cbn [app] in *. destruct r as [|k1 r]; [ congruence | ]. rewrite get_cons in G. cbn [get]. destruct (lookup l k) as [x|]; [ | discriminate ].
    destruct x; try discriminate. eauto.
  - cbn [app] in *. rewrite get_cons in *. destruct (lookup l k) as [x|]; [ | discriminate ]. destruct x as [| | | | | |d|]; try discriminate.
    apply (IH d (k' :: q ++ r) c); [ exact G | exists r; reflexivity | congruence | discriminate ].
Qed.

(** Asking for the options again, or building again, changes nothing more,
    when no null is around. *)
Lemma nonull_NoNull : forall l, NoNull (ODict l) <-> nonull l.
Proof.
  intros l. split.
  - intros H p G. destruct p as [|k p]; [ discriminate | ]. apply (H (k :: p)). apply At_get; [ discriminate | exact G ].
  - intros H p A. destruct p as [|k p]; [ inversion A | ]. apply At_get in A; [ | discriminate ]. exact (H _ A).
Qed.
Lemma fold_acts : forall ps l, fold_left (fun l p => populate p l) ps l = acts l (flat_map providerActs ps).
Proof.
  induction ps as [|p ps IH]; intros l; [ reflexivity | ]. cbn [fold_left flat_map]. rewrite acts_app, IH, populate_acts. reflexivity.
Qed.
Theorem c59_again_partial : forall b ops, NoNull (ODict (options b)) -> Forall NoNullIn (providers b) ->
  (forall d, standard b = Some d -> NoNullIn (Json d)) -> Forall asks ops ->
  run (step b GetOptions) ops = step b GetOptions.
Proof.
  intros b ops N F S0 O. induction O as [|o ops HO _ IH]; [ reflexivity | ].
  change (run (step b GetOptions) (o :: ops)) with (run (step (step b GetOptions) o) ops).
  assert (E : step (step b GetOptions) o = step b GetOptions); [ | rewrite E; exact IH ].
  assert (K : populateAll (with_options b (populateAll b)) = populateAll b).
  { unfold populateAll at 1 3. cbn [standard providers options with_options]. unfold populateAll. rewrite !fold_acts. apply acts_again; [ | apply nonull_NoNull, N ].
    apply Forall_forall. intros a HA. apply in_flat_map in HA. destruct HA as (p & HP & HA).
    assert (NP : NoNullIn p).
    { rewrite Forall_forall in F. destruct (standard b) as [d|]; [ destruct HP as [ <-|HP]; [ apply (S0 d eq_refl) | apply F, HP ] | apply F, HP ]. }
    pose proof (provider_strong p NP) as FS. rewrite Forall_forall in FS. apply FS, HA. }
  destruct HO as [ -> | -> ]; cbn [step]; unfold with_options at 1; rewrite K; reflexivity.
Qed.

(** The values an option is given by the builder's setters are those it has
    until the configuration is read, and until then all the others stay. *)
Theorem c59_setter : forall b s k v d, At (ODict (options b)) [s] (ODict d) ->
  At (ODict (options (step b (SetTo s k v)))) [s; k] v /\
  forall p x, p <> [] -> Apart p [s; k] -> (At (ODict (options (step b (SetTo s k v)))) p x <-> At (ODict (options b)) p x).
Proof.
  intros b s k v d A. apply At_get in A; [ | discriminate ]. cbn [get] in A.
  assert (E : options (step b (SetTo s k v)) = upd (options b) [s; k] (fun _ => Some v)).
  { cbn [step options with_options]. unfold setOption. rewrite upd_cons, A. reflexivity. }
  rewrite E. split.
  - apply At_get; [ discriminate | ]. rewrite upd_same; [ reflexivity | ]. rewrite open_cons, A. exact I.
  - intros p x NE AP. rewrite !At_get by exact NE. rewrite upd_apart by exact AP. reflexivity.
Qed.

(** ** Findings *)

(** An option whose name, or the name of something it lies in, has an
    underscore cannot be set by an argument or a variable: whatever they
    are, it stays as it is. *)
Theorem c59_underscore_refuted : forall args l p x, Exists (fun k => In "_"%char k) p -> At (ODict l) p x ->
  At (ODict (populate (Env args) l)) p x /\ At (ODict (populate (Cmd args) l)) p x.
Proof.
  intros args l p x U A. assert (NP : p <> []) by (intros ->; inversion U). rewrite !At_get in * by exact NP.
  assert (K : forall prefix, get (acts l (textActs prefix args)) p = Some x).
  { intros prefix. assert (F : forall a, In a (textActs prefix args) -> (fst a <> [] /\ Forall (fun k => ~ In "_"%char k) (fst a)) /\ forall d, snd a (Some (ODict d)) = None).
    { intros a HA. apply in_map_iff in HA. destruct HA as ([k v] & <- & HI). cbn [fst snd]. split; [ | reflexivity ].
      rewrite values_fold in HI. destruct (gather_from _ _ _ _ _ HI) as [[]|(b & HB & E)]. apply keyValue_inv in E. destruct E as (key & -> & _ & _).
      pose proof (proj1 (splitKey_iff prefix key _) eq_refl) as (Q1 & Q2 & _). split; assumption. }
    revert l A F. generalize (textActs prefix args). intros w. induction w as [|a w IH]; intros l A F; [ exact A | ].
    rewrite acts_cons. apply IH; [ | intros b HB; apply F; right; exact HB ]. destruct (F a (or_introl eq_refl)) as [[Q1 Q2] Q3]. unfold doAct.
    destruct (prefix_dec p (fst a)) as [[r R]|N1].
    - exfalso. rewrite R in Q2. apply Forall_app in Q2. destruct Q2 as [Q2 _]. apply Exists_exists in U. destruct U as (k & HK & HU).
      rewrite Forall_forall in Q2. exact (Q2 k HK HU).
    - destruct (prefix_dec (fst a) p) as [P|N2]; [ | rewrite upd_apart; [ exact A | split; assumption ] ].
      destruct (strict_prefix_dict (fst a) l p x A P) as [d D]; [ intros EQ; apply N1; rewrite EQ; exists []; rewrite app_nil_r; reflexivity | exact Q1 | ].
      rewrite (upd_refuse _ _ _ _ D (Q3 d)). exact A. }
  rewrite !populate_acts. cbn [providerActs]. split; apply K.
Qed.

(** An address for a module's new option becomes a number. *)
Theorem c59_address_refuted :
  At (ODict (populate (Env [t "OPENDAQ_CONFIG_Modules_Dev_Address=192.168.0.1"]) defaults)) [t "Modules"; t "Dev"; t "Address"] (OFloat 192168 (-3)).
Proof. apply At_get; [ discriminate | vm_compute; reflexivity ]. Qed.
(** What follows a number is dropped, be it letters or a fraction. *)
Theorem c59_junk_refuted :
  At (ODict (populate (Cmd [t "-CScheduler_WorkersNum=12abc"]) defaults)) [t "Scheduler"; t "WorkersNum"] (OInt 12) /\
  At (ODict (populate (Cmd [t "-CScheduler_WorkersNum=3.7"]) defaults)) [t "Scheduler"; t "WorkersNum"] (OInt 3).
Proof. split; (apply At_get; [ discriminate | vm_compute; reflexivity ]). Qed.
(** A whole number is no value for a floating-point option. *)
Theorem c59_whole_float_refuted : forall m e, let l := [(t "Rate", OFloat m e)] in
  populate (Cmd [t "-CRate=5"]) l = l /\ populate (Json (Some (JObj [(t "Rate", JInt 5)]))) l = l.
Proof. intros m e l. split; vm_compute; reflexivity. Qed.
(** A large unsigned number becomes a negative one. *)
Theorem c59_unsigned_refuted :
  At (ODict (populate (Json (Some (JObj [(t "Scheduler", JObj [(t "WorkersNum", JInt 18446744073709551615)])]))) defaults)) [t "Scheduler"; t "WorkersNum"] (OInt (-1)).
Proof. apply At_get; [ discriminate | vm_compute; reflexivity ]. Qed.
(** The variable that names the configuration file is itself read as an
    option. *)
Theorem c59_path_variable_refuted :
  At (ODict (populate (Env [t "OPENDAQ_CONFIG_PATH=/etc/daq.json"]) defaults)) [t "PATH"] (OStr (t "/etc/daq.json")).
Proof. apply At_get; [ discriminate | vm_compute; reflexivity ]. Qed.

Definition workers (n : Z) : provider := Json (Some (JObj [(t "Scheduler", JObj [(t "WorkersNum", JInt n)])])).
(** A file overrides what the program set on the builder, before or after
    the file was added. *)
Theorem c59_setter_overridden_refuted :
  let b := run newBuilder [AddProvider (workers 1); SetTo (t "Scheduler") (t "WorkersNum") (OInt 4)] in
  At (ODict (options b)) [t "Scheduler"; t "WorkersNum"] (OInt 4) /\
  At (ODict (options (step b Build))) [t "Scheduler"; t "WorkersNum"] (OInt 1).
Proof. split; (apply At_get; [ discriminate | vm_compute; reflexivity ]). Qed.
(** An instance already built sees what the builder does later. *)
Theorem c59_shared_refuted :
  let b := run newBuilder [Build] in
  At (ODict (instanceOptions b)) [t "Scheduler"; t "WorkersNum"] (OInt 0) /\
  At (ODict (instanceOptions (run b [SetTo (t "Scheduler") (t "WorkersNum") (OInt 4)]))) [t "Scheduler"; t "WorkersNum"] (OInt 4).
Proof. split; (apply At_get; [ discriminate | vm_compute; reflexivity ]). Qed.
(** With a null in a file, asking twice gives another answer. *)
Theorem c59_again_refuted :
  let b := run newBuilder [AddProvider (Json (Some (JObj [(t "a", JNull)]))); AddProvider (Env [t "OPENDAQ_CONFIG_a_c=1"]);
                           AddProvider (Json (Some (JObj [(t "a", JObj [(t "b", JInt 2)])])))] in
  (forall x, ~ At (ODict (options (run b [GetOptions]))) [t "a"; t "c"] x) /\
  At (ODict (options (run b [GetOptions; GetOptions]))) [t "a"; t "c"] (OInt 1).
Proof.
  split; [ | apply At_get; [ discriminate | vm_compute; reflexivity ] ].
  intros x A. apply At_get in A; [ | discriminate ]. vm_compute in A. discriminate.
Qed.

(** ** Cases *)
Lemma Says_inv : forall prefix a q w, Says prefix a q w -> exists k, keyValue prefix a = Some (k, w) /\ splitKey k prefix = q.
Proof.
  intros prefix a q w (NE & CL & ->). destruct (Clean_split q CL) as [U E]. exists (prefix ++ joined q). split; [ apply keyValue_says, E | ].
  apply splitKey_iff. split; [ exact NE | split; [ exact U | reflexivity ] ].
Qed.
Fixpoint distinct (l : list text) : bool := match l with [] => true | k :: r => negb (existsb (text_eqb k) r) && distinct r end.
Lemma NoDup_dec_true : forall l : list text, distinct l = true -> NoDup l.
Proof.
  induction l as [|k l IH]; intros H; constructor; cbn [distinct] in H; apply andb_prop in H; destruct H as [A B]; [ | apply IH, B ].
  intros HI. apply negb_true_iff in A. assert (E : existsb (text_eqb k) l = true) by (apply existsb_exists; exists k; split; [ exact HI | apply teq_refl ]). congruence.
Qed.
Definition cleanb (k : text) : bool := negb (existsb (fun c => if ascii_dec c "_"%char then true else if ascii_dec c "="%char then true else false) k).
Lemma cleanb_Clean : forall k, cleanb k = true -> Clean k.
Proof.
  intros k H. unfold cleanb in H. apply negb_true_iff in H. split; intros HI.
  - assert (E : existsb (fun c => if ascii_dec c "_"%char then true else if ascii_dec c "="%char then true else false) k = true) by (apply existsb_exists; exists "_"%char; split; [ exact HI | reflexivity ]). congruence.
  - assert (E : existsb (fun c => if ascii_dec c "_"%char then true else if ascii_dec c "="%char then true else false) k = true) by (apply existsb_exists; exists "="%char; split; [ exact HI | reflexivity ]). congruence.
Qed.

Definition wn : path := [t "Scheduler"; t "WorkersNum"].
Example says_nonvacuous : SaysLast (t "-C") [t "run"; t "-CScheduler_WorkersNum=2"; t "-CLogging_GlobalLogLevel=1"; t "-CScheduler_WorkersNum=-16"] wn (t "-16").
Proof.
  split.
  - exists [t "run"; t "-CScheduler_WorkersNum=2"; t "-CLogging_GlobalLogLevel=1"], (t "-CScheduler_WorkersNum=-16"), []. split; [ reflexivity | ].
    split; [ | intros b w [] ]. split; [ discriminate | ]. split; [ | reflexivity ]. repeat (apply Forall_cons; [ apply cleanb_Clean; reflexivity | ]). constructor.
  - intros b q w HB HS. apply Says_inv in HS. destruct HS as (k & K & <-).
    destruct HB as [ <-|[ <-|[ <-|[ <-|[]]]]]; vm_compute in K; inversion K; subst; [ left; vm_compute; reflexivity | right | left; vm_compute; reflexivity ].
    split; intros [r R]; vm_compute in R; discriminate.
Qed.
Lemma sixteen : IntText (t "-16") (-16).
Proof.
  split; [ split; vm_compute; [ discriminate | reflexivity ] | ]. exists (t "16"). split; [ discriminate | right ]. split; [ reflexivity | ].
  apply (DMore (t "1") 1 6); [ apply (DMore [] 0 1); [ constructor | lia ] | lia ].
Qed.
(** a file that asks for one worker, arguments that ask for -16 *)
Example last_nonvacuous : exists b ps pr x y, providers b = ps ++ [pr] /\ ps <> [] /\ At (ODict (options b)) wn x /\ Gives pr wn x y /\ x <> y /\
  At (ODict (options (step b GetOptions))) wn y.
Proof.
  set (pr := Cmd [t "run"; t "-CScheduler_WorkersNum=2"; t "-CLogging_GlobalLogLevel=1"; t "-CScheduler_WorkersNum=-16"]).
  set (b := run newBuilder [AddProvider (workers 1); AddProvider pr]).
  assert (A : At (ODict (options b)) wn (OInt 0)) by (apply At_get; [ discriminate | vm_compute; reflexivity ]).
  assert (G : Gives pr wn (OInt 0) (OInt (-16))) by (econstructor; [ exact says_nonvacuous | constructor; exact sixteen ]).
  exists b, [workers 1], pr, (OInt 0), (OInt (-16)).
  split; [ reflexivity | ]. split; [ discriminate | ]. split; [ exact A | ]. split; [ exact G | ]. split; [ discriminate | ].
  apply (c59_last_provider_wins b [workers 1] pr wn (OInt 0)); [ reflexivity | exact A | exact G ].
Qed.
Definition fileDoc : json := JObj [(t "Modules", JObj [(t "Dev", JObj [(t "Rate", JDouble 25 (-1)); (t "Tags", JArr [JString (t "a"); JNull])])]); (t "Scheduler", JObj [(t "UseMainLoop", JBool true)])].
Lemma JUnique_obj : forall ms, NoDup (map fst ms) -> Forall (fun m => JUnique (snd m)) ms -> JUnique (JObj ms).
Proof.
  intros ms ND F p ms' J. inversion J as [|? k x p' ? IN J']; subst; [ exact ND | ]. rewrite Forall_forall in F. exact (F _ IN _ _ J').
Qed.
Lemma JUnique_other : forall j, (forall ms, j <> JObj ms) -> JUnique j.
Proof. intros j N p ms J. inversion J; subst; exfalso; eapply N; reflexivity. Qed.
Lemma fileDoc_unique : JUnique fileDoc.
Proof.
  unfold fileDoc. repeat first [ progress cbn [snd] | apply JUnique_other; intros ?; discriminate | apply JUnique_obj; [ apply NoDup_dec_true; vm_compute; reflexivity | ] | apply Forall_cons | apply Forall_nil ].
Qed.
Example new_nonvacuous : exists y, Free (ODict defaults) [t "Modules"; t "Dev"; t "Rate"] /\ GivesNew (Json (Some fileDoc)) [t "Modules"; t "Dev"; t "Rate"] y /\
  At (ODict (populate (Json (Some fileDoc)) defaults)) [t "Modules"; t "Dev"; t "Rate"] y /\ y = OFloat 25 (-1).
Proof.
  assert (F : Free (ODict defaults) [t "Modules"; t "Dev"; t "Rate"]).
  { exists [t "Modules"], (t "Dev"), [t "Rate"], []. split; [ reflexivity | ]. split; [ apply At_get; [ discriminate | vm_compute; reflexivity ] | intros [] ]. }
  assert (G : GivesNew (Json (Some fileDoc)) [t "Modules"; t "Dev"; t "Rate"] (OFloat 25 (-1))).
  { apply (NJson _ _ (JDouble 25 (-1))); [ exact fileDoc_unique | | discriminate | constructor ].
    apply (JUnder _ _ (JObj [(t "Dev", JObj [(t "Rate", JDouble 25 (-1)); (t "Tags", JArr [JString (t "a"); JNull])])])); [ left; reflexivity | ].
    apply (JUnder _ _ (JObj [(t "Rate", JDouble 25 (-1)); (t "Tags", JArr [JString (t "a"); JNull])])); [ left; reflexivity | ].
    apply (JUnder _ _ (JDouble 25 (-1))); [ left; reflexivity | constructor ]. }
  exists (OFloat 25 (-1)). split; [ exact F | ]. split; [ exact G | ]. split; [ apply c59_new_option; assumption | reflexivity ].
Qed.
Example again_nonvacuous : NoNull (ODict (options newBuilder)) /\ NoNullIn (workers 1) /\ NoNullIn (Cmd [t "-Ca_b=1"]).
Proof.
  split; [ | split; [ | exact I ] ].
  - apply nonull_NoNull. intros p G. cbn [options newBuilder] in G. unfold defaults in G.
    destruct p as [|k [|k' [|k'' p]]]; [ discriminate | | | ]; rewrite ?get_cons in G; cbn [get lookup] in G;
      repeat (match type of G with context [if text_eqb ?a ?b then _ else _] => destruct (text_eqb a b) end; cbn [lookup] in G; try discriminate).
  - intros q J. repeat (match goal with H : JAt _ _ _ |- _ => inversion H; subst; clear H end;
      try match goal with H : In (_, _) _ |- _ => cbn [In] in H; repeat (destruct H as [H|H]; [ inversion H; subst; clear H | ]) end; try contradiction).
Qed.
Example unreadable_nonvacuous : exists l v, At (ODict defaults) [t "Scheduler"; t "UseMainLoop"] (OBool false) /\ Unreadable (OBool false) v /\
  SaysLast (prefixOf (Cmd [])) [t "-CScheduler_UseMainLoop=yes"] [t "Scheduler"; t "UseMainLoop"] v /\ l = populate (Cmd [t "-CScheduler_UseMainLoop=yes"]) defaults /\ l = defaults.
Proof.
  exists defaults, (t "yes"). split; [ apply At_get; [ discriminate | vm_compute; reflexivity ] | ]. split.
  - constructor; [ intros b B; apply BoolText_lower in B; destruct b; vm_compute in B; discriminate | intros w Q; unfold Quoted in Q; discriminate ].
  - split; [ | split; vm_compute; reflexivity ]. split.
    + exists [], (t "-CScheduler_UseMainLoop=yes"), []. split; [ reflexivity | ]. split; [ | intros b w [] ]. split; [ discriminate | ]. split; [ | reflexivity ].
      repeat (apply Forall_cons; [ apply cleanb_Clean; reflexivity | ]). constructor.
    + intros b q w [ <-|[]] HS. apply Says_inv in HS. destruct HS as (k & K & <-). vm_compute in K. inversion K. subst. left. vm_compute. reflexivity.
Qed.
Example untouched_nonvacuous : exists pr p x, (exists q, Concerns pr q) /\ p <> [] /\ (forall q, Concerns pr q -> Apart p q) /\ At (ODict defaults) p x.
Proof.
  exists (Cmd [t "-CScheduler_WorkersNum=2"]), [t "Scheduler"; t "UseMainLoop"], (OBool false). split; [ | split; [ discriminate | split ] ].
  - exists wn. apply (CCmd _ (t "-CScheduler_WorkersNum=2") (t "Scheduler_WorkersNum") (t "2")); [ left; reflexivity | reflexivity | | ].
    + vm_compute. intros H. repeat (destruct H as [H|H]; [ discriminate | ]). destruct H.
    + split; [ discriminate | ]. split; [ | reflexivity ]. repeat (apply Forall_cons; [ vm_compute; intros H; repeat (destruct H as [H|H]; [ discriminate | ]); destruct H | ]). constructor.
  - intros q C. inversion C as [|args0 a key v p0 HI EA N K|]; clear C. subst args0 p0. destruct HI as [HI|[]]. rewrite EA in HI. clear EA a.
    assert (KV : keyValue (t "-C") (t "-C" ++ key ++ "="%char :: v) = Some (t "-C" ++ key, v)) by (apply keyValue_says, N).
    change (t "-C") with (list_ascii_of_string "-C") in KV. rewrite <- HI in KV. vm_compute in KV. inversion KV. subst. apply (splitKey_iff []) in K. vm_compute in K. subst q.
    split; intros [r R]; vm_compute in R; discriminate.
  - apply At_get; [ discriminate | vm_compute; reflexivity ].
Qed.

Print Assumptions c59_types_kept.
Print Assumptions c59_untouched.
Print Assumptions c59_last_provider_wins.
Print Assumptions c59_new_option.
Print Assumptions c59_unreadable.
Print Assumptions c59_again_partial.
Print Assumptions c59_setter.
Print Assumptions c59_underscore_refuted.
Print Assumptions c59_address_refuted.
Print Assumptions c59_junk_refuted.
Print Assumptions c59_whole_float_refuted.
Print Assumptions c59_unsigned_refuted.
Print Assumptions c59_path_variable_refuted.
Print Assumptions c59_setter_overridden_refuted.
Print Assumptions c59_shared_refuted.
Print Assumptions c59_again_refuted.
