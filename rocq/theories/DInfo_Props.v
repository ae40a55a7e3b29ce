(** * DInfo_Props: property C68 (the information of a device) *)
From Coq Require Import String List Bool Arith.
From Verif Require Import DInfo_Model DInfo_Spec DInfo_Proofs.
Import ListNotations.
Open Scope string_scope.
Open Scope nat_scope.
Open Scope list_scope.

(** In a new info the name, the connection string and the version of the SDK
    are read only; any other value is writable exactly if its name was
    listed as changeable, in upper or lower case; the info shows the given
    name. *)
Theorem c68_created : forall d dp ch name conn sdk,
  let s := device d dp ch name conn sdk in
  (forall n, In n early -> readOnly n s) /\
  (forall n, In n late -> (exists c, In c ch /\ sameName c n) -> writable n s) /\
  (forall n, In n late -> ~ (exists c, In c ch /\ sameName c n) -> readOnly n s) /\
  (forall n, In n late -> get n s = Some "") /\
  get "name" s = Some name /\ get "connectionString" s = Some conn /\ get "sdkVersion" s = Some sdk.
Proof.
  intros d dp ch name conn sdk s.
  assert (C : forall n, changeable ch n = true <-> exists c, In c ch /\ sameName c n).
  { intro n. unfold changeable. rewrite existsb_exists. split.
    - intros [x [H E]]. apply in_map_iff in H. destruct H as [c [X Y]]. exists c. apply String.eqb_eq in E. split; [exact Y|apply lower_name; congruence].
    - intros [c [H E]]. exists (lower c). split; [apply in_map; exact H|]. apply String.eqb_eq. apply lower_name in E. congruence. }
  assert (K : NoDup (map fst (inf s))) by (unfold s; cbn [device inf]; rewrite create_keys; apply distinct_nodup; vm_compute; reflexivity).
  assert (F : forall n, In n late -> find n (inf s) = Some (P (negb (changeable ch n)) None)).
  { intros n H. apply find_in; [exact K|]. unfold s. cbn [device inf]. unfold create. apply in_or_app. right. apply in_map_iff. exists n. split; [reflexivity|exact H]. }
  split; [|split; [|split; [|split; [|split; [|split]]]]].
  - intros n [<-|[<-|[<-|[]]]]; eexists; reflexivity.
  - intros n H X. exists None. rewrite (F n H). apply C in X. rewrite X. reflexivity.
  - intros n H X. exists None. rewrite (F n H). destruct (changeable ch n) eqn:E; [|reflexivity]. apply C in E. contradiction.
  - intros n H. unfold get. change (ofOwner n s) with false. cbv iota. unfold localGet. rewrite (F n H). reflexivity.
  - reflexivity.
  - reflexivity.
  - reflexivity.
Qed.

Example c68_created_example :
  let s := device "dev" [] ["Manufacturer"; "USERNAME"] "info" "daq://x" "3.40" in
  In "manufacturer" late /\ writable "manufacturer" s /\ writable "userName" s /\ readOnly "model" s.
Proof. split; [left; reflexivity|]. split; [exists None; reflexivity|]. split; exists None; reflexivity. Qed.

(** Finding: to list the name as changeable has no effect. *)
Theorem c68_early_refuted : exists ch n,
  In n ch /\ In n early /\ forall d dp name conn sdk l, readOnly n (run l (device d dp ch name conn sdk)).
Proof.
  exists ["name"], "name". split; [left; reflexivity|]. split; [left; reflexivity|]. intros. apply made_name. repeat eexists.
Qed.

(** No call makes a value read only or writable. *)
Theorem c68_flags : forall l s n,
  (readOnly n (run l s) <-> readOnly n s) /\ (writable n (run l s) <-> writable n s).
Proof. intros l s n. rewrite !readOnly_flag, !writable_flag, run_flag. split; reflexivity. Qed.

(** Once the device has its info, read only values cannot be set, by the
    setters of the info or as properties. *)
Theorem c68_denied : forall s n v, readOnly n s ->
  step (Set_ n v) s = (s, AccessDenied) /\ (owned s = true -> step (Setter n v) s = (s, AccessDenied)).
Proof.
  intros s n v R. cbn [step]. split; [apply denied; exact R|]. intro O. unfold setter. rewrite O. apply denied. exact R.
Qed.

Example c68_denied_example :
  let s := run [Attach] (device "dev" [] ["userName"] "info" "daq://x" "3.40") in
  made s /\ owned s = true /\ readOnly "manufacturer" s.
Proof. split; [repeat eexists|]. split; [reflexivity|]. exists None. reflexivity. Qed.

(** Writable values can be set at any time, are then read as set, and no
    other value changes. *)
Theorem c68_set : forall s n v, made s -> writable n s ->
  forall p, p = Set_ n v \/ p = Setter n v ->
  exists s', step p s = (s', Ok) /\ get n s' = Some v /\ (forall m, m <> n -> get m s' = get m s) /\ dname s' = dname s.
Proof.
  intros s n v M W.
  assert (A : exists s', set n v s = (s', Ok) /\ get n s' = Some v /\ (forall m, m <> n -> get m s' = get m s) /\ dname s' = dname s).
  { unfold set. destruct (ofOwner n s) eqn:O.
    - apply ofOwner_true in O as O2. destruct O2 as [A [B C]].
      destruct (dev_effect n v s (made_linked s M A n B C) O) as [s' [E [G1 [G2 [G3 _]]]]]. exists s'. tauto.
    - destruct W as [x F]. destruct (local_effect false n v s _ F eq_refl O) as [s' [E [G1 [G2 [G3 _]]]]]. exists s'. tauto. }
  intros p [->| ->]; cbn [step]; [exact A|]. unfold setter. destruct (owned s) eqn:Os; [exact A|].
  assert (O : ofOwner n s = false) by (unfold ofOwner; rewrite Os; reflexivity).
  destruct W as [x F]. destruct (local_effect true n v s _ F (andb_false_r _) O) as [s' [E [G1 [G2 [G3 _]]]]]. exists s'. tauto.
Qed.

Example c68_set_example :
  let s := run [Attach] (device "dev" [] ["userName"; "model"] "info" "daq://x" "3.40") in
  made s /\ writable "userName" s /\ writable "model" s.
Proof. split; [repeat eexists|]. split; exists None; reflexivity. Qed.

(** Before that the setters write every value, read only or not, and only
    that one. *)
Theorem c68_before : forall s n v, owned s = false -> readOnly n s \/ writable n s ->
  exists s', step (Setter n v) s = (s', Ok) /\ get n s' = Some v /\ (forall m, m <> n -> get m s' = get m s) /\
    dname s' = dname s /\ dprops s' = dprops s.
Proof.
  intros s n v Os H. cbn [step]. unfold setter. rewrite Os. assert (O : ofOwner n s = false) by (unfold ofOwner; rewrite Os; reflexivity).
  destruct H as [[x F]|[x F]]; apply (local_effect true n v s _ F (andb_false_r _) O).
Qed.

Example c68_before_example :
  let s := device "dev" [] [] "info" "daq://x" "3.40" in owned s = false /\ readOnly "manufacturer" s.
Proof. split; [reflexivity|]. exists None. reflexivity. Qed.

(** Values the info does not know are neither read nor written. *)
Theorem c68_unknown : forall s n v, find n (inf s) = None ->
  get n s = None /\ step (Set_ n v) s = (s, NotFound) /\ step (Setter n v) s = (s, NotFound).
Proof.
  intros s n v F. assert (O : ofOwner n s = false) by (unfold ofOwner; rewrite F; apply andb_false_r). cbn [step].
  unfold get, setter, set, localGet, localSet. rewrite O, F. destruct (owned s); repeat split; reflexivity.
Qed.

(** When the device gets its info, the info takes over the name of the
    device.  The user name and the location, where writable, are from then on
    properties of the device: those of a device that has them keep their
    values, and it gets the others from the info.  Nothing else changes. *)
Theorem c68_attach : forall s, made s -> owned s = false ->
  exists s', step Attach s = (s', Ok) /\ owned s' = true /\ dname s' = dname s /\
    get "name" s' = Some (dname s) /\
    (forall n, common n -> writable n s ->
       get n s' = match find n (dprops s) with Some v => Some v | None => get n s end /\ find n (dprops s') = get n s') /\
    (forall n, n <> "name" -> ~ (common n /\ writable n s) -> get n s' = get n s /\ find n (dprops s') = find n (dprops s)) /\
    find "name" (dprops s') = find "name" (dprops s).
Proof.
  intros s M Os. assert (R := made_name s M). cbn [step]. unfold attach. rewrite Os. eexists. split; [reflexivity|]. cbv zeta.
  set (s1 := St (dname s) (locked s) (dprops s) (inf s) true). cbn [dname].
  assert (O1 : ofOwner "name" s1 = false).
  { destruct (ofOwner "name" s1) eqn:X; [|reflexivity]. apply ofOwner_true in X. destruct X as [_ [X _]]. destruct (not_common_name X). }
  destruct R as [x F]. destruct (local_effect true "name" (dname s) s1 _ F (andb_false_r _) O1) as [s2 [E [G1 [G2 [G3 G4]]]]].
  assert (E2 : fst (setProtected "name" (dname s1) s1) = s2) by (unfold setProtected; rewrite O1; change (dname s1) with (dname s); rewrite E; reflexivity).
  rewrite E2. assert (Fl : forall m, flag m (inf s2) = flag m (inf s)).
  { intro m. assert (X := localSet_flag true "name" (dname s) s1 m). rewrite E in X. exact X. }
  assert (Ow : owned s2 = true) by (assert (X := proj2 (proj2 (setProtected_frame "name" (dname s1) s1))); rewrite E2 in X; exact X).
  set (s3 := share "location" (share "userName" s2)).
  destruct (share_frame "location" (share "userName" s2)) as [B [C D]]. destruct (share_frame "userName" s2) as [B2 [C2 D2]]. fold s3 in B, C, D.
  assert (I3 : inf s3 = inf s2) by (unfold s3; rewrite !share_inf; reflexivity).
  assert (Dev : forall n, find n (dprops s3) = match find n (dprops s) with
                 | Some v => Some v
                 | None => if (String.eqb n "userName" || String.eqb n "location") && match flag n (inf s) with Some false => true | _ => false end then get n s else None end).
  { assert (Sh : forall k t n, find n (dprops (share k t)) = match find n (dprops t) with Some v => Some v | None =>
              if String.eqb n k && match flag n (inf t) with Some false => true | _ => false end then localGet n t else None end).
    { intros k t n. unfold share. destruct (String.eqb_spec n k) as [->|N].
      - unfold flag, localGet. destruct (find k (inf t)) as [[r y]|]; [|destruct (find k (dprops t)); reflexivity]. cbn [ro val option_map andb].
        destruct r; [destruct (find k (dprops t)); reflexivity|]. destruct (find k (dprops t)) as [z|] eqn:Z; [rewrite Z; reflexivity|].
        cbn [withDev dprops]. rewrite find_snoc, Z, String.eqb_refl. reflexivity.
      - cbn [andb]. destruct (find k (inf t)) as [p|]; [|destruct (find n (dprops t)); reflexivity]. destruct (ro p); [destruct (find n (dprops t)); reflexivity|].
        destruct (find k (dprops t)) as [z|]; [destruct (find n (dprops t)); reflexivity|]. cbn [withDev dprops]. rewrite find_snoc.
        destruct (find n (dprops t)); [reflexivity|]. destruct (String.eqb_spec k n) as [->|_]; [contradiction|reflexivity]. }
    intro n. unfold s3. rewrite !Sh, share_inf, G4. change (dprops s1) with (dprops s). destruct (find n (dprops s)) as [v|]; [reflexivity|].
    rewrite Fl. assert (L1 : n <> "name" -> localGet n s2 = get n s).
    { intro N. assert (X : localGet n s2 = localGet n s1).
      { unfold localSet in E. unfold s1 in E at 1. cbn [inf] in E. rewrite F in E. cbn [ro negb andb] in E. injection E as <-. unfold localGet. cbn [withInf inf]. rewrite find_put_other by exact N. reflexivity. }
      rewrite X. unfold get, ofOwner. rewrite Os. reflexivity. }
    assert (L2 : localGet n (share "userName" s2) = localGet n s2) by (apply localGet_inf, share_inf).
    destruct (String.eqb_spec n "userName") as [->|N1]; cbn [andb orb].
    - destruct (flag "userName" (inf s)) as [[]|]; try reflexivity. rewrite L1 by discriminate.
      destruct (get "userName" s) eqn:Z; reflexivity.
    - destruct (String.eqb_spec n "location") as [->|N2]; cbn [andb]; [|reflexivity].
      destruct (flag "location" (inf s)) as [[]|]; try reflexivity. rewrite L2. apply L1. discriminate. }
  assert (W3 : forall n, writable n s <-> flag n (inf s3) = Some false) by (intro n; rewrite I3, Fl; apply writable_flag).
  assert (Loc : forall n, n <> "name" -> ~ (common n /\ writable n s) -> get n s3 = get n s).
  { intros n N H. assert (Z : ofOwner n s3 = false).
    { destruct (ofOwner n s3) eqn:X; [|reflexivity]. apply ofOwner_true in X. destruct X as [_ [X Y]]. destruct H. split; [exact X|]. apply W3. apply writable_flag. exact Y. }
    unfold get at 1. rewrite Z. rewrite (localGet_inf n s2 s3 I3). unfold localSet in E. unfold s1 in E at 1. cbn [inf] in E. rewrite F in E. cbn [ro negb andb] in E.
    injection E as <-. unfold localGet. cbn [withInf inf]. rewrite find_put_other by exact N. unfold get, ofOwner. rewrite Os. reflexivity. }
  split; [rewrite D, D2; exact Ow|]. split; [rewrite B, B2, G3; reflexivity|]. split.
  - rewrite get_local by exact not_common_name. rewrite (localGet_inf _ s2 s3 I3). rewrite <- get_local by exact not_common_name. exact G1.
  - split; [|split].
    + intros n H W. assert (Z : ofOwner n s3 = true).
      { apply ofOwner_true. split; [rewrite D, D2; exact Ow|]. split; [exact H|]. apply writable_flag, W3. exact W. }
      unfold get at 1 3. rewrite Z. split; [|reflexivity]. rewrite Dev. destruct (find n (dprops s)); [reflexivity|]. apply writable_flag in W. rewrite W.
      destruct H as [-> | ->]; reflexivity.
    + intros n N H. split; [apply Loc; assumption|]. rewrite Dev. destruct (find n (dprops s)) as [v|]; [reflexivity|].
      destruct (String.eqb_spec n "userName") as [U|U]; destruct (String.eqb_spec n "location") as [V|V]; cbn [orb andb]; try reflexivity;
      destruct (flag n (inf s)) as [[]|] eqn:Q; try reflexivity; destruct H; (split; [unfold common; tauto|apply writable_flag; exact Q]).
    + rewrite Dev. destruct (find "name" (dprops s)); reflexivity.
Qed.

Example c68_attach_example :
  let s := run [Setter "userName" "u"; Setter "location" "l"] (device "dev" [("location", "lab")] ["userName"; "location"] "info" "daq://x" "3.40") in
  made s /\ owned s = false /\ writable "userName" s /\ writable "location" s /\
  get "userName" (run [Attach] s) = Some "u" /\ get "location" (run [Attach] s) = Some "lab" /\ get "name" (run [Attach] s) = Some "dev".
Proof. split; [repeat eexists|]. repeat split; try (eexists; reflexivity); vm_compute; reflexivity. Qed.

(** The info has one owner. *)
Theorem c68_attach_once : forall s, owned s = true -> step Attach s = (s, Ignored).
Proof. intros s H. cbn [step]. unfold attach. rewrite H. reflexivity. Qed.

(** From then on the user name and the location, where writable, are the same
    for the device and its info, however they are written. *)
Theorem c68_shared : forall s n, made s -> owned s = true -> common n -> writable n s ->
  deviceHas n s /\ get n s = find n (dprops s) /\
  forall v p, p = Set_ n v \/ p = Setter n v \/ p = DevSet n v ->
  exists s', step p s = (s', Ok) /\ get n s' = Some v /\ find n (dprops s') = Some v /\
    (forall m, m <> n -> get m s' = get m s /\ find m (dprops s') = find m (dprops s)).
Proof.
  intros s n M Os C W. assert (O : ofOwner n s = true) by (apply ofOwner_true; tauto). assert (H := made_linked s M Os n C W).
  split; [exact H|]. split; [unfold get; rewrite O; reflexivity|]. intros v p Hp.
  destruct (dev_effect n v s H O) as [s' [E [G1 [G2 [G3 [G4 G5]]]]]].
  exists s'. split; [|split; [exact G1|split; [exact G5|intros m N; split; [apply G2|apply G4]; exact N]]].
  destruct Hp as [->|[->| ->]]; cbn [step]; unfold setter, set; rewrite ?Os, ?O; exact E.
Qed.

Example c68_shared_example :
  let s := run [Attach] (device "dev" [] ["userName"] "info" "daq://x" "3.40") in
  made s /\ owned s = true /\ common "userName" /\ writable "userName" s.
Proof. split; [repeat eexists|]. split; [reflexivity|]. split; [left; reflexivity|]. exists None. reflexivity. Qed.

(** The names of a device and its info are the same after any calls, as long
    as the name is not locked; to rename either renames both. *)
Theorem c68_names_partial : forall d dp ch name conn sdk l, Forall unlocking l ->
  let s := run l (device d dp ch name conn sdk) in
  owned s = true ->
  get "name" s = Some (dname s) /\
  forall v p, p = SetName v \/ p = DevSetName v -> let s' := fst (step p s) in dname s' = v /\ get "name" s' = Some v.
Proof.
  intros d dp ch name conn sdk l U s Os.
  assert (A0 : agreed (device d dp ch name conn sdk)) by (split; [eexists; reflexivity|split; [reflexivity|discriminate]]).
  assert (A := agreed_run l _ U A0). fold s in A. split; [exact (proj2 (proj2 A) Os)|]. intros v p Hp s'.
  assert (E : s' = fst (devSetName v s)).
  { unfold s'. destruct Hp as [->| ->]; cbn [step]; [unfold setName; rewrite Os|]; reflexivity. }
  assert (A2 := devSetName_agreed v s A). rewrite <- E in A2. destruct A2 as [_ [_ A2]].
  assert (N : dname s' = v).
  { rewrite E. unfold devSetName. destruct A as [[x F] [L _]]. assert (O : ofOwner "name" s = false).
    { destruct (ofOwner "name" s) eqn:X; [|reflexivity]. apply ofOwner_true in X. destruct X as [_ [X _]]. destruct (not_common_name X). }
    unfold setProtected. rewrite O. unfold localSet. rewrite F. cbn [ro negb andb].
    set (t := withInf _ s). destruct (String.eqb_spec (dname t) v) as [X|X]; [exact X|]. change (locked t) with (locked s). rewrite L. reflexivity. }
  split; [exact N|]. rewrite A2, N; [reflexivity|]. rewrite E. unfold devSetName.
  assert (X := proj2 (proj2 (setProtected_frame "name" v s))). destruct (setProtected "name" v s) as [s1 r]. cbn [fst] in X.
  destruct r; try (cbn [fst]; congruence). destruct (String.eqb (dname s1) v); [cbn [fst]; congruence|]. destruct (locked s1); cbn [fst owned]; congruence.
Qed.

Example c68_names_example :
  let s := run [Setter "name" "x"; Attach; SetName "a"; Load [("name", "b")]; DevSetName "c"] (device "dev" [] [] "info" "daq://x" "3.40") in
  owned s = true /\ dname s = "c" /\ get "name" s = Some "c".
Proof. repeat split; vm_compute; reflexivity. Qed.

(** Finding: if the name of the device is locked, to rename it changes the
    name its info shows and leaves the device's. *)
Theorem c68_names_refuted : exists s v s' r,
  made s /\ owned s = true /\ step (DevSetName v) s = (s', r) /\ r = Ignored /\
  dname s' = dname s /\ get "name" s = Some (dname s) /\ get "name" s' = Some v /\ v <> dname s'.
Proof.
  exists (run [Attach; LockName true] (device "dev" [] [] "info" "daq://x" "3.40")), "new". do 2 eexists.
  split; [repeat eexists|]. split; [reflexivity|]. split; [vm_compute; reflexivity|]. split; [reflexivity|].
  split; [reflexivity|]. split; [reflexivity|]. split; [reflexivity|]. discriminate.
Qed.

(** Loading a configuration changes neither read only values, nor values it
    does not hold, nor the name of the device. *)
Theorem c68_load_readonly : forall s l,
  dname (fst (step (Load l) s)) = dname s /\
  forall n, readOnly n s \/ ~ In n (map fst l) -> get n (fst (step (Load l) s)) = get n s.
Proof. intros s l. cbn [step fst]. split; [apply load_frame|]. intros n H. apply load_other. exact H. Qed.

Example c68_load_readonly_example :
  let s := run [Attach] (device "dev" [] ["model"] "info" "daq://x" "3.40") in
  readOnly "name" s /\ ~ In "model" (map fst [("name", "x")]).
Proof. split; [eexists; vm_compute; reflexivity|]. intros [H|[]]. discriminate. Qed.

(** A configuration of a device loaded into another one, or the same one
    later, restores every value that was set and is writable, other than the
    user name and the location. *)
Theorem c68_load_partial : forall s s' n v, made s -> made s' ->
  find n (inf s) = Some (P false (Some v)) -> writable n s' -> ~ common n ->
  get n s = Some v /\ get n (loadAll (saveAll s) s') = Some v.
Proof.
  intros s s' n v M M' F W C. split; [rewrite get_local by exact C; unfold localGet; rewrite F; reflexivity|].
  unfold loadAll, saveAll. cbn [fst snd]. destruct (made_keys s M) as [_ D]. apply load_value.
  - apply loadDev_linked. apply made_linked. exact M'.
  - apply save_nodup. exact D.
  - apply save_in; [exact D|exact F].
  - unfold writable. rewrite (proj1 (loadDev_inf _ _)). exact W.
Qed.

Example c68_load_example :
  let dev := device "dev" [] ["model"; "userName"] "info" "daq://x" "3.40" in
  let s := run [Attach; Set_ "model" "m1"] dev in
  let s' := run [Attach; Set_ "model" "m2"] dev in
  made s /\ made s' /\ find "model" (inf s) = Some (P false (Some "m1")) /\ writable "model" s' /\ ~ common "model".
Proof. split; [repeat eexists|]. split; [repeat eexists|]. split; [reflexivity|]. split; [eexists; reflexivity|]. intros [H|H]; discriminate. Qed.

(** Finding: a user name set before the device had its info comes back when a
    configuration is loaded, whatever the user name was when it was saved. *)
Theorem c68_load_refuted : exists s, made s /\ owned s = true /\ writable "userName" s /\
  get "userName" s = Some "bob" /\ get "userName" (loadAll (saveAll s) s) = Some "alice".
Proof.
  exists (run [Setter "userName" "alice"; Attach; Setter "userName" "bob"] (device "dev" [] ["userName"] "info" "daq://x" "3.40")).
  split; [repeat eexists|]. split; [reflexivity|]. split; [eexists; vm_compute; reflexivity|]. split; vm_compute; reflexivity.
Qed.

(** Finding: a value that was not set when the configuration was saved keeps
    its later value when that configuration is loaded. *)
Theorem c68_load_default_refuted : exists s s', made s /\ made s' /\ writable "model" s /\ writable "model" s' /\
  get "model" s = Some "" /\ get "model" s' = Some "m" /\ get "model" (loadAll (saveAll s) s') = Some "m".
Proof.
  exists (run [Attach] (device "dev" [] ["model"] "info" "daq://x" "3.40")), (run [Attach; Setter "model" "m"] (device "dev" [] ["model"] "info" "daq://x" "3.40")).
  split; [repeat eexists|]. split; [repeat eexists|]. split; [eexists; vm_compute; reflexivity|]. split; [eexists; vm_compute; reflexivity|].
  repeat split; vm_compute; reflexivity.
Qed.

Print Assumptions c68_created.
Print Assumptions c68_early_refuted.
Print Assumptions c68_flags.
Print Assumptions c68_denied.
Print Assumptions c68_set.
Print Assumptions c68_before.
Print Assumptions c68_unknown.
Print Assumptions c68_attach.
Print Assumptions c68_attach_once.
Print Assumptions c68_shared.
Print Assumptions c68_names_partial.
Print Assumptions c68_names_refuted.
Print Assumptions c68_load_readonly.
Print Assumptions c68_load_partial.
Print Assumptions c68_load_refuted.
Print Assumptions c68_load_default_refuted.
