(** * Err_Props: C63, error information reaches the caller it belongs to *)
From Coq Require Import String List ZArith NArith Bool Lia.
From Verif Require Import Err_Model Err_Spec Err_Proofs.
Import ListNotations.
Open Scope N_scope.

(** A function that follows the conventions, called with any errors already
    pending and under any guards, succeeds and leaves everything as it was,
    or fails with the code and chain it means.  Then the exception thrown
    for the code carries exactly the text of this chain, and taking or
    clearing the error leaves everything as it was before the call. *)
Theorem c63_calls : forall k f h, disciplined f -> settled h ->
  match meaning k (guardPlace h) f with
  | Good => exists c, failed c = false /\ exec k f h = (Ret c, h)
  | Bad ch =>
      exists h', exec k f h = (Ret (codeOf ch), h') /\
        failed (codeOf ch) = true /\
        raisedIn h ch h' /\
        getFormattedMessage k h' = (codeOf ch, Some (textOf k (guardPlace h) ch)) /\
        checkErrorInfo k (codeOf ch) h'
          = (Daq (codeOf ch) (exceptionText k (guardPlace h) ch), h) /\
        clearErrorInfo h' = h
  end.
Proof.
  intros k f h D T. assert (M := exec_meaning k f h D T).
  destruct (meaning k (guardPlace h) f) as [|ch]; [exact M|].
  destruct M as [W E]. exists (raised ch h). split; [exact E|].
  split; [apply wf_code; exact W|]. split; [apply raised_raisedIn; assumption|].
  split; [apply message_raised; exact W|].
  split; [apply check_raised; assumption|apply clear_raised; assumption].
Qed.

(** A caller that expects one code gets it and nothing stays pending; any
    other failure is thrown as it would be without the exception. *)
Theorem c63_expected : forall k f h ch e, disciplined f -> settled h -> meaning k (guardPlace h) f = Bad ch ->
  exists h', exec k f h = (Ret (codeOf ch), h') /\
    (e = codeOf ch -> checkErrorInfoExcept k (codeOf ch) e h' = (Ret e, h)) /\
    (e <> codeOf ch -> checkErrorInfoExcept k (codeOf ch) e h' = (Daq (codeOf ch) (exceptionText k (guardPlace h) ch), h)).
Proof.
  intros k f h ch e D T E. assert (Q := c63_calls k f h D T). rewrite E in Q.
  destruct Q as [h' [X [_ [_ [_ [K C]]]]]]. exists h'. split; [exact X|]. unfold checkErrorInfoExcept. split; intro H.
  - subst e. rewrite N.eqb_refl, C. reflexivity.
  - destruct (N.eqb_spec (codeOf ch) e) as [Y|_]; [symmetry in Y; contradiction|exact K].
Qed.

(** The text a release build reports for a chain is the newest one given by
    an entry of this chain with the reported code, with no entry of another
    code after it; else the default text of the code. *)
Theorem c63_release_text : forall k ch, ch <> [] ->
  (exists a e b, ch = a ++ e :: b /\ e_code e = codeOf ch /\ e_text e = Some (releaseText k ch) /\
     Forall (fun x => e_code x = codeOf ch /\ e_text x = None) b)
  \/ (releaseText k ch = dflt k (codeOf ch) /\
      exists a b, ch = a ++ b /\ b <> [] /\
        Forall (fun x => e_code x = codeOf ch /\ e_text x = None) b /\
        (a = [] \/ codeOf a <> codeOf ch)).
Proof.
  intros k ch N0. unfold releaseText. remember (codeOf ch) as c eqn:Ec.
  assert (G : forall l, (l = [] \/ codeOf l = c \/ codeOf l <> c) ->
    match firstText (sameCode c (rev l)) with
    | Some t => exists a e b, l = a ++ e :: b /\ e_code e = c /\ e_text e = Some t /\
                  Forall (fun x => e_code x = c /\ e_text x = None) b
    | None => exists a b, l = a ++ b /\ Forall (fun x => e_code x = c /\ e_text x = None) b /\
                (a = [] \/ codeOf a <> c)
    end).
  { induction l as [|e l IH] using rev_ind; intros _.
    - cbn. exists [], []. split; [reflexivity|]. split; [constructor|left; reflexivity].
    - rewrite rev_app_distr. cbn [rev app sameCode].
      destruct (e_code e =? c) eqn:Q.
      + apply N.eqb_eq in Q. cbn [firstText]. destruct (e_text e) as [t|] eqn:X.
        * exists l, e, []. split; [reflexivity|]. split; [exact Q|]. split; [exact X|constructor].
        * assert (IH' := IH ltac:(destruct (N.eq_dec (codeOf l) c); tauto)).
          destruct (firstText (sameCode c (rev l))) as [t|].
          -- destruct IH' as [a [e' [b [E [E1 [E2 E3]]]]]]. exists a, e', (b ++ [e]).
             split; [rewrite E, <- app_assoc; reflexivity|]. split; [exact E1|]. split; [exact E2|].
             apply Forall_app. split; [exact E3|constructor; [split; assumption|constructor]].
          -- destruct IH' as [a [b [E [E1 E2]]]]. exists a, (b ++ [e]).
             split; [rewrite E, <- app_assoc; reflexivity|]. split; [|exact E2].
             apply Forall_app. split; [exact E1|constructor; [split; assumption|constructor]].
      + apply N.eqb_neq in Q. cbn [firstText]. exists (l ++ [e]), [].
        split; [rewrite app_nil_r; reflexivity|]. split; [constructor|right]. rewrite codeOf_app. exact Q. }
  specialize (G ch). assert (G1 := G ltac:(right; left; symmetry; exact Ec)). clear G.
  destruct (firstText (sameCode c (rev ch))) as [t|].
  - left. exact G1.
  - right. split; [reflexivity|]. destruct G1 as [a [b [E [F A]]]]. exists a, b.
    split; [exact E|]. split; [|split; [exact F|exact A]].
    intro Eb. subst b. rewrite app_nil_r in E. subst a.
    destruct A as [A|A]; [contradiction|]. apply A. symmetry. exact Ec.
Qed.

(** daqGetErrorInfo after a failed call gives an error with the code of the
    call: the object made by the call when nobody extended it, else one with
    the text of the whole chain.  daqGetErrorInfoList gives the older pending
    errors and then the chain; outside any guard it leaves nothing. *)
Theorem c63_last_error : forall k f h ch, disciplined f -> settled h ->
  meaning k (guardPlace h) f = Bad ch ->
  exists i,
    getErrorInfo k (snd (exec k f h)) = Got i /\ i_code i = codeOf ch /\
    (match ch with
     | [e] => i = Info (e_code e) 0 (e_text e) (e_where e)
     | _ => i_msg i = Some (textOf k (guardPlace h) ch)
     end) /\
    fst (getErrorInfoList (snd (exec k f h))) = Some (pending h ++ infosOf ch) /\
    snd (getErrorInfoList (snd (exec k f h)))
      = (match h with [] => [] | s :: r => match s_id s with None => r | Some _ => snd (exec k f h) end end).
Proof.
  intros k f h ch D T E. assert (M := exec_meaning k f h D T). rewrite E in M.
  destruct M as [W X]. rewrite X. cbn [snd].
  assert (MR := message_raised k ch h W).
  destruct (exists_last (proj1 W)) as [ch' [e Ech]].
  assert (Hh := rev_infos_app ch' e). rewrite <- Ech in Hh.
  assert (L : fst (getErrorInfoList (raised ch h)) = Some (pending h ++ infosOf ch)).
  { destruct h as [|s r]; cbn [raised getErrorInfoList withInfos s_infos fst pending].
    - rewrite rev_involutive, Hh. reflexivity.
    - rewrite rev_app_distr, rev_involutive, Hh. reflexivity. }
  assert (L2 : snd (getErrorInfoList (raised ch h))
      = (match h with [] => [] | s :: r => match s_id s with None => r | Some _ => raised ch h end end)).
  { destruct h as [|s r]; [reflexivity|]. cbn [raised getErrorInfoList snd]. unfold isInitial.
    cbn [withInfos s_id]. destruct (s_id s); reflexivity. }
  destruct (raised_cons ch h) as [s [r [R [RI RP]]]].
  assert (C : codeOf ch = e_code e) by (rewrite Ech; apply codeOf_app).
  destruct ch' as [|a ch'].
  - subst ch. exists (Info (e_code e) 0 (e_text e) (e_where e)).
    split; [|split; [symmetry; exact C|split; [reflexivity|split; [exact L|exact L2]]]].
    rewrite R. cbn [getErrorInfo]. rewrite RI, Hh. reflexivity.
  - destruct (wf_app (a :: ch') e ltac:(rewrite <- Ech; exact W)) as [_ [Z|W']]; [discriminate Z|].
    exists (Info (codeOf ch) 0 (Some (textOf k (guardPlace h) ch)) None).
    split; [|split; [reflexivity|split; [|split; [exact L|exact L2]]]].
    + rewrite R in MR. cbn [getFormattedMessage] in MR.
      rewrite R. cbn [getErrorInfo]. rewrite RI, Hh. cbn [app i_prev i_code]. unfold okCode.
      rewrite (failed_nz _ (wf_code _ W')). rewrite MR. cbn [snd]. rewrite C. reflexivity.
    + rewrite Ech. cbn [app]. destruct ch'; reflexivity.
Qed.

(** Whether such a function fails, and with which code, does not depend on
    the build type, on the error guard option or on the errors pending. *)
Theorem c63_builds : forall f k1 k2 h1 h2, disciplined f -> settled h1 -> settled h2 ->
  exists c1 c2, fst (exec k1 f h1) = Ret c1 /\ fst (exec k2 f h2) = Ret c2 /\
    failed c1 = failed c2 /\ (failed c1 = true -> c1 = c2).
Proof.
  intros f k1 k2 h1 h2 D T1 T2.
  assert (A := exec_meaning k1 f h1 D T1). assert (B := exec_meaning k2 f h2 D T2).
  assert (S0 := builds_same f k1 k2 (guardPlace h1) (guardPlace h2)).
  destruct (meaning k1 (guardPlace h1) f) as [|x]; destruct (meaning k2 (guardPlace h2) f) as [|y];
    cbn [sameOutcome] in S0; try contradiction.
  - destruct A as [c1 [F1 E1]]. destruct B as [c2 [F2 E2]]. exists c1, c2.
    rewrite E1, E2, F1, F2. split; [reflexivity|]. split; [reflexivity|]. split; [reflexivity|discriminate].
  - destruct A as [W1 E1]. destruct B as [W2 E2]. exists (codeOf x), (codeOf y).
    rewrite E1, E2, (wf_code _ W1), (wf_code _ W2).
    split; [reflexivity|]. split; [reflexivity|]. split; [reflexivity|intros _; exact S0].
Qed.

(** Whatever a function does under an error guard, whether it follows the
    conventions or not, the errors pending before are the errors pending
    after the guard is gone. *)
Theorem c63_guard : forall k w f h, snd (exec k (CGuarded w f) h) = h.
Proof. exact exec_guarded. Qed.

(** Guards destroyed in another order than created: only the destroyed guard
    and its errors go. *)
Theorem c63_guard_order : forall g a s b,
  s_id s = Some g -> Forall (fun x => s_id x <> Some g) a ->
  closeGuard g (a ++ s :: b) = (a ++ b)%list.
Proof.
  intros g a s b S0 F. induction F as [|x a N0 F IH].
  - cbn [app closeGuard]. unfold sameGuard. rewrite S0, Nat.eqb_refl. reflexivity.
  - cbn [app closeGuard]. unfold sameGuard. destruct (s_id x) as [g'|]; [|rewrite IH; reflexivity].
    destruct (Nat.eqb g g') eqn:Q; [|rewrite IH; reflexivity].
    apply Nat.eqb_eq in Q. subst g'. destruct N0. reflexivity.
Qed.

(** A frozen error object, such as every pending one, does not change: every
    setter is refused and the text is always the same. *)
Theorem c63_frozen : forall k line l o, o_frozen o = true ->
  visible (operate k line l o) = visible o /\
  (forall p, isSetter p -> ostep k line p (operate k line l o) = (operate k line l o, frozenCode, None)) /\
  (o_cache o = None ->
   snd (ostep k line GetFormatted (operate k line l o)) = Some (objectText k line o)).
Proof.
  intros k line l o F. assert (V := frozen_operate k line l o F).
  assert (F' : o_frozen (operate k line l o) = true) by (unfold visible in V; congruence).
  split; [exact V|]. split; [intros p S0; apply frozen_setter; assumption|].
  intro C. assert (Q := cache_frozen k line l o F (or_introl C)). cbv zeta in Q.
  cbn [ostep]. destruct Q as [Q|Q]; rewrite Q; cbn [snd]; [|reflexivity].
  rewrite (text_visible k line _ _ V). reflexivity.
Qed.

(** Reading a written error object gives its message, source, file name and
    line back.  Missing: the code and the previous code, and an empty file
    name (see [c63_code_lost_refuted]). *)
Theorem c63_serialize_partial : forall o, exists o',
  odeserialize (oserialize o) = Some o' /\
  o_msg o' = o_msg o /\ o_src o' = o_src o /\ o_line o' = o_line o /\
  (o_file o <> Some EmptyString -> o_file o' = o_file o).
Proof.
  intro o. rewrite serialize_back. eexists. split; [reflexivity|].
  split; [reflexivity|]. split; [reflexivity|]. split; [reflexivity|].
  intro N0. cbn [o_file]. destruct (o_file o) as [[|a f]|]; [destruct N0; reflexivity|reflexivity|reflexivity].
Qed.

(** ** What does not hold *)

Definition notFound : N := 2147483654.
Definition noName (c : N) : string := "default".
Definition release : cfg := Cfg false false noName noName.
Definition debug : cfg := Cfg true true noName noName.

(** A function that passes on a failing code which came without error
    information lets a C++ exception out of the ErrCode interface. *)
Theorem c63_bare_refuted :
  (forall k m w, exists t, fst (exec k (CExtend (CBare notFound) m w) []) = Std t) /\
  (exists f, fst (exec release f []) = Ret notFound /\ exists t, fst (exec debug f []) = Std t).
Proof.
  split.
  - intros k m w. eexists. cbn. reflexivity.
  - exists (CSeq (CBare notFound) "w" COk). split; [reflexivity|]. eexists. reflexivity.
Qed.

(** A failing result that was ignored earlier is reported as the reason of a
    later failure, and ignored failures pile up. *)
Theorem c63_stale_refuted :
  (exists f h', exec release f [] = (Ret notFound, h') /\
     f = CSeq (CIgnore (CMake notFound "of the first call" "w")) "w" (CBare notFound) /\
     fst (checkErrorInfo release notFound h') = Daq notFound "of the first call") /\
  (forall n, length (pending (Nat.iter n (fun h => snd (exec release (CIgnore (CMake notFound "m" "w")) h)) [])) = n).
Proof.
  split.
  - eexists. eexists. split; [|split; [reflexivity|]]; [vm_compute; reflexivity|vm_compute; reflexivity].
  - induction n as [|n IH]; [reflexivity|].
    change (Nat.iter (S n) (fun h => snd (exec release (CIgnore (CMake notFound "m" "w")) h)) [])
      with (snd (exec release (CIgnore (CMake notFound "m" "w"))
              (Nat.iter n (fun h => snd (exec release (CIgnore (CMake notFound "m" "w")) h)) []))).
    set (h := Nat.iter n _ _) in *. cbn [exec snd]. rewrite make_raised.
    destruct h as [|s r]; [cbn in IH |- *; rewrite IH; reflexivity|].
    cbn [pending raised withInfos s_infos infosOf infosFrom rev app] in *.
    rewrite app_length, IH. cbn. lia.
Qed.

(** Expecting a code clears an unrelated pending error when the code came
    without error information. *)
Theorem c63_except_refuted :
  exists h, settled h /\ pending h <> [] /\
    exists h', exec release (CExcept (CBare notFound) notFound "w") h = (Ret okCode, h') /\ pending h' = [].
Proof.
  exists (raised [Entry generalError (Some "of the caller"%string) None] []).
  split; [apply settled_raised; [split; [discriminate|repeat constructor]|constructor]|].
  split; [discriminate|]. eexists. split; vm_compute; reflexivity.
Qed.

(** A function that returns a failing code out of its own guard loses the
    information, and its caller cannot extend it. *)
Theorem c63_guard_return_refuted : forall k,
  exists t, fst (exec k (CExtend (CGuarded "g" (CMake notFound "m" "w")) "x" "w") []) = Std t.
Proof.
  intro k. eexists. cbn [exec]. rewrite make_raised. reflexivity.
Qed.

(** An ignored failure inside daqTry makes it fail in debug builds and not in
    release builds. *)
Theorem c63_build_refuted :
  exists f, fst (exec release f []) = Ret okCode /\ fst (exec debug f []) = Ret notFound.
Proof.
  exists (CTry (CIgnore (CMake notFound "m" "w"))). split; vm_compute; reflexivity.
Qed.

(** With nothing pending, daqGetErrorInfo does not write its result. *)
Theorem c63_untouched_refuted : forall k, getErrorInfo k [] = Untouched.
Proof. reflexivity. Qed.

(** A guard released by another thread stays registered in the thread that
    made it, which stores its next error in freed memory. *)
Theorem c63_thread_refuted :
  exists w, t_dead w = [] /\
    let w' := releaseGuard 1 7 w in
    nextScope 0 w' = Some 7%nat /\ In 7%nat (t_dead w').
Proof.
  exists (Threads (fun t => if Nat.eqb t 0 then openGuard 7 None [] else []) []).
  split; [reflexivity|]. split; [reflexivity|left; reflexivity].
Qed.

(** The text is cached before the object is frozen: a message set later is
    not in it. *)
Theorem c63_cached_refuted : forall k line,
  let o := operate k line [SetMessage (Some "a"%string); GetFormatted; SetMessage (Some "b"%string)] newObject in
  o_msg o = Some "b"%string /\ snd (ostep k line GetFormatted o) <> Some (objectText k line o).
Proof.
  intros k line. split; [reflexivity|].
  destruct k as [[] g d w]; cbn; discriminate.
Qed.

(** The code of an error is lost when it is written and read. *)
Theorem c63_code_lost_refuted :
  exists o o', o_code o = notFound /\ odeserialize (oserialize o) = Some o' /\ o_code o' <> notFound.
Proof.
  exists (Object None None None (-1)%Z notFound 0 true None). eexists.
  split; [reflexivity|]. split; [reflexivity|discriminate].
Qed.

(** ** The hypotheses are met *)

Definition service : call :=
  CSeq (CExcept (CMake notFound "no such item" "a:1") notFound "b:2") "b:3"
    (CTry (CChange (CExtend (CMake notFound "no such device" "a:1") "while loading" "b:2")
             generalError "" "c:3")).

Example c63_service : disciplined service /\ settled [] /\
  meaning release None service = Bad [Entry generalError (Some "default"%string) None] /\
  meaning release None (CExtend (CMake notFound "x" "a") "while loading" "b")
    = Bad [Entry notFound (Some "x"%string) None; Entry notFound (Some "while loading"%string) None].
Proof.
  split; [repeat split|]. split; [constructor|]. split; vm_compute; reflexivity.
Qed.

Example c63_service_debug :
  exists t, meaning debug None service = Bad [Entry generalError (Some t) None] /\
    String.prefix "no such device [ a:1 ]" t = true.
Proof. eexists. split; vm_compute; reflexivity. Qed.

Example c63_settled_guard :
  settled (openGuard 3 (Some "g"%string) (raised [Entry notFound None None] [])).
Proof.
  apply settled_open. apply settled_raised; [split; [discriminate|repeat constructor]|constructor].
Qed.

Print Assumptions c63_calls.
Print Assumptions c63_expected.
Print Assumptions c63_release_text.
Print Assumptions c63_last_error.
Print Assumptions c63_builds.
Print Assumptions c63_guard.
Print Assumptions c63_guard_order.
Print Assumptions c63_frozen.
Print Assumptions c63_serialize_partial.
Print Assumptions c63_bare_refuted.
Print Assumptions c63_stale_refuted.
Print Assumptions c63_except_refuted.
Print Assumptions c63_guard_return_refuted.
Print Assumptions c63_build_refuted.
Print Assumptions c63_untouched_refuted.
Print Assumptions c63_thread_refuted.
Print Assumptions c63_cached_refuted.
Print Assumptions c63_code_lost_refuted.
