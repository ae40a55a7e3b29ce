(** * Err_Proofs: chains, messages and calls *)
From Coq Require Import String List ZArith NArith Bool Lia.
From Verif Require Import Err_Model Err_Spec.
Import ListNotations.
Open Scope N_scope.

Definition raised (ch : list entry) (h : holder) : holder :=
  match h with
  | [] => [Scope None None (rev (infosOf ch))]
  | s :: r => withInfos s (rev (infosOf ch) ++ s_infos s) :: r
  end.

Definition wfChain (ch : list entry) : Prop :=
  ch <> [] /\ Forall (fun e => failed (e_code e) = true) ch.

Lemma failed_nz : forall c, failed c = true -> (c =? 0) = false.
Proof.
  intros c H. apply N.eqb_neq. intro E. subst c. discriminate H.
Qed.

Lemma codeOf_app : forall ch e, codeOf (ch ++ [e]) = e_code e.
Proof. intros. unfold codeOf. rewrite last_last. reflexivity. Qed.

Lemma infosFrom_app : forall ch p e,
  infosFrom p (ch ++ [e])
  = infosFrom p ch ++ [Info (e_code e) (match ch with [] => p | _ => codeOf ch end) (e_text e) (e_where e)].
Proof.
  induction ch as [|a ch IH]; intros p e; [reflexivity|].
  cbn [app infosFrom]. f_equal. rewrite IH. f_equal. f_equal.
  destruct ch as [|b ch]; reflexivity.
Qed.

Lemma rev_infos_app : forall ch e,
  rev (infosOf (ch ++ [e]))
  = Info (e_code e) (match ch with [] => 0 | _ => codeOf ch end) (e_text e) (e_where e) :: rev (infosOf ch).
Proof. intros. unfold infosOf. rewrite infosFrom_app, rev_app_distr. reflexivity. Qed.

Lemma wf_app : forall ch e, wfChain (ch ++ [e]) ->
  failed (e_code e) = true /\ (ch = [] \/ wfChain ch).
Proof.
  intros ch e [_ F]. apply Forall_app in F. destruct F as [A B].
  inversion B as [|x y C D]. subst. split; [exact C|].
  destruct ch as [|a ch]; [left; reflexivity|right]. split; [discriminate|exact A].
Qed.

Lemma wf_snoc : forall ch e, (ch = [] \/ wfChain ch) -> failed (e_code e) = true ->
  wfChain (ch ++ [e]).
Proof.
  intros ch e H F. split; [destruct ch; discriminate|].
  apply Forall_app. split; [destruct H as [H|[_ H]]; [subst; constructor|exact H]|].
  constructor; [exact F|constructor].
Qed.

Lemma wf_code : forall ch, wfChain ch -> failed (codeOf ch) = true.
Proof.
  intros ch W. destruct (exists_last (proj1 W)) as [ch' [e E]]. subst ch.
  rewrite codeOf_app. exact (proj1 (wf_app _ _ W)).
Qed.

Lemma clear_chain : forall ch l, wfChain ch -> clearLast (rev (infosOf ch) ++ l) = l.
Proof.
  induction ch as [|e ch IH] using rev_ind; intros l W; [destruct (proj1 W); reflexivity|].
  destruct (wf_app _ _ W) as [F [E|W']].
  - subst ch. reflexivity.
  - rewrite rev_infos_app. cbn [app clearLast i_prev]. unfold okCode.
    destruct ch as [|a ch]; [destruct (proj1 W'); reflexivity|].
    rewrite (failed_nz _ (wf_code _ W')). apply IH. exact W'.
Qed.

Lemma last_chain : forall ch l, wfChain ch -> lastChain (rev (infosOf ch) ++ l) = rev (infosOf ch).
Proof.
  induction ch as [|e ch IH] using rev_ind; intros l W; [destruct (proj1 W); reflexivity|].
  destruct (wf_app _ _ W) as [F [E|W']].
  - subst ch. reflexivity.
  - rewrite rev_infos_app. cbn [app lastChain i_prev]. unfold okCode.
    destruct ch as [|a ch]; [destruct (proj1 W'); reflexivity|].
    rewrite (failed_nz _ (wf_code _ W')). f_equal. apply IH. exact W'.
Qed.

Lemma search_chain : forall k ch l, wfChain ch ->
  searchMessage k (codeOf ch) (rev (infosOf ch) ++ l) = (codeOf ch, Some (releaseText k ch)).
Proof.
  intros k ch l W. unfold releaseText. remember (codeOf ch) as c eqn:Ec.
  assert (C : c = codeOf ch) by exact Ec. clear Ec. revert c C.
  induction ch as [|e ch IH] using rev_ind; intros c C; [destruct (proj1 W); reflexivity|].
  rewrite codeOf_app in C. rewrite rev_infos_app, rev_app_distr.
  cbn [app rev searchMessage sameCode i_msg i_prev]. rewrite <- C, N.eqb_refl.
  cbn [firstText]. destruct (e_text e) as [t|]; [reflexivity|].
  destruct (wf_app _ _ W) as [F [E|W']].
  - subst ch. cbn [rev sameCode firstText].
    rewrite C. rewrite N.eqb_sym, (failed_nz _ F). reflexivity.
  - replace (match ch with [] => 0 | _ => codeOf ch end) with (codeOf ch)
      by (destruct ch; [destruct (proj1 W'); reflexivity|reflexivity]).
    destruct (codeOf ch =? c) eqn:Q.
    + apply N.eqb_eq in Q. apply (IH W' c). symmetry. exact Q.
    + destruct (exists_last (proj1 W')) as [ch' [e' E]]. rewrite E in Q |- *.
      rewrite codeOf_app in Q. rewrite rev_app_distr. cbn [rev app sameCode].
      rewrite Q. reflexivity.
Qed.

Lemma infoText_line : forall k i, infoText k i = lineOf k i.
Proof.
  intros k [c p m w]. unfold infoText, lineOf, okCode. cbn [i_code i_prev i_msg i_where].
  destruct (p =? 0); destruct m as [m|]; destruct w as [w|]; destruct (dbg k);
    destruct (p =? c); reflexivity.
Qed.

Lemma map_lines : forall k l, map (infoText k) l = map (lineOf k) l.
Proof. intros. apply map_ext. apply infoText_line. Qed.

Lemma app_nil_str : forall s : string, (s ++ "")%string = s.
Proof. induction s as [|a s IH]; [reflexivity|]. cbn. rewrite IH. reflexivity. Qed.

Lemma head_chain : forall ch, wfChain ch ->
  exists i l, rev (infosOf ch) = i :: l /\ i_code i = codeOf ch.
Proof.
  intros ch W. destruct (exists_last (proj1 W)) as [ch' [e E]]. subst ch.
  rewrite rev_infos_app, codeOf_app. eexists. eexists. split; reflexivity.
Qed.


Definition older (h : holder) : list info := match h with s :: _ => s_infos s | [] => [] end.

Lemma raised_cons : forall ch h, exists s r,
  raised ch h = s :: r /\ s_infos s = rev (infosOf ch) ++ older h /\ s_where s = guardPlace h.
Proof.
  intros ch [|s r].
  - eexists. eexists. split; [reflexivity|]. split; [cbn; rewrite app_nil_r; reflexivity|reflexivity].
  - eexists. eexists. split; [reflexivity|]. split; reflexivity.
Qed.

Lemma message_raised : forall k ch h, wfChain ch ->
  getFormattedMessage k (raised ch h) = (codeOf ch, Some (textOf k (guardPlace h) ch)).
Proof.
  intros k ch h W. destruct (raised_cons ch h) as [s [r [E [I1 P]]]]. rewrite E.
  cbn [getFormattedMessage]. unfold guardMessage, textOf. rewrite I1, P.
  destruct (head_chain ch W) as [i [l [Hh Hc]]].
  destruct (dbg k).
  - unfold formattedDebug. rewrite (last_chain ch (older h) W). rewrite Hh at 1. cbn [app].
    rewrite Hc, rev_involutive, map_lines. unfold debugText, linesOf.
    destruct (guardPlace h); reflexivity.
  - unfold formattedRelease. rewrite Hh at 1. cbn [app]. rewrite Hc.
    apply search_chain. exact W.
Qed.

Lemma clear_raised : forall ch h, wfChain ch -> settled h -> clearErrorInfo (raised ch h) = h.
Proof.
  intros ch [|s r] W T.
  - cbn [raised clearErrorInfo s_infos]. rewrite <- (app_nil_r (rev (infosOf ch))).
    rewrite (clear_chain ch [] W). reflexivity.
  - cbn [raised clearErrorInfo withInfos s_infos]. rewrite (clear_chain ch _ W).
    unfold isInitial. cbn [s_id]. inversion T as [|x y A B]. subst.
    destruct s as [[g|] w l]; cbn [s_id s_infos andb] in *; [reflexivity|].
    destruct (A eq_refl) as [_ N0]. destruct l; [destruct N0; reflexivity|reflexivity].
Qed.

Lemma settled_raised : forall ch h, wfChain ch -> settled h -> settled (raised ch h).
Proof.
  intros ch [|s r] W T.
  - constructor; [|constructor]. intros _. split; [reflexivity|]. cbn [s_infos].
    destruct (head_chain ch W) as [i [l [Hh _]]]. rewrite Hh. discriminate.
  - inversion T as [|x y A B]. subst. constructor; [|exact B].
    cbn [withInfos s_id s_infos s_where]. intro E. split; [exact (proj1 (A E))|].
    destruct (head_chain ch W) as [i [l [Hh _]]]. rewrite Hh. discriminate.
Qed.

Lemma make_raised : forall k c m w h,
  makeErrorInfo k c m w h = raised [Entry c (optional m) (place k w)] h.
Proof. intros k c m w [|s r]; reflexivity. Qed.

Lemma extend_raised : forall k ch c m w h, wfChain ch ->
  extendWith k (codeOf ch) c m w (raised ch h)
  = (false, raised (ch ++ [Entry c (optional m) (place k w)]) h).
Proof.
  intros k ch c m w h W. unfold extendWith, extendErrorInfo.
  destruct (head_chain ch W) as [i [l [Hh Hc]]].
  assert (N0 : match ch with [] => 0 | _ => codeOf ch end = codeOf ch)
    by (destruct ch; [destruct (proj1 W); reflexivity|reflexivity]).
  destruct h as [|s r]; cbn [raised getOrCreateBack withInfos s_infos s_id s_where];
    rewrite rev_infos_app, N0, Hh; cbn [app i_prev]; rewrite Hc, N.eqb_refl; reflexivity.
Qed.

Lemma extendBare_raised : forall k ch w h, wfChain ch ->
  extendBare k (codeOf ch) (Some w) (raised ch h) = (false, raised (passed k ch w) h).
Proof.
  intros k ch w h W. unfold extendBare, passed. destruct (dbg k) eqn:D; [|reflexivity].
  rewrite (extend_raised k ch _ _ _ h W). unfold place. rewrite D. reflexivity.
Qed.

Lemma passed_code : forall k ch w, codeOf (passed k ch w) = codeOf ch.
Proof. intros. unfold passed. destruct (dbg k); [rewrite codeOf_app; reflexivity|reflexivity]. Qed.

Lemma passed_wf : forall k ch w, wfChain ch -> wfChain (passed k ch w).
Proof.
  intros k ch w W. unfold passed. destruct (dbg k); [|exact W].
  apply wf_snoc; [right; exact W|apply wf_code; exact W].
Qed.

Lemma check_raised : forall k ch h, wfChain ch -> settled h ->
  checkErrorInfo k (codeOf ch) (raised ch h)
  = (Daq (codeOf ch) (exceptionText k (guardPlace h) ch), h).
Proof.
  intros k ch h W T. unfold checkErrorInfo. rewrite (wf_code _ W). unfold takeMessage.
  rewrite (message_raised k ch h W), N.eqb_refl, (clear_raised ch h W T).
  unfold thrownText, exceptionText. destruct (textOf k (guardPlace h) ch); reflexivity.
Qed.

Lemma settled_open : forall g w h, settled h -> settled (openGuard g w h).
Proof. intros. constructor; [intro E; discriminate E|assumption]. Qed.

Lemma close_top : forall g w l h, closeGuard g (Scope (Some g) w l :: h) = h.
Proof. intros. cbn [closeGuard sameGuard s_id]. unfold sameGuard. cbn [s_id]. rewrite Nat.eqb_refl. reflexivity. Qed.

Lemma find_top : forall g w l h, findGuard g (Scope (Some g) w l :: h) = Some (Scope (Some g) w l).
Proof. intros. cbn [findGuard]. unfold sameGuard. cbn [s_id]. rewrite Nat.eqb_refl. reflexivity. Qed.

Lemma checkGuard_empty : forall k g w h, checkErrorGuard k g (openGuard g w h) = None.
Proof. intros. unfold checkErrorGuard, openGuard. rewrite find_top. reflexivity. Qed.

Lemma checkGuard_raised : forall k g w ch h, wfChain ch ->
  checkErrorGuard k g (raised ch (openGuard g w h)) = Some (codeOf ch, linesText k ch).
Proof.
  intros k g w ch h W. unfold checkErrorGuard, openGuard. cbn [raised withInfos s_id s_where s_infos].
  change (withInfos (Scope (Some g) w []) (rev (infosOf ch) ++ [])) with (Scope (Some g) w (rev (infosOf ch) ++ [])).
  rewrite find_top. cbn [s_infos]. rewrite app_nil_r.
  destruct (head_chain ch W) as [i [l [Hh Hc]]]. rewrite Hh at 1.
  rewrite Hc, (wf_code _ W), rev_involutive, map_lines. reflexivity.
Qed.

Lemma close_raised : forall g w ch h, closeGuard g (raised ch (openGuard g w h)) = h.
Proof. intros. unfold openGuard. cbn [raised withInfos s_id s_where s_infos]. apply close_top. Qed.

(** ** The main lemma *)

Lemma at_place : forall k w, place k (Some w) = at_ k w.
Proof. reflexivity. Qed.

Lemma exec_meaning : forall k f h, disciplined f -> settled h ->
  match meaning k (guardPlace h) f with
  | Good => exists c, failed c = false /\ exec k f h = (Ret c, h)
  | Bad ch => wfChain ch /\ exec k f h = (Ret (codeOf ch), raised ch h)
  end.
Proof.
  intros k f. induction f as [|c m w|c|a IHa w b IHb|a IHa m w|a IHa n m w|a IHa e w|a IHa|a IHa|a IHa|a IHa|w a IHa];
    intros h D T; cbn [disciplined] in D; cbn [meaning exec].
  - exists okCode. split; reflexivity.
  - split; [split; [discriminate|constructor; [exact D|constructor]]|].
    rewrite make_raised. reflexivity.
  - exists c. split; [exact D|reflexivity].
  - destruct D as [Da Db]. specialize (IHa h Da T). specialize (IHb h Db T).
    destruct (meaning k (guardPlace h) a) as [|ch].
    + destruct IHa as [c [F E]]. rewrite E, F. exact IHb.
    + destruct IHa as [W E]. rewrite E, (wf_code _ W), (extendBare_raised k ch w h W).
      split; [apply passed_wf; exact W|]. unfold returned. cbn [fst snd]. rewrite passed_code. reflexivity.
  - specialize (IHa h D T). destruct (meaning k (guardPlace h) a) as [|ch].
    + destruct IHa as [c [F E]]. exists c. split; [exact F|]. rewrite E, F. reflexivity.
    + destruct IHa as [W E]. rewrite E, (wf_code _ W), (extend_raised k ch _ _ _ h W).
      split; [apply wf_snoc; [right; exact W|apply wf_code; exact W]|].
      unfold returned. cbn [fst snd]. rewrite codeOf_app. reflexivity.
  - destruct D as [D Fn]. specialize (IHa h D T). destruct (meaning k (guardPlace h) a) as [|ch].
    + destruct IHa as [c [F E]]. exists c. split; [exact F|]. rewrite E, F. reflexivity.
    + destruct IHa as [W E]. rewrite E, (wf_code _ W), (extend_raised k ch _ _ _ h W).
      split; [apply wf_snoc; [right; exact W|exact Fn]|].
      unfold returned. cbn [fst snd]. rewrite codeOf_app. reflexivity.
  - destruct D as [D Fe]. specialize (IHa h D T). destruct (meaning k (guardPlace h) a) as [|ch].
    + destruct IHa as [c [F E]]. exists okCode. split; [reflexivity|]. rewrite E, F.
      destruct (c =? e) eqn:Q; [|reflexivity].
      apply N.eqb_eq in Q. subst c. rewrite Fe in F. discriminate F.
    + destruct IHa as [W E]. rewrite E. destruct (codeOf ch =? e).
      * exists okCode. split; [reflexivity|]. rewrite (clear_raised ch h W T). reflexivity.
      * rewrite (wf_code _ W), (extendBare_raised k ch w h W).
        split; [apply passed_wf; exact W|]. unfold returned. cbn [fst snd]. rewrite passed_code. reflexivity.
  - destruct D.
  - specialize (IHa h D T). exists okCode. split; [reflexivity|].
    destruct (meaning k (guardPlace h) a) as [|ch].
    + destruct IHa as [c [F E]]. rewrite E. unfold checkErrorInfo. rewrite F. reflexivity.
    + destruct IHa as [W E]. rewrite E, (check_raised k ch h W T). reflexivity.
  - unfold daqTry. destruct (grd k) eqn:G.
    + specialize (IHa (openGuard (length h) (Some tryName) h) D (settled_open _ _ _ T)).
      cbn [openGuard guardPlace s_where] in IHa.
      destruct (meaning k (Some tryName) a) as [|ch].
      * destruct IHa as [c [F E]]. fold (openGuard (length h) (Some tryName) h) in E. rewrite E.
        unfold checkErrorInfo. rewrite F. rewrite checkGuard_empty. exists okCode. split; [reflexivity|].
        cbn [catchAll]. unfold openGuard. rewrite close_top. reflexivity.
      * destruct IHa as [W E]. fold (openGuard (length h) (Some tryName) h) in E. rewrite E.
        rewrite (check_raised k ch _ W (settled_open _ _ _ T)).
        cbn [catchAll]. unfold openGuard at 2. rewrite close_top, make_raised.
        split; [split; [discriminate|constructor; [exact (wf_code _ W)|constructor]]|].
        unfold place. cbn [openGuard guardPlace s_where]. destruct (dbg k); reflexivity.
    + specialize (IHa h D T). destruct (meaning k (guardPlace h) a) as [|ch].
      * destruct IHa as [c [F E]]. rewrite E. unfold checkErrorInfo. rewrite F.
        exists okCode. split; reflexivity.
      * destruct IHa as [W E]. rewrite E, (check_raised k ch h W T). cbn [catchAll].
        rewrite make_raised.
        split; [split; [discriminate|constructor; [exact (wf_code _ W)|constructor]]|].
        unfold place. destruct (dbg k); reflexivity.
  - unfold daqTry. destruct (grd k) eqn:G.
    + specialize (IHa (openGuard (length h) (Some tryName) h) D (settled_open _ _ _ T)).
      cbn [openGuard guardPlace s_where] in IHa.
      destruct (meaning k (Some tryName) a) as [|ch].
      * destruct IHa as [c [F E]]. fold (openGuard (length h) (Some tryName) h) in E. rewrite E.
        rewrite checkGuard_empty. exists c. split; [exact F|].
        cbn [catchAll]. unfold openGuard. rewrite close_top. reflexivity.
      * destruct IHa as [W E]. fold (openGuard (length h) (Some tryName) h) in E. rewrite E.
        rewrite (checkGuard_raised k _ _ ch h W).
        cbn [catchAll]. rewrite close_raised, make_raised.
        split; [split; [discriminate|constructor; [exact (wf_code _ W)|constructor]]|].
        unfold place. destruct (dbg k); reflexivity.
    + specialize (IHa h D T). destruct (meaning k (guardPlace h) a) as [|ch].
      * destruct IHa as [c [F E]]. rewrite E. exists c. split; [exact F|reflexivity].
      * destruct IHa as [W E]. rewrite E. split; [exact W|reflexivity].
  - destruct D.
Qed.

Lemma raised_raisedIn : forall h ch, wfChain ch -> settled h -> raisedIn h ch (raised ch h).
Proof.
  intros h ch W T. unfold raisedIn. split; [|split; [|split]].
  - destruct h as [|s r].
    + cbn [raised pending s_infos]. rewrite rev_involutive. reflexivity.
    + cbn [raised pending withInfos s_infos]. rewrite rev_app_distr, rev_involutive. reflexivity.
  - destruct h; reflexivity.
  - destruct h as [|s r]; [reflexivity|]. reflexivity.
  - apply settled_raised; assumption.
Qed.

(** ** The meaning does not depend on the build *)

Definition sameOutcome (a b : result) : Prop :=
  match a, b with
  | Good, Good => True
  | Bad x, Bad y => codeOf x = codeOf y
  | _, _ => False
  end.

Lemma builds_same : forall f k1 k2 g1 g2, sameOutcome (meaning k1 g1 f) (meaning k2 g2 f).
Proof.
  induction f as [|c m w|c|a IHa w b IHb|a IHa m w|a IHa n m w|a IHa e w|a IHa|a IHa|a IHa|a IHa|w a IHa];
    intros k1 k2 g1 g2; cbn [meaning sameOutcome]; try exact I; try reflexivity.
  - specialize (IHa k1 k2 g1 g2).
    destruct (meaning k1 g1 a); destruct (meaning k2 g2 a); cbn [sameOutcome] in IHa |- *; try contradiction.
    + apply IHb.
    + rewrite !passed_code. exact IHa.
  - specialize (IHa k1 k2 g1 g2).
    destruct (meaning k1 g1 a); destruct (meaning k2 g2 a); cbn [sameOutcome] in IHa |- *; try contradiction.
    + exact I.
    + rewrite !codeOf_app. exact IHa.
  - specialize (IHa k1 k2 g1 g2).
    destruct (meaning k1 g1 a); destruct (meaning k2 g2 a); cbn [sameOutcome] in IHa |- *; try contradiction.
    + exact I.
    + rewrite !codeOf_app. reflexivity.
  - specialize (IHa k1 k2 g1 g2).
    destruct (meaning k1 g1 a) as [|x]; destruct (meaning k2 g2 a) as [|y]; cbn [sameOutcome] in IHa |- *; try contradiction.
    + exact I.
    + rewrite IHa. destruct (codeOf y =? e); cbn [sameOutcome]; [exact I|].
      rewrite !passed_code. exact IHa.
  - specialize (IHa k1 k2 (if grd k1 then Some tryName else g1) (if grd k2 then Some tryName else g2)).
    destruct (meaning k1 _ a); destruct (meaning k2 _ a); cbn [sameOutcome] in IHa |- *; try contradiction.
    + exact I.
    + exact IHa.
  - specialize (IHa k1 k2 (if grd k1 then Some tryName else g1) (if grd k2 then Some tryName else g2)).
    destruct (meaning k1 _ a); destruct (meaning k2 _ a); cbn [sameOutcome] in IHa |- *; try contradiction.
    + exact I.
    + destruct (grd k1); destruct (grd k2); cbn [sameOutcome]; exact IHa.
Qed.

(** ** Guards isolate: whatever a function does, a guard on top stays on top
    and nothing under it changes. *)

Definition topOnly (h h' : holder) : Prop :=
  match h with
  | [] => True
  | s :: r => s_id s <> None -> exists l, h' = withInfos s l :: r
  end.

Lemma topOnly_refl : forall h, topOnly h h.
Proof.
  intros [|s r]; [exact I|]. intros _. exists (s_infos s). destruct s; reflexivity.
Qed.

Lemma topOnly_trans : forall a b c, topOnly a b -> topOnly b c -> topOnly a c.
Proof.
  intros [|s r] b c H1 H2; [exact I|]. intro N0. destruct (H1 N0) as [l E]. subst b.
  cbn [topOnly withInfos s_id] in H2. destruct (H2 N0) as [l2 E]. exists l2. exact E.
Qed.

Lemma topOnly_set : forall i h, topOnly h (setErrorInfo i h).
Proof. intros i [|s r]; [exact I|]. intros _. eexists. reflexivity. Qed.

Lemma topOnly_extend : forall i h, topOnly h (snd (extendErrorInfo i h)).
Proof.
  intros i [|s r]; [exact I|]. intros _. unfold extendErrorInfo. cbn [getOrCreateBack].
  destruct (s_infos s) as [|l0 l1] eqn:E.
  - exists []. destruct s; cbn in *; subst; reflexivity.
  - destruct (i_code l0 =? i_prev i); cbn [snd].
    + eexists. reflexivity.
    + exists (l0 :: l1). destruct s; cbn in *; subst; reflexivity.
Qed.

Lemma topOnly_clear : forall h, topOnly h (clearErrorInfo h).
Proof.
  intros [|s r]; [exact I|]. intro N0. cbn [clearErrorInfo]. unfold isInitial.
  destruct (s_id s); [|destruct N0; reflexivity]. cbn [andb]. eexists. reflexivity.
Qed.

Lemma topOnly_bare : forall k c w h, topOnly h (snd (extendBare k c w h)).
Proof.
  intros. unfold extendBare. destruct (dbg k); [apply topOnly_extend|apply topOnly_refl].
Qed.

Lemma topOnly_check : forall k c h, topOnly h (snd (checkErrorInfo k c h)).
Proof.
  intros. unfold checkErrorInfo, takeMessage. destruct (failed c); [|apply topOnly_refl].
  destruct (getFormattedMessage k h) as [e [m|]]; [|apply topOnly_refl].
  destruct (e =? c); [apply topOnly_clear|apply topOnly_refl].
Qed.

Lemma topOnly_catch : forall k o h, topOnly h (snd (catchAll k o h)).
Proof.
  intros k [c|c t|t] h; cbn [catchAll snd]; [apply topOnly_refl|apply topOnly_set|apply topOnly_set].
Qed.

Lemma topOnly_open_close : forall g w h h2,
  topOnly (openGuard g w h) h2 -> closeGuard g h2 = h.
Proof.
  intros g w h h2 H. cbn [openGuard topOnly s_id] in H.
  destruct H as [l E]; [discriminate|]. subst h2. apply close_top.
Qed.

Lemma topOnly_try : forall k body h,
  (forall x, topOnly x (snd (body x))) -> topOnly h (snd (daqTry k body h)).
Proof.
  intros k body h H. unfold daqTry. destruct (grd k).
  - specialize (H (openGuard (length h) (Some tryName) h)).
    destruct (body (openGuard (length h) (Some tryName) h)) as [o h2]. cbn [snd] in H.
    rewrite (topOnly_open_close _ _ _ _ H). apply topOnly_catch.
  - specialize (H h). destruct (body h) as [o h2]. cbn [snd] in H.
    eapply topOnly_trans; [exact H|apply topOnly_catch].
Qed.

Lemma returned_snd : forall c r, snd (returned c r) = snd r.
Proof. intros c [[] h]; reflexivity. Qed.

Lemma exec_topOnly : forall k f h, topOnly h (snd (exec k f h)).
Proof.
  intros k f. induction f as [|c m w|c|a IHa w b IHb|a IHa m w|a IHa n m w|a IHa e w|a IHa|a IHa|a IHa|a IHa|w a IHa];
    intros h; cbn [exec].
  - apply topOnly_refl.
  - apply topOnly_set.
  - apply topOnly_refl.
  - specialize (IHa h). destruct (exec k a h) as [[c|c t|t] h']; cbn [snd] in *; try exact IHa.
    eapply topOnly_trans; [exact IHa|].
    destruct (failed c); [rewrite returned_snd; apply topOnly_bare|apply IHb].
  - specialize (IHa h). destruct (exec k a h) as [[c|c t|t] h']; cbn [snd] in *; try exact IHa.
    eapply topOnly_trans; [exact IHa|].
    destruct (failed c); [rewrite returned_snd; apply topOnly_extend|apply topOnly_refl].
  - specialize (IHa h). destruct (exec k a h) as [[c|c t|t] h']; cbn [snd] in *; try exact IHa.
    eapply topOnly_trans; [exact IHa|].
    destruct (failed c); [rewrite returned_snd; apply topOnly_extend|apply topOnly_refl].
  - specialize (IHa h). destruct (exec k a h) as [[c|c t|t] h']; cbn [snd] in *; try exact IHa.
    eapply topOnly_trans; [exact IHa|].
    destruct (c =? e); [apply topOnly_clear|].
    destruct (failed c); [rewrite returned_snd; apply topOnly_bare|apply topOnly_refl].
  - specialize (IHa h). destruct (exec k a h) as [[c|c t|t] h']; cbn [snd] in *; exact IHa.
  - specialize (IHa h). destruct (exec k a h) as [[c|c t|t] h']; cbn [snd] in *; try exact IHa.
    eapply topOnly_trans; [exact IHa|apply topOnly_check].
  - apply topOnly_try. intro x. specialize (IHa x).
    destruct (exec k a x) as [[c|c t|t] h']; cbn [snd] in *; try exact IHa.
    eapply topOnly_trans; [exact IHa|].
    assert (Q := topOnly_check k c h'). destruct (checkErrorInfo k c h') as [[c2|c2 t2|t2] h3]; exact Q.
  - apply topOnly_try. exact IHa.
  - specialize (IHa (openGuard (length h) (Some w) h)).
    destruct (exec k a (openGuard (length h) (Some w) h)) as [o h2]. cbn [snd] in *.
    rewrite (topOnly_open_close _ _ _ _ IHa). apply topOnly_refl.
Qed.

Lemma exec_guarded : forall k w f h, snd (exec k (CGuarded w f) h) = h.
Proof.
  intros k w f h. cbn [exec]. assert (Q := exec_topOnly k f (openGuard (length h) (Some w) h)).
  destruct (exec k f (openGuard (length h) (Some w) h)) as [o h2]. cbn [snd] in *.
  exact (topOnly_open_close _ _ _ _ Q).
Qed.

(** ** The error object *)

Lemma frozen_step : forall k line p o, o_frozen o = true ->
  visible (fst (fst (ostep k line p o))) = visible o.
Proof.
  intros k line p o F.
  destruct o as [m s f l c q fr ca]. cbn [o_frozen] in F. subst fr.
  destruct p; cbn [ostep o_frozen o_cache]; try reflexivity.
  destruct ca; reflexivity.
Qed.

Lemma frozen_operate : forall k line l o, o_frozen o = true ->
  visible (operate k line l o) = visible o.
Proof.
  induction l as [|p l IH]; intros o F; [reflexivity|].
  cbn [operate]. assert (V := frozen_step k line p o F). rewrite IH; [exact V|].
  unfold visible in V. congruence.
Qed.

Lemma frozen_setter : forall k line p o, o_frozen o = true -> isSetter p ->
  ostep k line p o = (o, frozenCode, None).
Proof.
  intros k line p o F [A B]. destruct p; cbn [ostep]; rewrite ?F; try reflexivity; congruence.
Qed.

Lemma text_visible : forall k line a b, visible a = visible b ->
  objectText k line a = objectText k line b.
Proof.
  intros k line a b V. unfold visible in V. unfold objectText. inversion V. reflexivity.
Qed.

(** The cache, once filled, is what was filled in, or is still empty. *)
Lemma cache_step : forall k line p o t, o_cache o = Some t ->
  o_cache (fst (fst (ostep k line p o))) = Some t.
Proof.
  intros k line p [m s f l c q fr ca] t C. cbn [o_cache] in C. subst ca.
  destruct p; destruct fr; reflexivity.
Qed.

Lemma cache_operate : forall k line l o t, o_cache o = Some t ->
  o_cache (operate k line l o) = Some t.
Proof.
  induction l as [|p l IH]; intros o t C; [exact C|]. cbn [operate]. apply IH. apply cache_step. exact C.
Qed.

Lemma cache_frozen : forall k line l o, o_frozen o = true ->
  (o_cache o = None \/ o_cache o = Some (objectText k line o)) ->
  let o' := operate k line l o in
  o_cache o' = None \/ o_cache o' = Some (objectText k line o).
Proof.
  induction l as [|p l IH]; intros o F H; [exact H|]. cbn [operate]. cbv zeta in *.
  assert (V := frozen_step k line p o F).
  assert (F' : o_frozen (fst (fst (ostep k line p o))) = true) by (unfold visible in V; congruence).
  rewrite <- (text_visible k line _ _ V) in H |- *. apply IH; [exact F'|].
  rewrite (text_visible k line _ _ V) in H |- *.
  destruct p; cbn [ostep] in *; rewrite ?F in *; cbn [fst] in *; try exact H.
  destruct (o_cache o) as [t|] eqn:C; cbn [fst o_cache].
  - rewrite C. exact H.
  - right. reflexivity.
Qed.

Lemma serialize_back : forall o,
  odeserialize (oserialize o)
  = Some (Object (o_msg o) (o_src o)
            (match o_file o with Some EmptyString => None | f => f end)
            (o_line o) generalError okCode false None).
Proof.
  intros [m s f l c p fr ca]. unfold oserialize. cbn [o_msg o_src o_file o_line].
  destruct (l =? -1)%Z eqn:L.
  - apply Z.eqb_eq in L. subst l.
    destruct m; destruct s; destruct f as [[|a f]|]; reflexivity.
  - destruct m; destruct s; destruct f as [[|a f]|]; reflexivity.
Qed.
