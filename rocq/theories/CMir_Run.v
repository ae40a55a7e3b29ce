From Coq Require Import List Arith Bool Lia.
From Verif Require Import CMir_Model CMir_Spec CMir_Proofs CMir_Steps.
Import ListNotations.

(** ** A configuration is loaded *)

Lemma public_below_all (t : mirror) pre r :
  (forall s, s <> [] -> leads_to s r -> exists n, t (pre ++ s) = Some n /\ ~ private n) ->
  public_below t pre r = true.
Proof. apply hidden_dec_below. Qed.

Lemma update_shown_all (c t : mirror) pre r :
  (forall s, s <> [] -> leads_to s r -> exists n, t (pre ++ s) = Some n /\ ~ private n) ->
  update_shown c t pre r = true.
Proof.
  revert pre. induction r as [|i r IH]; intros pre H; cbn [update_shown]; [reflexivity|].
  destruct (H [i]) as (n & E & _); [discriminate|exists r; reflexivity|]. rewrite E.
  assert (H' : forall s, s <> [] -> leads_to s r ->
            exists m, t ((pre ++ [i]) ++ s) = Some m /\ ~ private m).
  { intros s NE [x ->]. rewrite <- app_assoc. apply (H (i :: s)); [discriminate|].
    exists x. reflexivity. }
  destruct (c (pre ++ [i])); [exact (IH _ H')|exact (public_below_all t _ _ H')].
Qed.

Lemma update_none c p t q :
  c p <> None -> leads_to p q -> t q = None -> cl_update c p t q = None.
Proof.
  intros CP [r ->] E. unfold cl_update. destruct (c p); [|contradiction].
  rewrite below_app, E. reflexivity.
Qed.

Lemma update_some c p t r n :
  c p <> None -> t (p ++ r) = Some n ->
  (forall s, s <> [] -> leads_to s r -> exists m, t (p ++ s) = Some m /\ ~ private m) ->
  cl_update c p t (p ++ r) =
  match c (p ++ r) with
  | Some m => Some (merge_node m n)
  | None => Some (new_node (p ++ r) n)
  end.
Proof.
  intros CP E H. unfold cl_update. destruct (c p); [|contradiction].
  rewrite below_app, E, (update_shown_all c t p r H). reflexivity.
Qed.

Lemma update_out c p t q : ~ leads_to p q -> cl_update c p t q = c q.
Proof.
  intro N. unfold cl_update. destruct (c p); [|reflexivity].
  destruct (below p q) as [r|] eqn:B; [|reflexivity].
  exfalso. apply N. exists r. exact (below_some _ _ _ B).
Qed.

Lemma load_kept t p o c keep r o' old n :
  t (p ++ r) = Some (o', old) -> comp_at c r = Some n -> stays keep r = true ->
  load_tree t p o c keep (p ++ r) = Some (o', load_node old n).
Proof. intros E C K. rewrite load_under, C, E, K. reflexivity. Qed.

Lemma between_update c s f p k keep :
  device s -> between c (s_tree s) f -> s_tree s p <> None ->
  (forall r n, comp_at k r = Some n -> n AName <> Some 0) ->
  (forall r n, r <> [] -> comp_at k r = Some n -> ~ private n) ->
  (forall r n, r <> [] -> has (s_tree s) (p ++ r) n -> comp_at k r <> None ->
               keep r = true /\ ~ private n) ->
  let t1 := load_tree (s_tree s) p (s_next s) k keep in
  between (cl_update c p (nodes t1)) t1 f.
Proof.
  intros D B EP NN NPR KEEP t1. destruct D as (R & RT & LT & NM).
  set (t := s_tree s) in *. set (o := s_next s) in *.
  assert (OT : forall x, ~ leads_to p x -> t1 x = t x) by (intros x N; exact (load_out t p o k keep x N)).
  (* what is at p ++ r afterwards *)
  assert (T1 : forall r, t1 (p ++ r) = None <-> comp_at k r = None) by (intro r; apply load_none).
  assert (STAY : forall r o' old, t (p ++ r) = Some (o', old) -> comp_at k r <> None ->
            stays keep r = true).
  { intros r o' old E C. destruct r as [|i r]; [reflexivity|]. cbn [stays].
    apply (KEEP (i :: r) old); [discriminate|exists o'; exact E|exact C]. }
  assert (PUB : forall r n, r <> [] -> has t1 (p ++ r) n -> ~ private n).
  { intros r n NE [o1 H]. unfold t1 in H. rewrite load_under in H.
    destruct (comp_at k r) as [nk|] eqn:CK; [|discriminate].
    pose proof (NPR r nk NE CK) as NPK.
    destruct (t (p ++ r)) as [[o' old]|] eqn:E.
    - rewrite (STAY r o' old E) in H by congruence. injection H as _ <-.
      destruct (KEEP r old NE) as [_ NPO]; [exists o'; exact E|congruence|].
      exact NPO.
    - injection H as _ <-. exact NPK. }
  assert (WAY : forall r, t1 (p ++ r) <> None -> forall x, x <> [] -> leads_to x r ->
            exists n, nodes t1 (p ++ x) = Some n /\ ~ private n).
  { intros r X x NE [y ->].
    assert (Z : t1 (p ++ x) <> None).
    { rewrite T1 in X |- *. exact (comp_at_app k x y X). }
    destruct (has_some t1 (p ++ x) Z) as [n H]. exists n.
    split; [apply nodes_has; exact H|exact (PUB x n NE H)]. }
  set (c1 := cl_update c p (nodes t1)).
  apply (between_local c c1 t t1 f p RT B OT).
  - intros x N. exact (update_out c p (nodes t1) x N).
  - intros r L _. exact (RT r p L EP).
  - (* closed *)
    intros r q L X. destruct (c p) as [mp|] eqn:CP.
    2:{ assert (C1 : c1 = c) by (unfold c1, cl_update; rewrite CP; reflexivity).
        rewrite C1 in *. exact (b_closed _ _ _ B r q L X). }
    assert (NE : c p <> None) by congruence.
    destruct (leads_dec p q) as [U|U].
    + destruct (leads_dec p r) as [V|V].
      * destruct V as [x ->]. destruct L as [y ->]. rewrite <- app_assoc in X, U.
        assert (Q : t1 (p ++ (x ++ y)) <> None).
        { intro Z. apply X. apply (update_none c p _ _ NE U). apply nodes_none. exact Z. }
        assert (Z : t1 (p ++ x) <> None).
        { rewrite T1 in Q |- *. exact (comp_at_app k x y Q). }
        destruct (has_some t1 _ Z) as [n H]. apply nodes_has in H.
        unfold c1. rewrite (update_some c p (nodes t1) x n NE H (WAY x Z)).
        destruct (c (p ++ x)); discriminate.
      * unfold c1. rewrite (update_out _ _ _ _ V).
        destruct (leads_cmp _ _ _ L U) as [W|W]; [|contradiction].
        apply (b_closed _ _ _ B r p W). congruence.
    + assert (V : ~ leads_to p r) by (intro V; apply U; exact (leads_trans _ _ _ V L)).
      unfold c1 in *. rewrite (update_out _ _ _ _ U) in X. rewrite (update_out _ _ _ _ V).
      exact (b_closed _ _ _ B r q L X).
  - (* shown *)
    intros q n U H K NH. destruct U as [r ->].
    assert (CK : comp_at k r <> None).
    { intro Z. apply T1 in Z. destruct H as [o1 H]. congruence. }
    (* the way to p ++ r in t is calm *)
    assert (CALM : calm t f (p ++ r)).
    { intros x L X. destruct (leads_dec p x) as [V|V].
      - destruct V as [y ->].
        assert (CY : comp_at k y <> None).
        { destruct L as [z L]. rewrite <- app_assoc in L. apply app_inv_head in L. subst r.
          exact (comp_at_app k y z CK). }
        destruct (t (p ++ y)) as [[o' old]|] eqn:E.
        2:{ exfalso. apply X. apply oid_none. exact E. }
        destruct (comp_at k y) as [ny|] eqn:CYY; [|contradiction].
        pose proof (load_kept t p o k keep y o' old ny E CYY (STAY y o' old E ltac:(congruence))) as LK.
        fold t1 in LK. assert (O : oid t1 (p ++ y) = oid t (p ++ y)).
        { unfold oid. rewrite LK, E. reflexivity. }
        rewrite <- O. apply K; [exact L|]. rewrite O. exact X.
      - assert (O : oid t1 x = oid t x) by (unfold oid; rewrite (OT x V); reflexivity).
        rewrite <- O. apply K; [exact L|]. rewrite O. exact X. }
    assert (KP : calm t f p) by (apply (calm_up t f p (p ++ r)); [exists r; reflexivity|exact CALM]).
    (* p itself is not hidden *)
    assert (NHP : ~ hidden t p).
    { intros (x & m & NE & L & HM & PM). apply NH.
      destruct (list_eq_dec Nat.eq_dec x p) as [->|N].
      - destruct HM as [o' HM].
        pose proof (load_kept t p o k keep [] o' m (comp_node k)) as LK.
        rewrite app_nil_r in LK. specialize (LK HM eq_refl eq_refl).
        exists p, (load_node m (comp_node k)). split; [exact NE|].
        split; [exists r; reflexivity|]. split; [exists o'; exact LK|exact PM].
      - exists x, m. split; [exact NE|].
        split; [apply (leads_trans x p (p ++ r)); [exact L|exists r; reflexivity]|].
        split; [|exact PM]. destruct HM as [o' HM]. exists o'. rewrite (OT x); [exact HM|].
        intro V. apply N. exact (leads_antisym _ _ L V). }
    destruct (has_some t p EP) as [np HNP].
    destruct (b_shown _ _ _ B p np HNP KP NHP) as (mp & CP & _).
    assert (NE : c p <> None) by congruence.
    assert (Q : t1 (p ++ r) <> None) by (rewrite T1; exact CK).
    pose proof (proj2 (nodes_has _ _ _) H) as HN.
    unfold c1. rewrite (update_some c p (nodes t1) r n NE HN (WAY r Q)).
    destruct (c (p ++ r)) as [m|] eqn:CQ.
    2:{ exists (new_node (p ++ r) n). split; [reflexivity|]. intro k'. left.
        apply new_node_named.
        destruct H as [o1 H]. unfold t1 in H. rewrite load_under in H.
        destruct (comp_at k r) as [nk|] eqn:CKR; [|discriminate].
        pose proof (NN r nk CKR) as N0.
        destruct (t (p ++ r)) as [[o' old]|].
        - destruct (stays keep r); injection H as _ <-; exact N0.
        - injection H as _ <-. exact N0. }
    exists (merge_node m n). split; [reflexivity|].
    (* what the client had is the old state or the final one *)
    assert (OLD : forall k', (k' = ATags \/ k' = AKind \/ k' = APublic \/ exists x, k' = AStatus x) ->
              m k' = n k' \/ m k' = att f (p ++ r) k').
    { intros k' KK. destruct (t (p ++ r)) as [[o' old]|] eqn:E.
      - destruct (comp_at k r) as [nk|] eqn:CKR; [|contradiction].
        pose proof (load_kept t p o k keep r o' old nk E CKR (STAY r o' old E ltac:(congruence))) as LK.
        destruct H as [o1 H]. fold t1 in LK. rewrite LK in H. injection H as _ <-.
        assert (NHT : ~ hidden t (p ++ r)).
        { intros (x & mx & NEx & L & HM & PM).
          destruct (leads_dec p x) as [V|V].
          - destruct V as [y ->]. destruct y as [|j y].
            + rewrite app_nil_r in *. apply NHP. exists p, mx.
              split; [exact NEx|]. split; [apply leads_refl|]. split; assumption.
            + destruct (KEEP (j :: y) mx) as [_ NPM]; [discriminate|exact HM| |].
              * destruct L as [z L]. rewrite <- app_assoc in L. apply app_inv_head in L.
                apply (comp_at_app k (j :: y) z). rewrite <- L. congruence.
              * contradiction.
          - apply NHP. exists x, mx. split; [exact NEx|]. split; [|split; assumption].
            destruct (leads_cmp x p (p ++ r) L) as [W|W]; [exists r; reflexivity|exact W|contradiction]. }
        destruct (b_shown _ _ _ B (p ++ r) old (ex_intro _ o' E) CALM NHT) as (m' & CM & V).
        rewrite CQ in CM. injection CM as <-.
        destruct (V k') as [X|X]; [left|right; exact X].
        rewrite X. destruct KK as [->|[->|[->|[x ->]]]]; reflexivity.
      - right.
        assert (FQ : f (p ++ r) <> None) by exact (final_node t1 f (p ++ r) Q K).
        destruct (has_some f _ FQ) as [nf HF].
        destruct (b_future _ _ _ B (p ++ r) E CALM ltac:(congruence) (p ++ r) (leads_refl _)) as [V1 V2].
        destruct (hidden_dec f (p ++ r)) as [HH|HH].
        + exfalso. rewrite (V2 (or_intror HH)) in CQ. discriminate.
        + destruct (V1 nf HF HH) as (x & X & XV). rewrite CQ in X. injection X as <-.
          rewrite (att_has _ _ _ _ HF). exact (XV k'). }
    intro k'. destruct k' as [| | | | | | |x]; cbn [merge_node].
    + left; reflexivity.
    + left; reflexivity.
    + left; reflexivity.
    + left; reflexivity.
    + apply OLD. left. reflexivity.
    + apply OLD. right; left. reflexivity.
    + apply OLD. right; right; left. reflexivity.
    + destruct (n (AStatus x)) as [v|] eqn:NX; [left; reflexivity|].
      destruct (OLD (AStatus x)) as [Y|Y]; [right; right; right; exists x; reflexivity| |right; exact Y].
      left. rewrite Y. exact NX.
  - (* hidden *)
    intros q U X K H. destruct U as [r ->].
    assert (HP : hidden t p).
    { destruct H as (x & m & NE & L & HM & PM).
      destruct (leads_dec p x) as [V|V].
      - destruct V as [y ->]. destruct y as [|j y].
        + rewrite app_nil_r in *. destruct HM as [o1 HM].
          destruct (t p) as [[o' old]|] eqn:E; [|contradiction].
          pose proof (load_kept t p o k keep [] o' old (comp_node k)) as LK.
          rewrite app_nil_r in LK. specialize (LK E eq_refl eq_refl). fold t1 in LK.
          rewrite LK in HM. injection HM as _ <-.
          exists p, old. split; [exact NE|]. split; [apply leads_refl|].
          split; [exists o'; exact E|exact PM].
        + exfalso. exact (PUB (j :: y) m ltac:(discriminate) HM PM).
      - exists x, m. split; [exact NE|].
        split; [destruct (leads_cmp x p (p ++ r) L) as [W|W]; [exists r; reflexivity|exact W|contradiction]|].
        split; [|exact PM]. destruct HM as [o1 HM]. exists o1. rewrite <- (OT x V). exact HM. }
    assert (KP : calm t f p).
    { intros x L X'.
      assert (O : oid t1 x = oid t x).
      { destruct (list_eq_dec Nat.eq_dec x p) as [->|N].
        - destruct (t p) as [[o' old]|] eqn:E; [|contradiction].
          pose proof (load_kept t p o k keep [] o' old (comp_node k)) as LK.
          rewrite app_nil_r in LK. specialize (LK E eq_refl eq_refl). fold t1 in LK.
          unfold oid. rewrite LK, E. reflexivity.
        - unfold oid. rewrite (OT x); [reflexivity|].
          intro V. apply N. exact (leads_antisym _ _ L V). }
      rewrite <- O. apply K; [|rewrite O; exact X'].
      apply (leads_trans x p (p ++ r)); [exact L|exists r; reflexivity]. }
    pose proof (b_hidden _ _ _ B p EP KP HP) as CP.
    assert (C1 : c1 = c) by (unfold c1, cl_update; rewrite CP; reflexivity).
    rewrite C1. destruct (c (p ++ r)) as [m|] eqn:CQ; [|reflexivity]. exfalso.
    apply (b_closed _ _ _ B p (p ++ r)); [exists r; reflexivity|congruence|exact CP].
  - (* future *)
    intros q U X K C q' L. exfalso.
    destruct (c p) as [mp|] eqn:CP.
    + apply C. apply (update_none c p (nodes t1)); [congruence|exact U|]. apply nodes_none. exact X.
    + assert (C1 : c1 = c) by (unfold c1, cl_update; rewrite CP; reflexivity).
      rewrite C1 in C. exact (b_closed _ _ _ B p q U C CP).
Qed.

(** ** A batch of operations *)

Lemma between_start c t f :
  closed c -> mirrors c t -> between c t f.
Proof.
  intros CL M. split.
  - exact CL.
  - intros q n H K NH. destruct (proj1 (M q) n H NH) as (m & CM & V).
    exists m. split; [exact CM|]. intro k. left. exact (V k).
  - intros q X K H. apply (proj2 (M q)). right. exact H.
  - intros q X K C. exfalso. apply C. apply (proj2 (M q)). left. exact X.
Qed.

Lemma calm_self t q : calm t t q.
Proof. intros r L X. reflexivity. Qed.

Lemma between_end c t : between c t t -> closed c /\ mirrors c t.
Proof.
  intro B. split; [exact (b_closed _ _ _ B)|]. intro q. split.
  - intros n H NH. destruct (b_shown _ _ _ B q n H (calm_self t q) NH) as (m & CM & V).
    exists m. split; [exact CM|]. intro k. destruct (V k) as [X|X]; [exact X|].
    rewrite X. exact (att_has _ _ _ k H).
  - intros [X|X].
    + destruct (c q) as [m|] eqn:C; [|reflexivity].
      pose proof (b_future _ _ _ B q X (calm_self t q) ltac:(congruence) q (leads_refl q)) as [_ V].
      rewrite C in V. exact (V (or_introl X)).
    + destruct (t q) as [[o n]|] eqn:E.
      * apply (b_hidden _ _ _ B q); [congruence|apply calm_self|exact X].
      * destruct (c q) as [m|] eqn:C; [|reflexivity].
        pose proof (b_future _ _ _ B q E (calm_self t q) ltac:(congruence) q (leads_refl q)) as [_ V].
        rewrite C in V. exact (V (or_introl E)).
Qed.

Lemma between_step c s f gone o :
  device s -> rooted f -> (forall q n, has f q n -> n AName <> Some 0) ->
  tame s o -> same_pub (s_tree (fst (op_step s o))) f ->
  between c (s_tree s) f ->
  between (cl_events f gone c (snd (op_step s o))) (s_tree (fst (op_step s o))) f.
Proof.
  intros D RF NF T SP B. pose proof D as (R & RT & LT & NM).
  destruct o as [p a v|p v|p k v|p k v|p i x|p i|p x keep]; cbn [op_step] in *.
  - unfold op_set in *. destruct (s_tree s p) as [[o n]|] eqn:E; [|exact B].
    destruct T as [TP _].
    destruct a; [| | | |contradiction];
      (cbn [setter_attr] in *;
       match goal with |- context [n ?k] => destruct (n k) as [w|]; [|exact B] end;
       destruct (Nat.eqb v w); [exact B|]; cbn [fst snd s_tree cl_events fold_left cl_event];
       apply between_attr; [exact RT|exact B|exact E|]; auto).
  - unfold op_tags in *. destruct (s_tree s p) as [[o n]|] eqn:E; [|exact B].
    cbn [fst snd s_tree cl_events fold_left]. apply between_tags; [exact RT|exact B|exact E].
  - unfold op_status in *. destruct (s_tree s p) as [[o n]|] eqn:E; [|exact B].
    destruct (n (AStatus k)) as [w|] eqn:W; [|exact B].
    destruct (Nat.eqb v w); [exact B|].
    cbn [fst snd s_tree cl_events fold_left cl_event].
    apply (between_status c _ f p o n k v w); [exact RT|exact B|exact E|exact W].
  - destruct T.
  - unfold op_add in *. destruct (s_tree s p) as [y|] eqn:E; [|exact B].
    destruct (s_tree s (p ++ [i])) as [z|] eqn:E'; [exact B|].
    cbn [fst snd s_tree cl_events fold_left] in *. destruct T as [_ TP].
    apply between_add; [exact D|exact RF|exact NF|exact B|congruence|exact E'|exact TP|exact SP].
  - unfold op_remove in *. destruct (s_tree s (p ++ [i])) as [z|] eqn:E; [|exact B].
    cbn [fst snd s_tree cl_events fold_left cl_event].
    apply between_remove; [exact RT|exact B|congruence].
  - unfold op_update in *. destruct (s_tree s p) as [z|] eqn:E; [|exact B].
    cbn [fst snd s_tree cl_events fold_left cl_event] in *. destruct T as (TN & TP & TK).
    apply between_update; [exact D|exact B|congruence|exact TN|exact TP|exact TK].
Qed.

Lemma cl_events_app f gone c e1 e2 :
  cl_events f gone c (e1 ++ e2) = cl_events f gone (cl_events f gone c e1) e2.
Proof. apply fold_left_app. Qed.

Lemma between_run gone os : forall s c,
  device s -> tame_all s os ->
  between c (s_tree s) (s_tree (fst (op_run s os))) ->
  between (cl_events (s_tree (fst (op_run s os))) gone c (snd (op_run s os)))
          (s_tree (fst (op_run s os))) (s_tree (fst (op_run s os))).
Proof.
  induction os as [|o os IH]; intros s c D T B; [exact B|].
  destruct (run_cons s o os) as [EF ES]. rewrite EF in *. rewrite ES.
  destruct T as [T1 T2]. rewrite cl_events_app.
  assert (D1 : device (fst (op_step s o))) by exact (device_step s o D T1).
  apply IH; [exact D1|exact T2|].
  pose proof (device_run _ os D1 T2) as (_ & RF & _ & NF).
  apply between_step; [exact D|exact RF|exact NF|exact T1| |exact B].
  intros q x X Y. exact (run_pub _ os q x D1 T2 X Y).
Qed.

Lemma batch_mirrors gone s os c :
  device s -> tame_all s os -> closed c -> mirrors c (s_tree s) ->
  closed (cl_events (s_tree (fst (op_run s os))) gone c (snd (op_run s os))) /\
  mirrors (cl_events (s_tree (fst (op_run s os))) gone c (snd (op_run s os)))
          (s_tree (fst (op_run s os))).
Proof.
  intros D T CL M. apply between_end. apply between_run; [exact D|exact T|].
  apply between_start; [exact CL|exact M].
Qed.

(** ** Connecting *)

Lemma connect_closed t : closed (cl_connect t).
Proof.
  intros r q L. unfold cl_connect. apply fresh_closed; [apply leads_nil|exact L].
Qed.

Lemma connect_mirrors s : device s -> mirrors (cl_connect (s_tree s)) (s_tree s).
Proof.
  intros (R & RT & LT & NM) q.
  apply (fresh_vnode (s_tree s) [] q); [exact RT|exact NM|exact R| |apply leads_nil].
  intros (r & n & NE & L & _). apply leads_to_nil in L. contradiction.
Qed.

(** ** Histories *)

Lemma hist_mirrors gone bs : forall s c sn,
  device s -> tame_hist s bs -> closed c -> mirrors c (s_tree s) ->
  exists s' c', w_run gone (mkWorld s (Some c) true sn) (batches bs)
                = mkWorld s' (Some c') true sn /\
                device s' /\ closed c' /\ mirrors c' (s_tree s').
Proof.
  induction bs as [|os bs IH]; intros s c sn D T CL M.
  - exists s, c. split; [reflexivity|]. split; [exact D|]. split; assumption.
  - destruct T as [T1 T2]. cbn [batches map w_run fold_left w_step w_srv w_cl w_accept w_snap deliver].
    pose proof (batch_mirrors gone s os c D T1 CL M) as [CL1 M1].
    pose proof (device_run s os D T1) as D1.
    destruct (op_run s os) as [s1 es] eqn:E. cbn [fst snd] in *.
    exact (IH s1 _ sn D1 T2 CL1 M1).
Qed.

(** ** Reconnecting *)

Lemma update_mirrors c t :
  rooted t -> (forall q n, has t q n -> n AName <> Some 0) ->
  updatable c t -> mirrors (cl_update c [] (nodes t)) t.
Proof.
  intros RT NM (C0 & NPV & SAME) q.
  assert (NH : ~ hidden t q).
  { intros (r & n & NE & L & H & P). exact (NPV r n H NE P). }
  split.
  - intros n H _.
    assert (WAY : forall x, x <> [] -> leads_to x q -> exists m, nodes t ([] ++ x) = Some m /\ ~ private m).
    { intros x NE L. assert (Z : t x <> None).
      { apply (RT x q L). destruct H as [o H]. congruence. }
      destruct (has_some t x Z) as [m HM]. exists m.
      split; [apply nodes_has; exact HM|exact (NPV x m HM NE)]. }
    pose proof (update_some c [] (nodes t) q n C0 (proj2 (nodes_has _ _ _) H) WAY) as E.
    cbn [app] in E. unfold shows. rewrite E. destruct (c q) as [m|] eqn:CQ.
    + exists (merge_node m n). split; [reflexivity|].
      destruct (SAME q n m H CQ) as (S1 & S2 & S3 & S4).
      intros [| | | | | | |x]; cbn [merge_node]; try reflexivity; try assumption.
      destruct (n (AStatus x)) as [v|] eqn:NX; [reflexivity|]. exact (S4 x NX).
    + exists (new_node q n). split; [reflexivity|]. apply new_node_named. exact (NM q n H).
  - intros [X|X]; [|contradiction].
    apply (update_none c []); [exact C0|apply leads_nil|apply nodes_none; exact X].
Qed.
