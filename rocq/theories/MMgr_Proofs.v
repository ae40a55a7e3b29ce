(** * MMgr_Proofs *)
From Coq Require Import Ascii String List Bool Arith ZArith Lia Permutation.
From Coq Require Import DecimalString Decimal DecimalNat.
From Verif Require Import CStat_Model CStat_Spec CStat_Proofs MMgr_Model MMgr_Spec.
Import ListNotations.
Open Scope string_scope.
Open Scope list_scope.

(** ** Splitting *)

Lemma occurs_app : forall c a b, occurs c (a ++ b)%string <-> occurs c a \/ occurs c b.
Proof.
  intros c. induction a as [|x a IH]; intro b; cbn [append occurs]; [tauto|]. rewrite IH. tauto.
Qed.

Lemma split_none : forall d s, ~ occurs d s -> split d s = [s].
Proof.
  intros d. induction s as [|x s IH]; intro H; [reflexivity|]. cbn [split occurs] in *.
  destruct (Ascii.eqb x d) eqn:E. { apply Ascii.eqb_eq in E. tauto. }
  rewrite IH by tauto. reflexivity.
Qed.

Lemma split_cons : forall d a b, ~ occurs d a -> split d (a ++ String d b)%string = a :: split d b.
Proof.
  intros d. induction a as [|x a IH]; intros b H; cbn [append split].
  - rewrite Ascii.eqb_refl. reflexivity.
  - cbn [occurs] in H. destruct (Ascii.eqb x d) eqn:E. { apply Ascii.eqb_eq in E. tauto. }
    rewrite IH by tauto. reflexivity.
Qed.

Lemma split_inv : forall d s, exists a, ~ occurs d a /\
  ((s = a /\ split d s = [a]) \/ exists b, s = (a ++ String d b)%string /\ split d s = a :: split d b).
Proof.
  intros d. induction s as [|x s [a [N H]]].
  - exists "". split; [exact (fun F => F)|]. left. split; reflexivity.
  - cbn [split]. destruct (Ascii.eqb x d) eqn:E.
    + apply Ascii.eqb_eq in E. subst x. exists "". split; [exact (fun F => F)|]. right. exists s. split; reflexivity.
    + exists (String x a). split.
      { cbn [occurs]. intros [F|F]; [subst x; rewrite Ascii.eqb_refl in E; discriminate|exact (N F)]. }
      destruct H as [[-> Hs]|[b [-> Hs]]]; [left|right].
      * rewrite Hs. split; reflexivity.
      * exists b. rewrite Hs. split; reflexivity.
Qed.

Lemma split_one : forall d s a, split d s = [a] -> s = a /\ ~ occurs d a.
Proof.
  intros d s a H. destruct (split_inv d s) as [x [N [[-> E]|[b [-> E]]]]]; rewrite E in H.
  - injection H as ->. split; [reflexivity|exact N].
  - injection H as _ H. destruct (split_inv d b) as [y [_ [[_ F]|[z [_ F]]]]]; rewrite F in H; discriminate.
Qed.

Lemma split_more : forall d s a b l, split d s = a :: b :: l ->
  exists r, s = (a ++ String d r)%string /\ ~ occurs d a /\ split d r = b :: l.
Proof.
  intros d s a b l H. destruct (split_inv d s) as [x [N [[-> E]|[r [-> E]]]]]; rewrite E in H.
  - discriminate.
  - injection H as -> H. exists r. repeat split; assumption.
Qed.

(** ** Options *)

Lemma optionText_cons : forall k v p r, optionText ((k, v) :: p :: r) = (k ++ "=" ++ v ++ "&" ++ optionText (p :: r))%string.
Proof. intros. destruct p. reflexivity. Qed.

Lemma app_assoc_s : forall a b c : string, ((a ++ b) ++ c = a ++ (b ++ c))%string.
Proof. induction a as [|x a IH]; intros; cbn [append]; [reflexivity|]. rewrite IH. reflexivity. Qed.

Lemma pairText_clean : forall k v, cleanPair (k, v) -> ~ occurs "&" (k ++ "=" ++ v)%string /\ ~ occurs "?" (k ++ "=" ++ v)%string.
Proof.
  intros k v [[A1 [A2 A3]] [B1 [B2 B3]]]. cbn [fst snd] in *. split; intro H;
  apply occurs_app in H; destruct H as [H|H]; try tauto; cbn [append occurs] in H;
  destruct H as [H|H]; try discriminate; tauto.
Qed.

Lemma split_pair : forall k v, cleanPair (k, v) -> split "=" (k ++ "=" ++ v)%string = [k; v].
Proof.
  intros k v [[A1 [A2 A3]] [B1 [B2 B3]]]. cbn [fst snd] in *. cbn [append].
  rewrite split_cons by assumption. rewrite split_none by assumption. reflexivity.
Qed.

Lemma optionText_clean : forall l, Forall cleanPair l -> ~ occurs "?" (optionText l).
Proof.
  induction l as [|[k v] l IH]; intro F; [exact (fun x => x)|]. inversion F as [|? ? C F']; subst.
  destruct l as [|p l]. { exact (proj2 (pairText_clean k v C)). }
  rewrite optionText_cons. intro H.
  replace (k ++ "=" ++ v ++ "&" ++ optionText (p :: l))%string with ((k ++ "=" ++ v) ++ "&" ++ optionText (p :: l))%string in H
    by (rewrite app_assoc_s; cbn [append]; reflexivity).
  apply occurs_app in H. destruct H as [H|H]. { exact (proj2 (pairText_clean k v C) H). }
  cbn [append occurs] in H. destruct H as [H|H]; [discriminate|]. exact (IH F' H).
Qed.

Lemma split_optionText : forall l, l <> [] -> Forall cleanPair l ->
  split "&" (optionText l) = map (fun p => (fst p ++ "=" ++ snd p)%string) l.
Proof.
  induction l as [|[k v] l IH]; intros N F; [destruct N; reflexivity|]. inversion F as [|? ? C F']; subst.
  destruct l as [|p l].
  - cbn [optionText map fst snd]. apply split_none. exact (proj1 (pairText_clean k v C)).
  - rewrite optionText_cons. cbn [map fst snd].
    replace (k ++ "=" ++ v ++ "&" ++ optionText (p :: l))%string with ((k ++ "=" ++ v) ++ String "&" (optionText (p :: l)))%string
      by (rewrite app_assoc_s; cbn [append]; reflexivity).
    rewrite split_cons by exact (proj1 (pairText_clean k v C)). rewrite IH by (discriminate || assumption). reflexivity.
Qed.

(** The pairs after reading [l] into [m]. *)
Fixpoint keepFirst (l m : list (string * string)) : list (string * string) :=
  match l with
  | [] => m
  | (k, v) :: r => keepFirst r (if dhas k m then m else m ++ [(k, v)])
  end.

Lemma parse_written : forall l m, Forall cleanPair l ->
  parseOptions (map (fun p => (fst p ++ "=" ++ snd p)%string) l) m = Some (keepFirst l m).
Proof.
  induction l as [|[k v] l IH]; intros m F; [reflexivity|]. inversion F as [|? ? C F']; subst.
  cbn [map parseOptions keepFirst fst snd]. rewrite split_pair by exact C. apply IH. exact F'.
Qed.

Lemma parse_inv : forall l m o, parseOptions l m = Some o ->
  exists ps, l = map (fun p => (fst p ++ "=" ++ snd p)%string) ps /\ o = keepFirst ps m /\
             Forall (fun p => ~ occurs "=" (fst p) /\ ~ occurs "=" (snd p)) ps.
Proof.
  induction l as [|x l IH]; intros m o H; cbn [parseOptions] in H.
  - injection H as <-. exists []. repeat split. constructor.
  - destruct (split "=" x) as [|k [|v [|? ?]]] eqn:E; try discriminate.
    destruct (IH _ _ H) as [ps [-> [-> F]]]. exists ((k, v) :: ps).
    destruct (split_more _ _ _ _ _ E) as [r [-> [N Er]]]. destruct (split_one _ _ _ Er) as [-> N2].
    split; [reflexivity|]. split; [reflexivity|]. constructor; [split; assumption|exact F].
Qed.

Lemma dget_snoc_all : forall {A} k n (v : A) d,
  dget k (d ++ [(n, v)]) = match dget k d with Some x => Some x | None => if String.eqb k n then Some v else None end.
Proof.
  intros A k n v. induction d as [|[q x] d IH]; [reflexivity|].
  rewrite <- app_comm_cons. cbn [dget]. destruct (String.eqb k q); [reflexivity|exact IH].
Qed.

Lemma nodup_snoc_keys : forall {A} k (v : A) d, NoDup (map fst d) -> dget k d = None -> NoDup (map fst (d ++ [(k, v)])).
Proof.
  intros A k v d H N. rewrite map_app. apply nodup_snoc; [exact H|]. apply dget_none. exact N.
Qed.

Lemma keepFirst_spec : forall l m, NoDup (map fst m) ->
  NoDup (map fst (keepFirst l m)) /\
  forall k, dget k (keepFirst l m) = match dget k m with Some x => Some x | None => dget k l end.
Proof.
  induction l as [|[k v] l IH]; intros m N; cbn [keepFirst].
  - split; [exact N|]. intro k. destruct (dget k m); reflexivity.
  - rewrite dhas_get. destruct (dget k m) as [x|] eqn:E.
    + destruct (IH m N) as [N2 G]. split; [exact N2|]. intro k2. rewrite G. destruct (dget k2 m) eqn:E2; [reflexivity|].
      cbn [dget]. destruct (String.eqb k2 k) eqn:E3; [apply String.eqb_eq in E3; subst; congruence|reflexivity].
    + destruct (IH (m ++ [(k, v)]) (nodup_snoc_keys k v m N E)) as [N2 G]. split; [exact N2|].
      intro k2. rewrite G, dget_snoc_all. destruct (dget k2 m); [reflexivity|]. cbn [dget].
      destruct (String.eqb k2 k); reflexivity.
Qed.

Lemma dget_first : forall {A} (l : list (string * A)) k v, dget k l = Some v <-> firstValue l k v.
Proof.
  intros A. induction l as [|[q x] l IH]; intros k v; cbn [dget].
  - split; [discriminate|]. intros [a [b [H _]]]. destruct a; discriminate.
  - destruct (String.eqb k q) eqn:E.
    + apply String.eqb_eq in E. subst q. split.
      * intro H. injection H as ->. exists [], l. split; [reflexivity|exact (fun F => F)].
      * intros [a [b [H N]]]. destruct a as [|y a]; [injection H as ->; reflexivity|].
        injection H as H1 H2. subst y l. destruct N. left. reflexivity.
    + apply String.eqb_neq in E. rewrite IH. split.
      * intros [a [b [-> N]]]. exists ((q, x) :: a), b. split; [reflexivity|]. cbn [map fst]. intros [F|F]; [congruence|exact (N F)].
      * intros [a [b [H N]]]. destruct a as [|y a]; [injection H as F; congruence|].
        injection H as H1 H2. subst y l. exists a, b. split; [reflexivity|]. intro F. apply N. right. exact F.
Qed.

Lemma keepFirst_first : forall l, firstValues l (keepFirst l []).
Proof.
  intro l. destruct (keepFirst_spec l [] (NoDup_nil _)) as [N G]. split; [exact N|]. intros k v.
  rewrite <- dget_first. specialize (G k). cbn [dget] in G. rewrite <- G. split.
  - apply in_dget. exact N.
  - apply dget_in.
Qed.

Lemma split_written : forall b l, ~ occurs "?" b -> l <> [] -> Forall cleanPair l ->
  splitConnection (b ++ "?" ++ optionText l)%string = Some (b, keepFirst l []).
Proof.
  intros b l N L F. unfold splitConnection. cbn [append].
  rewrite split_cons by exact N. rewrite split_none by exact (optionText_clean l F).
  rewrite split_optionText by assumption. rewrite parse_written by exact F. reflexivity.
Qed.

Lemma unsplit : forall (ps : list (string * string)) s,
  split "&" s = map (fun p => (fst p ++ "=" ++ snd p)%string) ps -> ~ occurs "?" s ->
  Forall (fun p => ~ occurs "=" (fst p) /\ ~ occurs "=" (snd p)) ps ->
  ps <> [] /\ s = optionText ps /\ Forall cleanPair ps.
Proof.
  induction ps as [|[k v] ps IH]; intros s H Q F.
  - cbn [map] in H. destruct (split_inv "&" s) as [a [_ [[_ E]|[b [_ E]]]]]; rewrite E in H; discriminate.
  - inversion F as [|? ? [F1 F2] F']; subst. cbn [fst snd] in *. split; [discriminate|].
    assert (P : forall c, ~ occurs c (k ++ "=" ++ v)%string -> ~ occurs c k /\ ~ occurs c v).
    { intros c X. split; intro Y; apply X; apply occurs_app; [left; exact Y|right]. cbn [append occurs]. right. exact Y. }
    destruct ps as [|p ps].
    + cbn [map fst snd] in H. destruct (split_one _ _ _ H) as [-> N]. split; [reflexivity|].
      constructor; [|constructor]. destruct (P _ N) as [N1 N2]. destruct (P _ Q) as [Q1 Q2].
      split; cbn [fst snd]; repeat split; assumption.
    + cbn [map fst snd] in H. destruct (split_more _ _ _ _ _ H) as [r [-> [N Er]]].
      assert (Qa : ~ occurs "?" (k ++ "=" ++ v)%string) by (intro X; apply Q; apply occurs_app; left; exact X).
      assert (Qr : ~ occurs "?" r) by (intro X; apply Q; apply occurs_app; right; cbn [occurs]; right; exact X).
      destruct (IH r Er Qr F') as [_ [-> C]]. split.
      * rewrite optionText_cons. rewrite app_assoc_s. cbn [append]. reflexivity.
      * constructor; [|exact C]. destruct (P _ N) as [N1 N2]. destruct (P _ Qa) as [Q1 Q2].
        split; cbn [fst snd]; repeat split; assumption.
Qed.

Lemma split_sound : forall s b o, splitConnection s = Some (b, o) ->
  ~ occurs "?" b /\ ((s = b /\ o = []) \/
    exists l, l <> [] /\ Forall cleanPair l /\ s = (b ++ "?" ++ optionText l)%string /\ o = keepFirst l []).
Proof.
  intros s b o H. unfold splitConnection in H. destruct (split "?" s) as [|x [|y [|? ?]]] eqn:E; try discriminate.
  - injection H as -> <-. destruct (split_one _ _ _ E) as [-> N]. split; [exact N|]. left. split; reflexivity.
  - destruct (split_more _ _ _ _ _ E) as [r [-> [N Er]]]. destruct (split_one _ _ _ Er) as [-> N2].
    destruct (parseOptions (split "&" y) []) as [m|] eqn:P; [|discriminate]. injection H as -> ->.
    split; [exact N|]. right. destruct (parse_inv _ _ _ P) as [ps [S1 [-> F]]].
    destruct (unsplit ps y S1 N2 F) as [L [-> C]]. exists ps. repeat split; assumption.
Qed.

(** ** Prefixes *)

Lemma starts_spec : forall p s, starts p s = true <-> exists r, s = (p ++ r)%string.
Proof.
  induction p as [|x p IH]; intro s; cbn [starts].
  - split; [intros _; exists s; reflexivity|reflexivity].
  - destruct s as [|y s]; [split; [discriminate|intros [r H]; discriminate]|].
    destruct (Ascii.eqb x y) eqn:E.
    + apply Ascii.eqb_eq in E. subst y. rewrite IH. split; intros [r H].
      * exists r. rewrite H. reflexivity.
      * exists r. injection H as ->. reflexivity.
    + split; [discriminate|]. intros [r H]. injection H as -> _. rewrite Ascii.eqb_refl in E. discriminate.
Qed.

Lemma prefix_spec : forall p r, ~ occurs ":" p -> prefixOf (p ++ "://" ++ r)%string = p.
Proof.
  induction p as [|x p IH]; intros r N; [reflexivity|]. cbn [occurs] in N. cbn [append].
  assert (D : starts "://" (String x (p ++ String ":" (String "/" (String "/" r)))) = false).
  { cbn [starts]. destruct (Ascii.eqb ":" x) eqn:E; [|reflexivity]. apply Ascii.eqb_eq in E. destruct N. left. congruence. }
  cbn [prefixOf]. rewrite D. f_equal. apply (IH r). tauto.
Qed.

Lemma prefix_whole : forall s, (forall a r, s <> (a ++ "://" ++ r)%string) -> prefixOf s = s.
Proof.
  induction s as [|x s IH]; intro N; [reflexivity|]. cbn [prefixOf].
  destruct (starts "://" (String x s)) eqn:E.
  - apply starts_spec in E. destruct E as [r E]. destruct (N "" r E).
  - f_equal. apply IH. intros a r H. apply (N (String x a) r). rewrite H. reflexivity.
Qed.

(** ** Grouping *)

Lemma hasCap_in : forall id l, hasCap id l = true <-> In id (map cp_id l).
Proof.
  intros id l. unfold hasCap. rewrite existsb_exists. split.
  - intros [c [H E]]. apply String.eqb_eq in E. subst id. apply in_map. exact H.
  - intro H. apply in_map_iff in H. destruct H as [c [E H]]. exists c. split; [exact H|]. apply String.eqb_eq. exact E.
Qed.

Lemma addCaps_app : forall a h b, addCaps h (a ++ b) = addCaps (addCaps h a) b.
Proof. induction a as [|c a IH]; intros h b; [reflexivity|]. rewrite <- app_comm_cons. cbn [addCaps]. apply IH. Qed.

Lemma addCaps_spec : forall l h, NoDup (map cp_id h) ->
  NoDup (map cp_id (addCaps h l)) /\
  (forall i, In i (map cp_id (addCaps h l)) <-> In i (map cp_id (h ++ l))) /\
  forall c, In c (addCaps h l) <-> In c h \/ (firstCap l c /\ ~ In (cp_id c) (map cp_id h)).
Proof.
  induction l as [|x l IH]; intros h N; cbn [addCaps].
  - split; [exact N|]. rewrite app_nil_r. split; [tauto|]. intro c. split; [tauto|].
    intros [H|[[a [b [H _]]] _]]; [exact H|]. destruct a; discriminate.
  - destruct (hasCap (cp_id x) h) eqn:E.
    + apply hasCap_in in E. destruct (IH h N) as [N2 [K G]]. split; [exact N2|]. split.
      * intro i. rewrite K. rewrite !map_app, !in_app_iff. cbn [map In]. split; [tauto|].
        intros [H|[H|H]]; [tauto| |tauto]. left. congruence.
      * intro c. rewrite G. split; (intros [H|[[a [b [H M]]] F]]; [left; exact H|right]).
        -- split; [|exact F]. exists (x :: a), b. rewrite H. split; [reflexivity|]. cbn [map In]. intros [Q|Q]; [congruence|exact (M Q)].
        -- split; [|exact F]. destruct a as [|y a]; [injection H as H1 H2; subst; contradiction|].
           injection H as H1 H2. subst y l. exists a, b. split; [reflexivity|]. intro Q. apply M. right. exact Q.
    + assert (Nx : ~ In (cp_id x) (map cp_id h)) by (intro Q; apply hasCap_in in Q; congruence).
      assert (Nh : NoDup (map cp_id (h ++ [x]))) by (rewrite map_app; apply nodup_snoc; assumption).
      destruct (IH _ Nh) as [N2 [K G]]. split; [exact N2|]. split.
      * intro i. rewrite K. rewrite <- app_assoc. reflexivity.
      * intro c. rewrite G. rewrite in_app_iff. rewrite map_app, in_app_iff. cbn [map In]. split.
        -- intros [[H|[H|[]]]|[[a [b [H M]]] F]].
           ++ left. exact H.
           ++ subst c. right. split; [|exact Nx]. exists [], l. split; [reflexivity|exact (fun Q => Q)].
           ++ right. split; [|tauto]. exists (x :: a), b. rewrite H. split; [reflexivity|]. cbn [map In]. tauto.
        -- intros [H|[[a [b [H M]]] F]]; [left; left; exact H|].
           destruct a as [|y a]; [injection H as H1 H2; subst; left; right; left; reflexivity|].
           injection H as H1 H2. subst y l. right. split.
           ++ exists a, b. split; [reflexivity|]. intro Q. apply M. right. exact Q.
           ++ intros [Q|[Q|[]]]; [exact (F Q)|]. apply M. left. exact Q.
Qed.

Lemma addCaps_nodup : forall l h, NoDup (map cp_id (h ++ l)) -> addCaps h l = h ++ l.
Proof.
  induction l as [|x l IH]; intros h N; cbn [addCaps]; [rewrite app_nil_r; reflexivity|].
  destruct (hasCap (cp_id x) h) eqn:E.
  - apply hasCap_in in E. rewrite map_app in N. cbn [map] in N. apply NoDup_remove_2 in N.
    destruct N. apply in_or_app. left. exact E.
  - rewrite IH; rewrite <- app_assoc; [reflexivity|exact N].
Qed.

Lemma plain_spec : forall d, plain d = false <-> identified d.
Proof.
  intro d. unfold plain, identified. rewrite !orb_false_iff, !String.eqb_neq.
  destruct (d_caps d); split; intros; intuition; try discriminate.
Qed.

Lemma daqId_text : forall d, daqId d = idText (d_man d) (d_ser d).
Proof. reflexivity. Qed.

Lemma starts_daq : forall d, starts "daq://" (daqId d) = true.
Proof. intro d. apply starts_spec. exists (d_man d ++ "_" ++ d_ser d)%string. reflexivity. Qed.

Lemma reported_scan : forall mods, flat_map (fun m => match m with Some l => l | None => [] end) mods = reported mods.
Proof. induction mods as [|[l|] r IH]; cbn [flat_map reported]; rewrite ?IH; reflexivity. Qed.

(** An entry of the groups: the first known device with the capabilities. *)
Definition entry (ipmod : dict dev) (id : string) (l : list dev) (o : option dev) : Prop :=
  exists caps, offered id l caps /\
  match o with
  | None => caps = []
  | Some v =>
      caps <> [] /\
      exists base, (match dget id ipmod with Some w => base = w
                    | None => exists l1 l2, l = l1 ++ base :: l2 /\ identified base /\ idText (d_man base) (d_ser base) = id /\
                                forall d, In d l1 -> ~ (identified d /\ idText (d_man d) (d_ser d) = id) end) /\
        v = withConn (withCaps base (addCaps [] (capsOf (dget id ipmod) ++ caps))) id
  end.

Lemma offered_snoc_no : forall id l c d, offered id l c -> ~ (identified d /\ idText (d_man d) (d_ser d) = id) -> offered id (l ++ [d]) c.
Proof.
  intros id l c d H N. induction H; cbn [app].
  - apply offered_no; [exact N|constructor].
  - apply offered_yes; assumption.
  - apply offered_no; assumption.
Qed.

Lemma offered_snoc_yes : forall id l c d, offered id l c -> identified d -> idText (d_man d) (d_ser d) = id ->
  offered id (l ++ [d]) (c ++ d_caps d).
Proof.
  intros id l c d H I1 I2. induction H; cbn [app].
  - rewrite <- (app_nil_r (d_caps d)). apply offered_yes; [exact I1|exact I2|constructor].
  - rewrite <- app_assoc. apply offered_yes; assumption.
  - apply offered_no; assumption.
Qed.

Lemma offered_nil_no : forall id l, offered id l [] -> forall d, In d l -> ~ (identified d /\ idText (d_man d) (d_ser d) = id).
Proof.
  intros id l H. remember (@nil cap) as c eqn:E. induction H as [|d l c I1 I2 H IH|d l c N H IH]; intros x X.
  - destruct X.
  - destruct I1 as [_ [_ I3]]. destruct (d_caps d); [destruct I3; reflexivity|discriminate].
  - destruct X as [<-|X]; [exact N|exact (IH E x X)].
Qed.

Lemma offered_fun : forall id l c, offered id l c -> forall c2, offered id l c2 -> c = c2.
Proof.
  intros id l c H. induction H as [|d l c I1 I2 H IH|d l c N H IH]; intros c2 H2; inversion H2; subst; try tauto.
  - f_equal. apply IH. assumption.
  - apply IH. assumption.
Qed.

Lemma entry_keep : forall ipmod id l o d, entry ipmod id l o -> ~ (identified d /\ idText (d_man d) (d_ser d) = id) ->
  entry ipmod id (l ++ [d]) o.
Proof.
  intros ipmod id l o d [caps [O E]] N. exists caps. split; [apply offered_snoc_no; assumption|].
  destruct o as [v|]; [|exact E]. destruct E as [C [base [B E]]]. split; [exact C|]. exists base. split; [|exact E].
  destruct (dget id ipmod); [exact B|]. destruct B as [l1 [l2 [-> B]]]. exists l1, (l2 ++ [d]). split; [|exact B].
  rewrite <- app_assoc. reflexivity.
Qed.

Lemma group_entry : forall ipmod id l g d, starts "daq://" id = true ->
  (forall w, dget id ipmod = Some w -> NoDup (map cp_id (d_caps w))) -> NoDup (map cp_id (d_caps d)) ->
  (~ identified d -> starts "daq://" (d_conn d) = false) ->
  entry ipmod id l (dget id g) -> entry ipmod id (l ++ [d]) (dget id (group ipmod g d)).
Proof.
  intros ipmod id l g d S1 Nw Nd W E. unfold group. destruct (plain d) eqn:P.
  - assert (N : ~ identified d) by (intro Q; apply plain_spec in Q; congruence).
    rewrite dget_set_other. { apply entry_keep; [exact E|tauto]. }
    intros ->. rewrite (W N) in S1. discriminate.
  - apply plain_spec in P. destruct (String.eqb (daqId d) id) eqn:D.
    2:{ apply String.eqb_neq in D.
        assert (G : forall v, dget id (dset (daqId d) v g) = dget id g) by (intro v; apply dget_set_other; congruence).
        assert (E2 : entry ipmod id (l ++ [d]) (dget id g)) by (apply entry_keep; [exact E|intros [_ Q]; rewrite <- daqId_text in Q; congruence]).
        destruct (dget (daqId d) g); [rewrite G; exact E2|]. destruct (dget (daqId d) ipmod); rewrite G; exact E2. }
    apply String.eqb_eq in D. rewrite D. assert (T := D). rewrite daqId_text in T.
    destruct E as [caps [O E]]. assert (O2 := offered_snoc_yes id l caps d O P T).
    assert (X : caps ++ d_caps d <> []) by (destruct P as [_ [_ P]]; destruct caps; [exact P|discriminate]).
    exists (caps ++ d_caps d). split; [exact O2|].
    destruct (dget id g) as [v|] eqn:G.
    + rewrite dget_set_same. destruct E as [C [base [B ->]]]. split; [exact X|]. exists base. split.
      * destruct (dget id ipmod); [exact B|]. destruct B as [l1 [l2 [-> B]]]. exists l1, (l2 ++ [d]). split; [|exact B].
        rewrite <- app_assoc. reflexivity.
      * rewrite app_assoc. rewrite (addCaps_app _ [] (d_caps d)). reflexivity.
    + subst caps. cbn [app]. destruct (dget id ipmod) as [w|] eqn:M.
      * rewrite dget_set_same. split; [exact X|]. exists w. split; [reflexivity|]. cbn [capsOf].
        rewrite addCaps_app. rewrite (addCaps_nodup (d_caps w) []) by exact (Nw w eq_refl). reflexivity.
      * rewrite dget_set_same. split; [exact X|]. exists d. split.
        -- exists l, []. split; [reflexivity|]. split; [exact P|]. split; [exact T|]. apply offered_nil_no. exact O.
        -- change (capsOf None ++ [] ++ d_caps d) with (d_caps d). rewrite (addCaps_nodup (d_caps d) []) by exact Nd. destruct d. reflexivity.
Qed.

Lemma scan_entry : forall ipmod id l l0 g, starts "daq://" id = true ->
  (forall w, dget id ipmod = Some w -> NoDup (map cp_id (d_caps w))) -> onceEach l -> wellBehaved l ->
  entry ipmod id l0 (dget id g) -> entry ipmod id (l0 ++ l) (dget id (fold_left (group ipmod) l g)).
Proof.
  intros ipmod id. induction l as [|d l IH]; intros l0 g S1 Nw Oe W E; cbn [fold_left].
  - rewrite app_nil_r. exact E.
  - replace (l0 ++ d :: l) with ((l0 ++ [d]) ++ l) by (rewrite <- app_assoc; reflexivity).
    apply IH; [exact S1|exact Nw|intros x X; apply Oe; right; exact X|intros x X; apply W; right; exact X|].
    apply group_entry; [exact S1|exact Nw|apply Oe; left; reflexivity|apply W; left; reflexivity|exact E].
Qed.

(** Entries are kept under their connection strings. *)
Definition keyed (g : dict dev) : Prop := NoDup (map fst g) /\ forall k d, In (k, d) g -> d_conn d = k.

Lemma keyed_set : forall k d g, keyed g -> d_conn d = k -> keyed (dset k d g).
Proof.
  intros k d g [N H] D. destruct (in_dec string_dec k (map fst g)) as [I1|I1].
  - split; [rewrite keys_set_in by exact I1; exact N|]. intros k2 d2 X.
    assert (N2 : NoDup (map fst (dset k d g))) by (rewrite keys_set_in by exact I1; exact N).
    apply in_dget in X; [|exact N2]. rewrite dget_set in X. destruct (String.eqb k2 k) eqn:E.
    + apply String.eqb_eq in E. congruence.
    + apply dget_in in X. apply H. exact X.
  - rewrite set_new by exact I1. split.
    + rewrite map_app. apply nodup_snoc; assumption.
    + intros k2 d2 X. apply in_app_iff in X. destruct X as [X|[X|[]]]; [apply H; exact X|]. congruence.
Qed.

Lemma group_keyed : forall ipmod g d, keyed g -> keyed (group ipmod g d).
Proof.
  intros ipmod g d K. unfold group. destruct (plain d); [apply keyed_set; [exact K|reflexivity]|].
  destruct (dget (daqId d) g) as [v|] eqn:E.
  - apply keyed_set; [exact K|]. cbn [withCaps d_conn]. apply dget_in in E. exact (proj2 K _ _ E).
  - destruct (dget (daqId d) ipmod); apply keyed_set; try exact K; reflexivity.
Qed.

Lemma scan_keyed : forall ipmod l g, keyed g -> keyed (fold_left (group ipmod) l g).
Proof. intros ipmod. induction l as [|d l IH]; intros g K; [exact K|]. cbn [fold_left]. apply IH. apply group_keyed. exact K. Qed.

Lemma group_plain : forall ipmod g d c, starts "daq://" c = false ->
  dget c (group ipmod g d) = if plain d && String.eqb c (d_conn d) then Some d else dget c g.
Proof.
  intros ipmod g d c S1. unfold group. destruct (plain d); cbn [andb].
  - rewrite dget_set. reflexivity.
  - assert (N : c <> daqId d) by (intros ->; rewrite starts_daq in S1; discriminate).
    destruct (dget (daqId d) g); [apply dget_set_other; exact N|].
    destruct (dget (daqId d) ipmod); apply dget_set_other; exact N.
Qed.

Lemma scan_plain_keep : forall ipmod l c g, starts "daq://" c = false ->
  (forall d, In d l -> ~ identified d -> d_conn d <> c) -> dget c (fold_left (group ipmod) l g) = dget c g.
Proof.
  intros ipmod. induction l as [|d l IH]; intros c g S1 N; [reflexivity|]. cbn [fold_left].
  rewrite IH; [|exact S1|intros x X; apply N; right; exact X]. rewrite group_plain by exact S1.
  destruct (plain d) eqn:P; [|reflexivity]. cbn [andb]. destruct (String.eqb c (d_conn d)) eqn:E; [|reflexivity].
  apply String.eqb_eq in E. symmetry in E. destruct (N d (or_introl eq_refl)); [|exact E].
  intro Q. apply plain_spec in Q. congruence.
Qed.
