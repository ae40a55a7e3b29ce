From Verif Require Import Base PStr_Model PStr_Spec.
Local Open Scope Z_scope.

(** ** Lists and maps *)

Lemma mem_In : forall x l, mem x l = true <-> In x l.
Proof.
  intros x l. unfold mem. rewrite existsb_exists. split.
  - intros (y & H & E). apply Z.eqb_eq in E. now subst.
  - intros H. exists x. split; auto. apply Z.eqb_refl.
Qed.
Lemma mem_not_In : forall x l, mem x l = false <-> ~ In x l.
Proof. intros x l. rewrite <- mem_In. destruct (mem x l); split; intro H; auto; congruence. Qed.
Lemma In_del : forall x y l, In x (del y l) <-> In x l /\ x <> y.
Proof.
  intros. unfold del. rewrite filter_In. rewrite negb_true_iff, Z.eqb_neq. tauto.
Qed.
Lemma NoDup_filter_ : forall {A} (f : A -> bool) l, NoDup l -> NoDup (filter f l).
Proof. intros. now apply NoDup_filter. Qed.

Lemma lookup_erase : forall {A} x y (l : list (Z * A)),
  lookup x (erase y l) = if x =? y then None else lookup x l.
Proof.
  induction l as [|[z a] l IH]; cbn [erase filter lookup fst].
  - now destruct (x =? y).
  - destruct (Z.eqb_spec z y) as [E|E]; cbn [negb].
    + subst z. fold (erase y l). rewrite IH. destruct (Z.eqb_spec x y) as [F|F]; auto.
      destruct (Z.eqb_spec y x); auto; lia.
    + cbn [lookup]. fold (erase y l). rewrite IH.
      destruct (Z.eqb_spec z x) as [F|F]; auto. subst z.
      destruct (Z.eqb_spec x y); auto; lia.
Qed.
Lemma lookup_assign : forall {A} x y a (l : list (Z * A)),
  lookup x (assign y a l) = if x =? y then Some a else lookup x l.
Proof.
  intros. unfold assign. cbn [lookup]. rewrite lookup_erase. rewrite (Z.eqb_sym y x). now destruct (x =? y).
Qed.
Lemma lookup_insert : forall {A} x y a (l : list (Z * A)),
  lookup y l = None -> lookup x (insert y a l) = if x =? y then Some a else lookup x l.
Proof.
  intros A x y a l H. unfold insert. rewrite H. cbn [lookup]. now rewrite (Z.eqb_sym y x).
Qed.

Lemma fold_opt_app : forall {S A} (f : S -> A -> option S) l1 l2 s,
  fold_opt f (l1 ++ l2) s = match fold_opt f l1 s with Some s' => fold_opt f l2 s' | None => None end.
Proof.
  induction l1 as [|a l1 IH]; intros; cbn [fold_opt app]; auto. destruct (f s a); auto.
Qed.

(** ** Relation between the client and the ideal channel *)

Definition strip (w : wbuf) : pending := {| p_sig := w_sig w; p_pkt := w_pkt w; p_extra := w_extra w |}.
Definition wid (w : wbuf) : Z := pid (w_pkt w).

Section World.
Variable world : Z -> pkt.

Definition src_of (k : cpkt) : Z := match k with CP s _ _ _ => s end.

Record Q (c : client) (i : ideal) : Prop := {
  q_out : out c = i_out i;
  q_data : cdata c = i_data i;
  q_dom : cdomd c = i_dom i;
  q_wait : map strip (wait c) = pend i;
  q_refd : forall x k, lookup x (refd c) = Some k -> lookup x (built i) = Some k;
  q_nodup : NoDup (map wid (wait c));
  q_fresh : forall w, In w (wait c) -> lookup (wid w) (built i) = None;
  q_desc : forall w, In w (wait c) -> lookup (w_sig w) (cdata c) <> None;
  q_world : forall w, In w (wait c) -> w_pkt w = world (wid w);
  q_late : forall w, In w (wait c) -> exists d, dom (w_pkt w) = Some d /\ lookup d (built i) = None;
  q_renders : forall x k, lookup x (built i) = Some k -> renders world x k;
  q_items : forall g k, In (g, IData k) (out c) -> lookup (src_of k) (built i) = Some k
}.

Definition held (c : client) (x : Z) : Prop :=
  (exists k, lookup x (refd c) = Some k) \/ (exists w, In w (wait c) /\ wid w = x /\ w_rel w = false).

Lemma strip_filter : forall x l,
  map strip (filter (waits_for x) l) = filter (pends_on x) (map strip l) /\
  map strip (filter (fun w => negb (waits_for x w)) l) = filter (fun w => negb (pends_on x w)) (map strip l).
Proof.
  induction l as [|w l [IH1 IH2]]; cbn [filter map]; auto.
  change (pends_on x (strip w)) with (waits_for x w).
  destruct (waits_for x w); cbn [map negb]; split; congruence.
Qed.

Lemma delivered_app : forall g x l1 l2, delivered g x (l1 ++ l2) = (delivered g x l1 + delivered g x l2)%nat.
Proof. intros. unfold delivered. rewrite filter_app, app_length. reflexivity. Qed.

Definition one (b : bool) : nat := if b then 1%nat else 0%nat.
Definition due (g x : Z) (w : wbuf) : nat :=
  if wid w =? x then (one (w_sig w =? g)%Z + count_occ Z.eq_dec (w_extra w) g)%nat else 0%nat.

Lemma waiting_cons : forall g x w ws, waiting_for g x (w :: ws) = (due g x w + waiting_for g x ws)%nat.
Proof. intros. unfold waiting_for. cbn [fold_right]. reflexivity. Qed.
Lemma waiting_app : forall g x a b, waiting_for g x (a ++ b) = (waiting_for g x a + waiting_for g x b)%nat.
Proof.
  induction a as [|w a IH]; intros; cbn [app]; rewrite ?waiting_cons; auto. rewrite IH. lia.
Qed.
Lemma waiting_split : forall g x f ws,
  waiting_for g x ws = (waiting_for g x (filter f ws) + waiting_for g x (filter (fun w => negb (f w)) ws))%nat.
Proof.
  induction ws as [|w ws IH]; cbn [filter]; auto.
  destruct (f w); cbn [negb]; rewrite !waiting_cons; lia.
Qed.

Lemma push_all : forall k gs c,
  fold_left (fun c s => push (s, IData k) c) gs c
  = {| out := out c ++ map (fun g => (g, IData k)) gs; cdata := cdata c; cdomd := cdomd c;
       refd := refd c; wait := wait c |}.
Proof.
  induction gs as [|g gs IH]; intros c; cbn [fold_left map].
  - rewrite app_nil_r. now destruct c.
  - rewrite IH. unfold push. cbn [out cdata cdomd refd wait]. now rewrite <- app_assoc.
Qed.
Lemma emit_all : forall k gs s,
  fold_left (fun s g => emit (g, IData k) s) gs s
  = {| i_out := i_out s ++ map (fun g => (g, IData k)) gs; i_data := i_data s; i_dom := i_dom s;
       built := built s; pend := pend s |}.
Proof.
  induction gs as [|g gs IH]; intros c; cbn [fold_left map].
  - rewrite app_nil_r. now destruct c.
  - rewrite IH. unfold emit. cbn [i_out i_data i_dom built pend]. now rewrite <- app_assoc.
Qed.

Lemma delivered_map : forall g x k gs,
  delivered g x (map (fun g => (g, IData k)) gs)
  = if src_of k =? x then count_occ Z.eq_dec gs g else 0%nat.
Proof.
  intros g x k gs. destruct k as [s b dd km]. cbn [src_of].
  unfold delivered. induction gs as [|h gs IH]; cbn [map filter].
  - now destruct (s =? x).
  - unfold is_out at 1. cbn [fst snd].
    destruct (Z.eqb_spec s x) as [E|E]; cbn [count_occ].
    + rewrite andb_true_r. destruct (Z.eq_dec h g) as [F|F].
      * subst h. rewrite Z.eqb_refl. cbn [length]. now rewrite IH.
      * apply Z.eqb_neq in F. rewrite F. exact IH.
    + rewrite andb_false_r. exact IH.
Qed.

Definition dom_ok (p : pkt) (domp : option cpkt) : Prop :=
  match dom p, domp with None, None => True | Some d, Some k => renders world d k | _, _ => False end.

(** Everything the building of one packet preserves. *)
Record built_ok (sig : Z) (p : pkt) (rel : bool) (c : client) (i : ideal) (c' : client) (i' : ideal) (k : cpkt) : Prop := {
  b_q : Q c' i';
  b_data : cdata c' = cdata c;
  b_domd : cdomd c' = cdomd c;
  b_incl : forall w, In w (wait c') -> In w (wait c);
  b_len : (length (wait c') <= length (wait c))%nat;
  b_held : forall x, held c x \/ (x = pid p /\ rel = false) -> held c' x;
  b_unheld : forall x k, lookup x (refd c') = Some k ->
     lookup x (refd c) <> None \/ (x = pid p /\ rel = false) \/ (exists w, In w (wait c) /\ wid w = x /\ w_rel w = false);
  b_mono : forall x q, lookup x (built i) = Some q -> lookup x (built i') = Some q;
  b_this : lookup (pid p) (built i') = Some k;
  b_new : forall x, lookup x (built i') <> None -> lookup x (built i) <> None \/ x = pid p \/ In x (map wid (wait c));
  b_src : src_of k = pid p;
  b_count : forall g x, (delivered g x (out c') + waiting_for g x (wait c')
     = delivered g x (out c) + waiting_for g x (wait c) + one ((sig =? g)%Z && (pid p =? x)%Z))%nat
}.

Definition client_loop (f : nat) (k : cpkt) (c : client) (w : wbuf) : option client :=
  match build f (w_sig w) (w_pkt w) (w_rel w) (Some k) c with
  | Some (c', k') => Some (fold_left (fun c s => push (s, IData k') c) (w_extra w) c')
  | None => None
  end.
Definition ideal_loop (f : nat) (k : cpkt) (s : ideal) (w : pending) : option ideal :=
  match deliver f (p_sig w) (p_pkt w) (Some k) s with
  | Some (s', k') => Some (fold_left (fun s g => emit (g, IData k') s) (p_extra w) s')
  | None => None
  end.

Record loop_ok (ws : list wbuf) (c : client) (i : ideal) (c' : client) (i' : ideal) : Prop := {
  l_q : Q c' i';
  l_data : cdata c' = cdata c;
  l_domd : cdomd c' = cdomd c;
  l_incl : forall w, In w (wait c') -> In w (wait c);
  l_len : (length (wait c') <= length (wait c))%nat;
  l_held : forall x, held c x \/ (exists w, In w ws /\ wid w = x /\ w_rel w = false) -> held c' x;
  l_unheld : forall x k, lookup x (refd c') = Some k ->
     lookup x (refd c) <> None \/ (exists w, (In w ws \/ In w (wait c)) /\ wid w = x /\ w_rel w = false);
  l_mono : forall x q, lookup x (built i) = Some q -> lookup x (built i') = Some q;
  l_new : forall x, lookup x (built i') <> None -> lookup x (built i) <> None \/ In x (map wid (ws ++ wait c));
  l_count : forall g x, (delivered g x (out c') + waiting_for g x (wait c')
     = delivered g x (out c) + waiting_for g x (wait c) + waiting_for g x ws)%nat
}.

Definition build_goal (f : nat) : Prop := forall sig p rel domp c i,
  Q c i -> (length (wait c) < f)%nat -> lookup sig (cdata c) <> None ->
  ~ In (pid p) (map wid (wait c)) -> lookup (pid p) (built i) = None ->
  p = world (pid p) -> dom_ok p domp ->
  exists c' i' k, build f sig p rel domp c = Some (c', k) /\ deliver f sig p domp i = Some (i', k)
    /\ built_ok sig p rel c i c' i' k.

Lemma waiting_In : forall x ws, In x (map wid ws) <-> exists w, In w ws /\ wid w = x.
Proof. intros. rewrite in_map_iff. split; intros (w & A & B); exists w; auto. Qed.

Lemma NoDup_app_inv : forall {A} (l1 l2 : list A), NoDup (l1 ++ l2) ->
  NoDup l1 /\ NoDup l2 /\ (forall x, In x l1 -> In x l2 -> False).
Proof.
  induction l1 as [|a l1 IH]; intros l2 H; cbn [app] in *.
  - split; [constructor|]. split; [auto|]. intros x [].
  - inversion H as [|? ? Ha Hn]; subst. apply IH in Hn. destruct Hn as (H1 & H2 & H3).
    split; [constructor; auto; intro; apply Ha; apply in_or_app; auto|]. split; auto.
    intros x [E|E] F; [subst; apply Ha; apply in_or_app; auto | eauto].
Qed.

Lemma loop_sim : forall f k x0, build_goal f ->
  (renders world x0 k) ->
  forall ws c i, Q c i -> lookup x0 (built i) <> None ->
  NoDup (map wid (ws ++ wait c)) ->
  (ws <> [] -> (length (wait c) < f)%nat) ->
  (forall w, In w ws -> lookup (w_sig w) (cdata c) <> None /\ lookup (wid w) (built i) = None
      /\ w_pkt w = world (wid w) /\ dom (w_pkt w) = Some x0) ->
  exists c' i', fold_opt (client_loop f k) ws c = Some c' /\ fold_opt (ideal_loop f k) (map strip ws) i = Some i'
    /\ loop_ok ws c i c' i'.
Proof.
  intros f k x0 HB Hk. induction ws as [|w ws IH]; intros c i HQ Hx0 Hnd Hlen Hws.
  - exists c, i. split; [reflexivity|]. split; [reflexivity|]. constructor; auto.
    + intros x [H|(w & [] & _)]; auto.
    + intros x q H. left. congruence.
  - cbn [fold_opt map]. unfold client_loop at 1, ideal_loop at 1.
    destruct (Hws w (or_introl eq_refl)) as (Hd & Hb & Hw & Hdom).
    assert (Hlt : (length (wait c) < f)%nat) by (apply Hlen; discriminate).
    cbn [app map] in Hnd. inversion Hnd as [|? ? Hn1 Hn2]; subst.
    assert (Hni : ~ In (pid (w_pkt w)) (map wid (wait c))).
    { intro H. apply Hn1. rewrite map_app. apply in_or_app. right. exact H. }
    assert (Hdk : dom_ok (w_pkt w) (Some k)) by (unfold dom_ok; rewrite Hdom; exact Hk).
    destruct (HB (w_sig w) (w_pkt w) (w_rel w) (Some k) c i HQ Hlt Hd Hni Hb Hw Hdk) as (c1 & i1 & k1 & E1 & E2 & B).
    cbn [strip p_sig p_pkt p_extra]. rewrite E1, E2, push_all, emit_all.
    destruct B as [BQ Bd Bm Bi Bl Bh Bu Bo Bt Bn Bs Bc].
    set (c2 := {| out := out c1 ++ _; cdata := _; cdomd := _; refd := _; wait := _ |}).
    set (i2 := {| i_out := i_out i1 ++ _; i_data := _; i_dom := _; built := _; pend := _ |}).
    assert (HQ2 : Q c2 i2).
    { destruct BQ. constructor; unfold c2, i2; cbn [out cdata cdomd refd wait i_out i_data i_dom built pend]; auto.
      - now rewrite q_out0.
      - intros g q H. apply in_app_or in H. destruct H as [H|H]; eauto.
        apply in_map_iff in H. destruct H as (g' & H & _). inversion H; subst. now rewrite Bs. }
    assert (Hx02 : lookup x0 (built i2) <> None).
    { unfold i2. cbn [built]. destruct (lookup x0 (built i)) as [q|] eqn:E; [|congruence]. rewrite (Bo _ _ E). discriminate. }
    assert (Hnd2 : NoDup (map wid (ws ++ wait c2))).
    { unfold c2. cbn [wait]. rewrite map_app in *.
      apply NoDup_app_inv in Hn2. destruct Hn2 as (N1 & N2 & N3).
      pose proof (q_nodup _ _ BQ) as N4.
      assert (forall x, In x (map wid ws) -> ~ In x (map wid (wait c1))).
      { intros x A B. apply waiting_In in B. destruct B as (w' & B1 & B2). apply (N3 x); auto.
        apply waiting_In. exists w'. auto. }
      clear - N1 N4 H. induction ws as [|a ws IH]; cbn [map app] in *; auto.
      inversion N1; subst. constructor.
      - intro F. apply in_app_or in F. destruct F as [F|F]; auto. apply (H (wid a)); auto. now left.
      - apply IH; auto. intros x A. apply H. now right. }
    assert (Hlen2 : ws <> [] -> (length (wait c2) < f)%nat).
    { intros _. unfold c2. cbn [wait]. lia. }
    assert (Hws2 : forall w', In w' ws -> lookup (w_sig w') (cdata c2) <> None /\ lookup (wid w') (built i2) = None
      /\ w_pkt w' = world (wid w') /\ dom (w_pkt w') = Some x0).
    { intros w' H. destruct (Hws w' (or_intror H)) as (A1 & A2 & A3 & A4).
      unfold c2, i2. cbn [cdata built]. rewrite Bd. repeat split; auto.
      destruct (lookup (wid w') (built i1)) eqn:E; auto. exfalso.
      destruct (Bn (wid w')) as [F|[F|F]]; try congruence.
      - apply Hn1. change (pid (w_pkt w)) with (wid w) in F. rewrite <- F. rewrite map_app.
        apply in_or_app. left. now apply in_map.
      - rewrite map_app in Hn2. apply NoDup_app_inv in Hn2. destruct Hn2 as (_ & _ & N3).
        apply (N3 (wid w')); auto. now apply in_map. }
    destruct (IH c2 i2 HQ2 Hx02 Hnd2 Hlen2 Hws2) as (c3 & i3 & E3 & E4 & L).
    exists c3, i3. split; [exact E3|]. split; [exact E4|].
    destruct L as [LQ Ld Lm Li Ll Lh Lu Lo Ln Lc].
    constructor; auto.
    + rewrite Ld. unfold c2. exact Bd.
    + rewrite Lm. unfold c2. exact Bm.
    + unfold c2 in Ll. cbn [wait] in Ll. lia.
    + intros x H. apply Lh. destruct H as [H|(w' & [H|H] & F & G)].
      * left. unfold held, c2. cbn [refd wait]. apply (Bh x). auto.
      * subst w'. left. unfold held, c2. cbn [refd wait]. apply (Bh x). right. auto.
      * right. exists w'. auto.
    + intros x q H. apply Lu in H. destruct H as [H|(w' & [H|H] & F & G)].
      * unfold c2 in H. cbn [refd] in H. destruct (lookup x (refd c1)) eqn:E; [|congruence].
        apply Bu in E. destruct E as [E|[(E & G)|(w' & E & F & G)]]; auto.
        -- right. exists w. repeat split; auto. left. now left.
        -- right. exists w'. auto.
      * right. exists w'. repeat split; auto. left. now right.
      * right. exists w'. repeat split; auto.
    + intros x H. apply Ln in H. cbn [app map].
      destruct H as [H|H].
      * apply Bn in H. destruct H as [H|[H|H]]; auto.
        -- right. left. auto.
        -- right. right. rewrite map_app. apply in_or_app. auto.
      * right. right. rewrite map_app in *. apply in_app_or in H. apply in_or_app. destruct H as [H|H]; auto.
        right. unfold c2 in H. cbn [wait] in H. apply waiting_In in H. destruct H as (w' & A & B).
        apply waiting_In. exists w'. auto.
    + intros g x. rewrite Lc. unfold c2. cbn [out wait]. rewrite delivered_app, delivered_map, waiting_cons.
      specialize (Bc g x). unfold due. rewrite Bs. change (pid (w_pkt w)) with (wid w) in *.
      destruct (wid w =? x) eqn:E.
      * rewrite andb_true_r in Bc. lia.
      * rewrite andb_false_r in Bc. cbn [one] in Bc. lia.
Qed.

Lemma build_unfold : forall f sig p rel domp c,
  build (S f) sig p rel domp c =
      match lookup sig (cdata c) with
      | None => None
      | Some desc =>
          let k := CP (pid p) (body p) desc domp in
          let c1 := push (sig, IData k) c in
          match fold_opt (client_loop f k) (filter (waits_for (pid p)) (wait c1))
                (set_wait (filter (fun w => negb (waits_for (pid p) w)) (wait c1)) c1) with
          | None => None
          | Some c3 => Some (if rel then c3 else set_refd (insert (pid p) k (refd c3)) c3, k)
          end
      end.
Proof. reflexivity. Qed.
Lemma deliver_unfold : forall f sig p domp s,
  deliver (S f) sig p domp s =
      match lookup sig (i_data s) with
      | None => None
      | Some desc =>
          let k := CP (pid p) (body p) desc domp in
          let s1 := set_built (assign (pid p) k (built s)) (emit (sig, IData k) s) in
          option_map (fun s3 => (s3, k))
            (fold_opt (ideal_loop f k) (filter (pends_on (pid p)) (pend s1))
              (set_pend (filter (fun w => negb (pends_on (pid p) w)) (pend s1)) s1))
      end.
Proof. reflexivity. Qed.

Lemma waits_for_spec : forall x w, waits_for x w = true <-> dom (w_pkt w) = Some x.
Proof.
  intros x w. unfold waits_for. destruct (dom (w_pkt w)) as [d|].
  - rewrite Z.eqb_eq. split; congruence.
  - split; discriminate.
Qed.

Lemma NoDup_partition : forall f (l : list wbuf), NoDup (map wid l) ->
  NoDup (map wid (filter f l ++ filter (fun w => negb (f w)) l)).
Proof.
  intros f. induction l as [|a l IH]; intros H; cbn [filter map app]; auto.
  cbn [map] in H. inversion H as [|? ? Ha Hn]; subst. specialize (IH Hn).
  assert (Hni : ~ In (wid a) (map wid (filter f l ++ filter (fun w => negb (f w)) l))).
  { intro F. apply Ha. rewrite map_app in F. apply in_app_or in F.
    destruct F as [F|F]; apply waiting_In in F; destruct F as (w & F & G); apply filter_In in F;
      apply waiting_In; exists w; tauto. }
  destruct (f a); cbn [negb app map].
  - constructor; auto.
  - rewrite map_app in *. cbn [map]. apply NoDup_Add with (a := wid a) (l := map wid (filter f l) ++ map wid (filter (fun w => negb (f w)) l)).
    + apply Add_app.
    + auto.
Qed.

Lemma filter_len : forall {A} (f : A -> bool) l, (length (filter f l) <= length l)%nat.
Proof. induction l as [|a l IH]; cbn [filter length]; auto. destruct (f a); cbn [length]; lia. Qed.
Lemma filter_len2 : forall {A} (f : A -> bool) l,
  (length (filter f l) + length (filter (fun w => negb (f w)) l) = length l)%nat.
Proof. induction l as [|a l IH]; cbn [filter length]; auto. destruct (f a); cbn [length negb]; lia. Qed.

Lemma renders_new : forall p desc domp, p = world (pid p) -> dom_ok p domp ->
  renders world (pid p) (CP (pid p) (body p) desc domp).
Proof.
  intros p desc domp Hp Hd. unfold dom_ok in Hd.
  replace (body p) with (body (world (pid p))) by (rewrite <- Hp; reflexivity).
  destruct (dom p) as [d|] eqn:E, domp as [k|]; try contradiction.
  - apply renders_node with (d := d); [rewrite <- Hp; auto | auto].
  - apply renders_leaf. now rewrite <- Hp.
Qed.

Lemma build_sim : forall f, build_goal f.
Proof.
  induction f as [|f IHf]; intros sig p rel domp c i HQ Hlen Hd Hni Hb Hp Hdk; [lia|].
  rewrite build_unfold, deliver_unfold. rewrite <- (q_data _ _ HQ).
  destruct (lookup sig (cdata c)) as [desc|] eqn:Edesc; [|congruence]. cbv zeta.
  set (k := CP (pid p) (body p) desc domp).
  cbn [wait push pend set_built emit].
  destruct (strip_filter (pid p) (wait c)) as [SF1 SF2].
  rewrite <- (q_wait _ _ HQ), <- SF1, <- SF2.
  set (ws := filter (waits_for (pid p)) (wait c)) in *.
  set (rest := filter (fun w => negb (waits_for (pid p) w)) (wait c)) in *.
  set (c2 := set_wait rest (push (sig, IData k) c)).
  set (i2 := set_pend (map strip rest) (set_built (assign (pid p) k (built i)) (emit (sig, IData k) i))).
  assert (Hrest : forall w, In w rest -> In w (wait c) /\ dom (w_pkt w) <> Some (pid p)).
  { intros w H. unfold rest in H. apply filter_In in H. destruct H as [H1 H2]. split; auto.
    intro F. apply waits_for_spec in F. rewrite F in H2. discriminate. }
  assert (Hws : forall w, In w ws -> In w (wait c) /\ dom (w_pkt w) = Some (pid p)).
  { intros w H. unfold ws in H. apply filter_In in H. destruct H as [H1 H2]. split; auto.
    now apply waits_for_spec. }
  assert (Hne : forall w, In w (wait c) -> wid w <> pid p).
  { intros w H F. apply Hni. rewrite <- F. now apply in_map. }
  assert (Hrk : renders world (pid p) k) by (apply renders_new; auto).
  assert (HQ2 : Q c2 i2).
  { destruct HQ. constructor; unfold c2, i2; cbn [set_wait push out cdata cdomd refd wait set_pend set_built emit i_out i_data i_dom built pend]; auto.
    - now rewrite q_out0.
    - intros x q H. rewrite lookup_assign. destruct (Z.eqb_spec x (pid p)) as [E|E]; auto.
      subst x. apply q_refd0 in H. congruence.
    - unfold rest. clear - q_nodup0. induction (wait c) as [|a l IH]; cbn [filter map]; auto.
      cbn [map] in q_nodup0. inversion q_nodup0; subst. destruct (negb (waits_for (pid p) a)); auto.
      cbn [map]. constructor; auto. intro F. apply H1. apply waiting_In in F. destruct F as (w & F & G).
      apply filter_In in F. apply waiting_In. exists w. tauto.
    - intros w H. rewrite lookup_assign. apply Hrest in H. destruct H as [H _].
      pose proof (Hne w H) as N. apply Z.eqb_neq in N. rewrite N. auto.
    - intros w H. apply q_desc0. now apply Hrest.
    - intros w H. apply q_world0. now apply Hrest.
    - intros w H. apply Hrest in H. destruct H as [H N]. destruct (q_late0 w H) as (d & D1 & D2).
      exists d. split; auto. rewrite lookup_assign. destruct (Z.eqb_spec d (pid p)); auto. congruence.
    - intros x q H. rewrite lookup_assign in H. destruct (Z.eqb_spec x (pid p)) as [E|E]; auto.
      inversion H; subst. exact Hrk.
    - intros g q H. rewrite lookup_assign. apply in_app_or in H. destruct H as [H|[H|[]]].
      + apply q_items0 in H. destruct (Z.eqb_spec (src_of q) (pid p)) as [E|E]; auto. congruence.
      + inversion H; subst. unfold k at 1. cbn [src_of]. rewrite Z.eqb_refl. reflexivity. }
  assert (Hk2 : lookup (pid p) (built i2) <> None).
  { unfold i2. cbn [set_pend built set_built]. rewrite lookup_assign, Z.eqb_refl. discriminate. }
  assert (Hnd2 : NoDup (map wid (ws ++ wait c2))).
  { unfold c2. cbn [set_wait wait]. apply NoDup_partition. apply (q_nodup _ _ HQ). }
  assert (Hlen2 : ws <> [] -> (length (wait c2) < f)%nat).
  { intros N. unfold c2. cbn [set_wait wait].
    pose proof (filter_len2 (waits_for (pid p)) (wait c)) as L. fold ws rest in L.
    destruct ws; [congruence|]. cbn [length] in L. lia. }
  assert (Hws2 : forall w, In w ws -> lookup (w_sig w) (cdata c2) <> None /\ lookup (wid w) (built i2) = None
      /\ w_pkt w = world (wid w) /\ dom (w_pkt w) = Some (pid p)).
  { intros w H. destruct (Hws w H) as [H1 H2]. unfold c2, i2.
    cbn [set_wait push cdata set_pend set_built emit built]. repeat split; auto.
    - apply (q_desc _ _ HQ); auto.
    - rewrite lookup_assign. pose proof (Hne w H1) as N. apply Z.eqb_neq in N. rewrite N. apply (q_fresh _ _ HQ); auto.
    - apply (q_world _ _ HQ); auto. }
  destruct (loop_sim f k (pid p) IHf Hrk ws c2 i2 HQ2 Hk2 Hnd2 Hlen2 Hws2) as (c3 & i3 & E3 & E4 & L).
  rewrite E3, E4. cbn [option_map].
  destruct L as [LQ Ld Lm Li Ll Lh Lu Lo Ln Lc].
  assert (Ek : lookup (pid p) (built i3) = Some k).
  { apply Lo. unfold i2. cbn [set_pend built set_built]. now rewrite lookup_assign, Z.eqb_refl. }
  assert (Hin3 : forall w, In w (wait c3) -> In w rest).
  { intros w H. apply Li in H. exact H. }
  assert (Hrp : lookup (pid p) (refd c3) = None).
  { destruct (lookup (pid p) (refd c3)) as [q|] eqn:E; auto. exfalso.
    apply Lu in E. destruct E as [E|(w & E & F & _)].
    - apply E. unfold c2. cbn [set_wait push refd]. destruct (lookup (pid p) (refd c)) eqn:G; auto.
      apply (q_refd _ _ HQ) in G. congruence.
    - destruct E as [E|E].
      + apply (Hne w); auto. now apply Hws.
      + unfold c2 in E. cbn [set_wait wait] in E. apply (Hne w); auto. now apply Hrest. }
  set (c4 := if rel then c3 else set_refd (insert (pid p) k (refd c3)) c3).
  assert (F4 : out c4 = out c3 /\ cdata c4 = cdata c3 /\ cdomd c4 = cdomd c3 /\ wait c4 = wait c3)
    by (unfold c4; destruct rel; cbn; auto).
  destruct F4 as (F4o & F4d & F4m & F4w).
  assert (R4 : forall x, lookup x (refd c4) = if (x =? pid p) && negb rel then Some k else lookup x (refd c3)).
  { intros x. unfold c4. destruct rel; cbn [negb]; rewrite ?andb_false_r, ?andb_true_r; auto.
    cbn [set_refd refd]. rewrite lookup_insert; auto. }
  exists c4, i3, k. split; [reflexivity|]. split; [reflexivity|]. constructor; auto.
  - destruct LQ. constructor; rewrite ?F4o, ?F4d, ?F4m, ?F4w; auto.
    intros x q H. rewrite R4 in H. destruct (Z.eqb_spec x (pid p)) as [E|E]; cbn [andb] in H; auto.
    subst x. destruct (negb rel); auto. congruence.
  - rewrite F4d, Ld. reflexivity.
  - rewrite F4m, Lm. reflexivity.
  - intros w H. rewrite F4w in H. apply Hin3 in H. now apply Hrest.
  - rewrite F4w. unfold c2 in Ll. cbn [set_wait wait] in Ll. unfold rest in Ll.
    pose proof (filter_len (fun w => negb (waits_for (pid p) w)) (wait c)). lia.
  - intros x [H|(H & G)].
    + assert (H3 : held c3 x).
      { apply Lh. destruct H as [(q & H)|(w & H & F & G)].
        - left. left. exists q. exact H.
        - destruct (waits_for (pid p) w) eqn:E.
          + right. exists w. repeat split; auto. unfold ws. apply filter_In. auto.
          + left. right. exists w. repeat split; auto. unfold c2. cbn [set_wait wait]. unfold rest. apply filter_In.
            rewrite E. auto. }
      destruct H3 as [(q & H3)|(w & H3 & F & G)].
      * left. rewrite R4. destruct ((x =? pid p) && negb rel); eauto.
      * right. exists w. rewrite F4w. auto.
    + left. exists k. rewrite R4. subst. rewrite Z.eqb_refl. reflexivity.
  - intros x q H. rewrite R4 in H. destruct (Z.eqb_spec x (pid p)) as [E|E]; cbn [andb] in H.
    + destruct rel; cbn [negb] in H; auto. subst x. congruence.
    + apply Lu in H. destruct H as [H|(w & [H|H] & F & G)]; auto.
      * right. right. exists w. repeat split; auto. now apply Hws.
      * right. right. exists w. repeat split; auto. now apply Hrest.
  - intros x q H. apply Lo. unfold i2. cbn [set_pend built set_built]. rewrite lookup_assign.
    destruct (Z.eqb_spec x (pid p)) as [E|E]; auto. congruence.
  - intros x H. apply Ln in H. destruct H as [H|H].
    + unfold i2 in H. cbn [set_pend built set_built] in H. rewrite lookup_assign in H.
      destruct (Z.eqb_spec x (pid p)); auto.
    + right. right. rewrite map_app in H. apply in_app_or in H.
      destruct H as [H|H]; apply waiting_In in H; destruct H as (w & A & B); apply waiting_In; exists w; split; auto.
      * now apply Hws.
      * now apply Hrest.
  - intros g x. rewrite F4o, F4w, Lc. unfold c2. cbn [set_wait push out wait].
    rewrite delivered_app. rewrite (waiting_split g x (waits_for (pid p)) (wait c)). fold ws rest.
    assert (delivered g x [(sig, IData k)] = one ((sig =? g) && (pid p =? x))) as ->.
    { unfold delivered. cbn [filter]. unfold is_out, k. cbn [fst snd]. now destruct ((sig =? g) && (pid p =? x)). }
    lia.
Qed.

(** ** Server and client together *)

Record Inv (dead sd st rd : list Z) (c : client) (i : ideal) : Prop := {
  v_q : Q c i;
  v_held : forall x, In x st \/ In x rd -> held c x;
  v_nst : NoDup st;
  v_nrd : NoDup rd;
  v_st : forall x, In x st -> ~ In x dead;
  v_rd : forall x, In x rd -> In x dead;
  v_known : forall x, lookup x (built i) <> None \/ In x (map wid (wait c)) -> In x st \/ In x dead;
  v_desc : forall g, In g sd <-> lookup g (cdata c) <> None
}.

(** The client keeps nothing else. *)
Definition Tight (st rd : list Z) (c : client) : Prop :=
  (forall x, lookup x (refd c) <> None -> In x st \/ In x rd) /\
  (forall w, In w (wait c) -> w_rel w = false -> In (wid w) st \/ In (wid w) rd).

Lemma wait_unique : forall c i w w', Q c i -> In w (wait c) -> In w' (wait c) -> wid w = wid w' -> w = w'.
Proof.
  intros c i w w' HQ. pose proof (q_nodup _ _ HQ) as N. clear HQ.
  induction (wait c) as [|a l IH]; intros H H' E; [destruct H|].
  cbn [map] in N. inversion N as [|? ? N1 N2]; subst.
  destruct H as [H|H], H' as [H'|H']; subst; auto.
  - exfalso. apply N1. rewrite E. now apply in_map.
  - exfalso. apply N1. rewrite <- E. now apply in_map.
Qed.

Lemma wait_not_refd : forall c i w, Q c i -> In w (wait c) -> lookup (wid w) (refd c) = None.
Proof.
  intros c i w HQ H. destruct (lookup (wid w) (refd c)) eqn:E; auto.
  apply (q_refd _ _ HQ) in E. rewrite (q_fresh _ _ HQ _ H) in E. discriminate.
Qed.

Lemma find_wait : forall c i w, Q c i -> In w (wait c) -> find (has_id (wid w)) (wait c) = Some w.
Proof.
  intros c i w HQ H. destruct (find (has_id (wid w)) (wait c)) as [w'|] eqn:E.
  - apply find_some in E. destruct E as [E1 E2]. unfold has_id in E2. apply Z.eqb_eq in E2.
    f_equal. eapply wait_unique; eauto.
  - exfalso. apply find_none with (x := w) in E; auto. unfold has_id in E. change (pid (w_pkt w)) with (wid w) in E.
    rewrite Z.eqb_refl in E. discriminate.
Qed.

(** Rewriting some waiting buffers without touching packet, signal. *)
Lemma map_wid : forall (h : wbuf -> bool) f l, (forall w, w_pkt (f w) = w_pkt w) ->
  map wid (map (fun w => if h w then f w else w) l) = map wid l.
Proof.
  intros h f l H. rewrite map_map. apply map_ext. intros w. destruct (h w); auto. unfold wid. now rewrite H.
Qed.

Lemma Q_refd : forall c i r, Q c i -> (forall x k, lookup x r = Some k -> lookup x (refd c) = Some k) -> Q (set_refd r c) i.
Proof.
  intros c i r HQ H. destruct HQ. constructor; cbn [set_refd out cdata cdomd refd wait]; auto.
Qed.

Lemma release_sim : forall dead sd st rd c i x, Inv dead sd st (x :: rd) c i ->
  exists c', release_one c x = Some c' /\ Inv dead sd st rd c' i /\ out c' = out c
    /\ (forall g y, waiting_for g y (wait c') = waiting_for g y (wait c))
    /\ (Tight st (x :: rd) c -> Tight st rd c').
Proof.
  intros dead sd st rd c i x HI. destruct HI as [HQ Hh Hns Hnr Hst Hrd Hk Hd].
  inversion Hnr as [|? ? Hx Hnr']; subst.
  assert (Hxs : ~ In x st). { intro F. apply (Hst x F). apply Hrd. now left. }
  unfold release_one. destruct (lookup x (refd c)) as [k|] eqn:E.
  - eexists. split; [reflexivity|]. split; [|split; [reflexivity|split; [reflexivity|]]].
    + constructor; auto.
      * apply Q_refd; auto. intros y q H. rewrite lookup_erase in H. now destruct (y =? x).
      * intros y H. assert (y <> x) by (intro; subst; destruct H; auto).
        destruct (Hh y) as [(q & F)|F].
        -- destruct H; auto. right. now right.
        -- left. exists q. cbn [set_refd refd]. rewrite lookup_erase. apply Z.eqb_neq in H0. now rewrite H0.
        -- right. exact F.
      * intros y H. apply Hrd. now right.
    + intros [T1 T2]. split.
      * intros y H. cbn [set_refd refd] in H. rewrite lookup_erase in H.
        destruct (Z.eqb_spec y x) as [F|F]; [congruence|]. apply T1 in H. destruct H as [H|[H|H]]; auto; congruence.
      * intros w H R. cbn [set_refd wait] in H. pose proof (T2 w H R) as [F|[F|F]]; auto.
        exfalso. rewrite F, (wait_not_refd _ _ _ HQ H) in E. discriminate.
  - destruct (Hh x) as [(q & F)|(w & F1 & F2 & F3)]; [right; now left|congruence|].
    subst x. rewrite (find_wait _ _ _ HQ F1), F3.
    eexists. split; [reflexivity|]. cbn [set_wait out wait refd].
    assert (HM : forall v, In v (map (fun w0 => if has_id (wid w) w0 then set_rel w0 else w0) (wait c)) ->
      exists u, In u (wait c) /\ w_sig v = w_sig u /\ w_pkt v = w_pkt u /\ (wid u <> wid w -> v = u)
        /\ (wid u = wid w -> w_rel v = true)).
    { intros v Hv. apply in_map_iff in Hv. destruct Hv as (u & Eu & Hu). exists u. unfold has_id in Eu.
      change (pid (w_pkt u)) with (wid u) in Eu. split; auto.
      destruct (Z.eqb_spec (wid u) (wid w)) as [G|G]; subst v; cbn; repeat split; auto; congruence. }
    split; [|split; [reflexivity|split]].
    + constructor; auto.
      * destruct HQ. constructor; cbn [set_wait out cdata cdomd refd wait]; auto.
        -- rewrite <- q_wait0, map_map. apply map_ext. intros u. now destruct (has_id (wid w) u).
        -- rewrite map_wid; auto.
        -- intros v Hv. apply HM in Hv. destruct Hv as (u & A & B & C & D & _). unfold wid. rewrite C. apply (q_fresh0 u A).
        -- intros v Hv. apply HM in Hv. destruct Hv as (u & A & B & C & D & _). rewrite B. auto.
        -- intros v Hv. apply HM in Hv. destruct Hv as (u & A & B & C & D & _). unfold wid. rewrite C. apply (q_world0 u A).
        -- intros v Hv. apply HM in Hv. destruct Hv as (u & A & B & C & D & _). rewrite C. auto.
      * intros y H. assert (Hy : y <> wid w) by (intro; subst; destruct H; auto).
        destruct (Hh y) as [(q & F)|(u & U1 & U2 & U3)].
        -- destruct H; auto. right. now right.
        -- left. exists q. exact F.
        -- right. exists u. repeat split; auto. cbn [set_wait wait]. apply in_map_iff. exists u. split; auto.
           unfold has_id. change (pid (w_pkt u)) with (wid u). rewrite U2. apply Z.eqb_neq in Hy. now rewrite Hy.
      * intros y H. apply Hrd. now right.
      * intros y H. apply Hk. cbn [set_wait wait] in H. rewrite map_wid in H; auto.
    + intros g y. clear. generalize (wid w). intros x. induction (wait c) as [|u l IH]; auto.
      cbn [map]. rewrite !waiting_cons, IH. f_equal. now destruct (has_id x u).
    + intros [T1 T2]. split; cbn [set_wait wait refd].
      * intros y H. apply T1 in H as G. destruct G as [G|[G|G]]; auto. congruence.
      * intros v Hv R. apply HM in Hv. destruct Hv as (u & A & B & C & D & D').
        destruct (Z.eq_dec (wid u) (wid w)) as [G|G]; [rewrite D' in R; congruence|].
        rewrite (D G) in *. destruct (T2 u A R) as [F|[F|F]]; auto. congruence.
Qed.

Lemma releases_sim : forall rd dead sd st c i, Inv dead sd st rd c i ->
  exists c', fold_opt release_one rd c = Some c' /\ Inv dead sd st [] c' i /\ out c' = out c
    /\ (forall g y, waiting_for g y (wait c') = waiting_for g y (wait c))
    /\ (Tight st rd c -> Tight st [] c').
Proof.
  induction rd as [|x rd IH]; intros dead sd st c i HI; cbn [fold_opt].
  - exists c. split; [reflexivity|]. split; [exact HI|]. auto.
  - destruct (release_sim _ _ _ _ _ _ _ HI) as (c1 & E & HI1 & O & W & T). rewrite E.
    destruct (IH _ _ _ _ _ HI1) as (c2 & E2 & HI2 & O2 & W2 & T2).
    exists c2. split; [exact E2|]. split; [exact HI2|]. split; [congruence|]. split; auto.
    intros g y. rewrite W2. apply W.
Qed.

Definition SInv dead (s : server) c i := Inv dead (sdesc s) (sent s) (ready s) c i.

Lemma check_sim : forall thr force dead s c i, SInv dead s c i ->
  let (s', bs) := checkAndSendReleasePacket thr force s in
  exists c', client_run bs c = Some c' /\ SInv dead s' c' i /\ out c' = out c
    /\ (forall g y, waiting_for g y (wait c') = waiting_for g y (wait c))
    /\ (Tight (sent s) (ready s) c -> Tight (sent s') (ready s') c')
    /\ sdesc s' = sdesc s /\ sent s' = sent s /\ (force = true -> ready s' = []).
Proof.
  intros thr force dead s c i HI. unfold checkAndSendReleasePacket. cbv zeta.
  destruct (negb (force && (0 <? length (ready s))%nat) && (length (ready s) <? thr)%nat) eqn:E.
  - exists c. split; [reflexivity|]. split; [exact HI|]. split; [auto|]. split; [auto|]. split; [auto|]. split; [auto|]. split; [auto|].
    intros F. subst force. cbn [andb] in E. destruct (ready s); auto. cbn [length] in E.
    apply andb_true_iff in E. destruct E as [E _]. apply negb_true_iff in E. apply Nat.ltb_ge in E. lia.
  - destruct (releases_sim _ _ _ _ _ _ HI) as (c' & E' & HI' & O & W & T).
    exists c'. unfold client_run. cbn [fold_opt client_step]. rewrite E'.
    split; [reflexivity|]. split; [exact HI'|]. split; auto.
Qed.

Definition next_dead (dead desc : list Z) (o : op) : list Z :=
  match o with
  | OData sig p last => if last && mem sig desc then pid p :: dead else dead
  | ODestroy x => x :: dead
  | _ => dead
  end.
Definition next_desc (desc : list Z) (o : op) : list Z :=
  match o with OEvent sig (EvDesc (Some _) _) => sig :: desc | _ => desc end.
Definition ok_op (dead : list Z) (o : op) : Prop :=
  match o with
  | OData sig p last => p = world (pid p) /\ ~ In (pid p) dead /\
      (forall d, dom p = Some d -> ~ In d dead /\ d < pid p)
  | ODestroy x => ~ In x dead
  | _ => True
  end.

Lemma valid_cons : forall dead desc o r, valid world dead desc (o :: r) ->
  ok_op dead o /\ valid world (next_dead dead desc o) (next_desc desc o) r.
Proof.
  intros dead desc o r H. destruct o as [g [[v|] d|n]|g p l|x|]; cbn [valid ok_op next_dead next_desc] in *; tauto.
Qed.

Definition accepted (sig x : Z) (desc : list Z) (o : op) : nat :=
  match o with
  | OData g p _ => one (mem g desc && (g =? sig) && (pid p =? x))
  | _ => 0%nat
  end.

Lemma calls_cons : forall g x desc o r,
  calls g x desc (o :: r) = (accepted g x desc o + calls g x (next_desc desc o) r)%nat.
Proof.
  intros g x desc o r. destruct o as [h [[v|] d|n]|h p l|y|]; cbn [calls accepted next_desc]; auto.
Qed.

Definition next_live (desc alive : list Z) (o : op) : list Z :=
  match o with
  | OData g p last => if mem g desc then (if last then del (pid p) alive else pid p :: del (pid p) alive) else alive
  | ODestroy x => del x alive
  | _ => alive
  end.
Lemma live_cons : forall desc alive o r,
  live desc alive (o :: r) = live (next_desc desc o) (next_live desc alive o) r.
Proof.
  intros desc alive o r. destruct o as [h [[v|] d|n]|h p l|y|]; cbn [live next_live next_desc]; auto.
  now destruct (mem h desc).
Qed.

Definition handover_clear (o : op) (c : client) : Prop :=
  match o with OData _ p true => forall w, In w (wait c) -> wid w <> pid p | _ => True end.

Lemma delivered_one : forall sig k g x, delivered g x [(sig, IData k)] = one ((sig =? g) && (src_of k =? x)).
Proof.
  intros. unfold delivered. cbn [filter]. unfold is_out. cbn [fst snd]. destruct k. cbn [src_of].
  now destruct ((sig =? g) && (src =? x)).
Qed.

Lemma forwards_noteworthy : forall sig v d cd cm, forwards sig v d cd cm = noteworthy sig v d cd cm.
Proof.
  intros. unfold forwards, noteworthy, is_news, missing.
  destruct v as [v|], d as [d|], (lookup sig cd) as [a|], (lookup sig cm) as [b|]; cbn; auto;
    rewrite ?(Z.eqb_sym a), ?(Z.eqb_sym b); auto; repeat rewrite ?orb_true_r, ?orb_false_r; auto.
Qed.

Lemma event_sim : forall dead sd st rd c i sig e, Inv dead sd st rd c i ->
  Inv dead (match e with EvDesc (Some _) _ => if mem sig sd then sd else sig :: sd | _ => sd end) st rd
      (addEventBuffer sig e c) (ideal_event sig e i)
  /\ (forall g x, delivered g x (out (addEventBuffer sig e c)) = delivered g x (out c))
  /\ wait (addEventBuffer sig e c) = wait c /\ refd (addEventBuffer sig e c) = refd c.
Proof.
  intros dead sd st rd c i sig e HI. destruct e as [v d|n]; cbn [addEventBuffer ideal_event]; [|auto].
  assert (F : noteworthy sig v d (i_data i) (i_dom i) = forwards sig v d (cdata c) (cdomd c)).
  { rewrite forwards_noteworthy. destruct HI as [HQ]. rewrite (q_data _ _ HQ), (q_dom _ _ HQ). reflexivity. }
  rewrite F. clear F. destruct HI as [HQ Hh Hns Hnr Hst Hrd Hk Hd].
  assert (HL : forall g, lookup g (cdata c) <> None -> lookup g (assign_opt sig v (cdata c)) <> None).
  { intros g H. destruct v; cbn [assign_opt]; auto. rewrite lookup_assign. now destruct (g =? sig). }
  set (b := forwards sig v d (cdata c) (cdomd c)).
  set (c1 := {| out := out c; cdata := _; cdomd := _; refd := _; wait := _ |}).
  set (i1 := {| i_out := i_out i; i_data := _; i_dom := _; built := _; pend := _ |}).
  assert (HQ1 : Q c1 i1).
  { destruct HQ. constructor; unfold c1, i1; cbn [out cdata cdomd refd wait i_out i_data i_dom built pend]; auto; try congruence. }
  assert (HI1 : Inv dead (match v with Some _ => if mem sig sd then sd else sig :: sd | _ => sd end) st rd c1 i1).
  { constructor; auto.
    intros g. unfold c1. cbn [cdata]. destruct v as [v|]; cbn [assign_opt]; auto.
    rewrite lookup_assign. destruct (Z.eqb_spec g sig) as [E|E].
    + subst g. destruct (mem sig sd) eqn:M; [apply mem_In in M|]; split; intros; auto; try congruence. now left.
    + destruct (mem sig sd) eqn:M; auto. rewrite <- Hd. split; [intros [G|G]; [congruence|auto]|now right]. }
  destruct b.
  - split; [|split; [|split; reflexivity]].
    + destruct HI1 as [? Hh' ? ? ? ? Hk' Hd']. constructor; auto.
      destruct HQ1. constructor; cbn [push emit out cdata cdomd refd wait i_out i_data i_dom built pend]; auto; try congruence.
      intros g k H. apply in_app_or in H. destruct H as [H|[H|[]]]; [eauto|discriminate].
    + intros g x. cbn [push out]. rewrite delivered_app. unfold delivered at 2. cbn [filter].
      unfold is_out. cbn [fst snd]. rewrite andb_false_r. cbn [length]. unfold c1. cbn [out]. lia.
  - split; [|split; [|split]]; auto.
Qed.

Lemma In_del_ne : forall x y l, In x l -> x <> y -> In x (del y l).
Proof. intros. apply In_del. auto. Qed.

Lemma already_sim : forall dead sd st rd c i sig p last, Inv dead sd st rd c i ->
  p = world (pid p) -> ~ In (pid p) dead -> In sig sd -> In (pid p) st ->
  exists c' i', addAlreadySent sig (pid p) (dom p) last c = Some c' /\ ideal_data sig p i = Some i'
    /\ Inv (if last then pid p :: dead else dead) sd (if last then del (pid p) st else st) rd c' i'
    /\ (forall g x, (delivered g x (out c') + waiting_for g x (wait c')
          = delivered g x (out c) + waiting_for g x (wait c) + one ((sig =? g)%Z && (pid p =? x)%Z))%nat)
    /\ (Tight st rd c -> handover_clear (OData sig p last) c -> Tight (if last then del (pid p) st else st) rd c').
Proof.
  intros dead sd st rd c i sig p last HI Hp Hnd Hs Hst0. pose proof HI as [HQ Hh Hns Hnr Hst Hrd Hk Hd].
  unfold addAlreadySent, ideal_data.
  assert (Hdesc : lookup sig (cdata c) <> None) by now apply Hd.
  destruct (lookup sig (cdata c)) as [desc|] eqn:Edesc; [clear Hdesc|congruence].
  destruct (Hh (pid p) (or_introl Hst0)) as [(k & E)|(w & W1 & W2 & W3)].
  - (* the object is still referenced *)
    rewrite E. rewrite (q_refd _ _ HQ _ _ E). eexists. eexists. split; [reflexivity|]. split; [reflexivity|].
    assert (Hsrc : src_of k = pid p).
    { pose proof (q_renders _ _ HQ _ _ (q_refd _ _ HQ _ _ E)) as R. now inversion R. }
    assert (HQ1 : Q (push (sig, IData k) c) (emit (sig, IData k) i)).
    { destruct HQ. constructor; cbn [push emit out cdata cdomd refd wait i_out i_data i_dom built pend]; auto; try congruence.
      intros g q H. apply in_app_or in H. destruct H as [H|[H|[]]]; [eauto|]. inversion H; subst. rewrite Hsrc. auto. }
    split; [|split].
    + destruct last.
      * constructor; auto.
        -- apply Q_refd; auto. intros x q H. rewrite lookup_erase in H. now destruct (x =? pid p).
        -- intros x H. assert (Hx : x <> pid p).
           { intro; subst. destruct H as [H|H]; [apply In_del in H; tauto|]. apply Hnd. auto. }
           destruct (Hh x) as [(q & F)|F].
           ++ destruct H as [H|H]; auto. apply In_del in H. tauto.
           ++ left. exists q. cbn [set_refd push refd]. rewrite lookup_erase. apply Z.eqb_neq in Hx. now rewrite Hx.
           ++ right. exact F.
        -- unfold del. now apply NoDup_filter.
        -- intros x H [F|F]; apply In_del in H; destruct H; [congruence|]. now apply (Hst x).
        -- intros x H. right. auto.
        -- intros x H. destruct (Z.eq_dec x (pid p)) as [F|F]; [right; left; auto|].
           destruct (Hk x H) as [G|G]; [left; now apply In_del_ne|right; now right].
      * constructor; auto.
    + intros g x. destruct last; cbn [set_refd push out wait]; rewrite delivered_app, delivered_one, Hsrc; lia.
    + intros [T1 T2] HC. destruct last; [|split; auto]. split; cbn [set_refd push refd wait].
      * intros x H. rewrite lookup_erase in H. destruct (Z.eqb_spec x (pid p)) as [F|F]; [congruence|].
        destruct (T1 x H); auto. left. now apply In_del_ne.
      * intros v V R. destruct (T2 v V R) as [F|F]; auto. left. apply In_del_ne; auto.
  - (* it still waits *)
    assert (En : lookup (pid p) (refd c) = None) by (rewrite <- W2; eapply wait_not_refd; eauto).
    assert (Eb : lookup (pid p) (built i) = None) by (rewrite <- W2; apply (q_fresh _ _ HQ); auto).
    rewrite En, Eb.
    assert (Ewp : w_pkt w = p) by (rewrite (q_world _ _ HQ _ W1), W2; auto).
    destruct (q_late _ _ HQ _ W1) as (d & D1 & D2). rewrite Ewp in D1.
    assert (Hhit : forall v, In v (wait c) ->
       same_dom (dom (w_pkt v)) (dom p) && has_id (pid p) v = (wid v =? pid p)).
    { intros v V. unfold has_id. change (pid (w_pkt v)) with (wid v).
      destruct (Z.eqb_spec (wid v) (pid p)) as [F|F]; [|now rewrite andb_false_r].
      assert (v = w) by (eapply wait_unique; eauto; congruence). subst v. rewrite Ewp, D1. cbn [same_dom].
      now rewrite Z.eqb_refl. }
    assert (Hex : existsb (fun w0 => same_dom (dom (w_pkt w0)) (dom p) && has_id (pid p) w0) (wait c) = true).
    { apply existsb_exists. exists w. split; auto. rewrite Hhit; auto. rewrite W2. apply Z.eqb_refl. }
    rewrite Hex.
    assert (Hex2 : existsb (is_pending (pid p)) (pend i) = true).
    { rewrite <- (q_wait _ _ HQ). apply existsb_exists. exists (strip w). split; [now apply in_map|].
      unfold is_pending. cbn [strip p_pkt]. change (pid (w_pkt w)) with (wid w). rewrite W2. apply Z.eqb_refl. }
    rewrite Hex2.
    eexists. eexists. split; [reflexivity|]. split; [reflexivity|].
    rewrite (map_ext_in _ (fun w0 => if wid w0 =? pid p then add_extra sig w0 else w0) (wait c))
      by (intros v V; rewrite Hhit; auto).
    set (f := fun w0 => if wid w0 =? pid p then add_extra sig w0 else w0).
    assert (Hf : forall v, w_pkt (f v) = w_pkt v /\ w_sig (f v) = w_sig v /\ w_rel (f v) = w_rel v /\ wid (f v) = wid v).
    { intros v. unfold f. destruct (wid v =? pid p); cbn; auto. }
    assert (HQ1 : forall i1, i_out i1 = i_out i -> i_data i1 = i_data i -> i_dom i1 = i_dom i -> built i1 = built i ->
       pend i1 = map strip (map f (wait c)) -> Q (set_wait (map f (wait c)) c) i1).
    { intros i1 X1 X2 X3 X4 X5. destruct HQ. constructor; cbn [set_wait out cdata cdomd refd wait]; rewrite ?X1, ?X2, ?X3, ?X4; auto.
      - rewrite map_map. erewrite map_ext; [exact q_nodup0|]. intros v. apply Hf.
      - intros v V. apply in_map_iff in V. destruct V as (u & U1 & U2). subst v. destruct (Hf u) as (A & B & C & D).
        rewrite D. auto.
      - intros v V. apply in_map_iff in V. destruct V as (u & U1 & U2). subst v. destruct (Hf u) as (A & B & C & D).
        rewrite B. auto.
      - intros v V. apply in_map_iff in V. destruct V as (u & U1 & U2). subst v. destruct (Hf u) as (A & B & C & D).
        rewrite A, D. auto.
      - intros v V. apply in_map_iff in V. destruct V as (u & U1 & U2). subst v. destruct (Hf u) as (A & B & C & D).
        rewrite A. auto. }
    assert (Hheld : forall x, held c x -> held (set_wait (map f (wait c)) c) x).
    { intros x [H|(u & U1 & U2 & U3)]; [left; exact H|]. right. exists (f u). cbn [set_wait wait].
      destruct (Hf u) as (A & B & C & D). rewrite C, D. split; auto. now apply in_map. }
    assert (Hwid : map wid (map f (wait c)) = map wid (wait c)).
    { rewrite map_map. apply map_ext. intros v. apply Hf. }
    split; [|split].
    + assert (HQ2 := fun i1 a b c d e => HQ1 i1 a b c d e).
      match goal with |- Inv _ _ _ _ _ ?j => assert (HQj : Q (set_wait (map f (wait c)) c) j) end.
      { apply HQ1; auto. cbn [set_pend pend]. rewrite <- (q_wait _ _ HQ), !map_map. apply map_ext.
        intros v. unfold f, is_pending. cbn [strip p_pkt]. change (pid (w_pkt v)) with (wid v). now destruct (wid v =? pid p). }
      destruct last.
      * constructor; auto.
        -- intros x H. apply Hheld, Hh. destruct H as [H|H]; auto. apply In_del in H. tauto.
        -- unfold del. now apply NoDup_filter.
        -- intros x H [F|F]; apply In_del in H; destruct H; [congruence|]. now apply (Hst x).
        -- intros x H. right. auto.
        -- intros x H. cbn [set_wait wait set_pend built] in H. rewrite Hwid in H.
           destruct (Z.eq_dec x (pid p)) as [F|F]; [right; left; auto|].
           destruct (Hk x H) as [G|G]; [left; now apply In_del_ne|right; now right].
      * constructor; auto.
        intros x H. cbn [set_wait wait set_pend built] in H. rewrite Hwid in H. auto.
    + intros g x. cbn [set_wait out wait].
      assert (HH : waiting_for g x (map f (wait c)) = (waiting_for g x (wait c) + one ((sig =? g)%Z && (pid p =? x)%Z))%nat).
      { pose proof (q_nodup _ _ HQ) as N. clear - N W1 W2. unfold f. clear f.
        induction (wait c) as [|v l IH]; [destruct W1|]. cbn [map]. rewrite !waiting_cons.
        cbn [map] in N. inversion N as [|? ? N1 N2]; subst.
        destruct (Z.eqb_spec (wid v) (pid p)) as [F|F].
        - assert (Hl : map (fun w0 => if wid w0 =? pid p then add_extra sig w0 else w0) l = l).
          { transitivity (map (fun w0 : wbuf => w0) l); [|apply map_id]. apply map_ext_in. intros u U.
            destruct (Z.eqb_spec (wid u) (pid p)) as [G|G]; auto. exfalso. apply N1. rewrite F, <- G. now apply in_map. }
          rewrite Hl. unfold due. change (wid (add_extra sig v)) with (wid v). rewrite F.
          destruct (Z.eqb_spec (pid p) x) as [G|G]; [|rewrite andb_false_r; cbn [one]; lia].
          rewrite andb_true_r. cbn [add_extra w_sig w_extra]. rewrite count_occ_app. cbn [count_occ].
          destruct (Z.eq_dec sig g) as [K|K].
          + subst g. rewrite Z.eqb_refl. cbn [one]. lia.
          + apply Z.eqb_neq in K. rewrite K. cbn [one]. lia.
        - destruct W1 as [W1|W1]; [subst; congruence|]. rewrite IH; auto. lia. }
      rewrite HH. lia.
    + intros [T1 T2] HC. destruct last.
      * exfalso. cbn [handover_clear] in HC. apply (HC w W1). exact W2.
      * split; cbn [set_wait refd wait]; auto.
        intros v V R. apply in_map_iff in V. destruct V as (u & U1 & U2). subst v. destruct (Hf u) as (A & B & C & D).
        rewrite D. rewrite C in R. auto.
Qed.

Lemma fresh_sim : forall dead sd st rd c i sig p last, Inv dead sd st rd c i ->
  p = world (pid p) -> ~ In (pid p) dead -> (forall d, dom p = Some d -> ~ In d dead /\ d < pid p) ->
  In sig sd -> ~ In (pid p) st ->
  exists c' i', addDataBuffer sig p last c = Some c' /\ ideal_data sig p i = Some i'
    /\ Inv (if last then pid p :: dead else dead) sd (if last then st else pid p :: st) rd c' i'
    /\ (forall g x, (delivered g x (out c') + waiting_for g x (wait c')
          = delivered g x (out c) + waiting_for g x (wait c) + one ((sig =? g)%Z && (pid p =? x)%Z))%nat)
    /\ (Tight st rd c -> handover_clear (OData sig p last) c -> Tight (if last then st else pid p :: st) rd c').
Proof.
  intros dead sd st rd c i sig p last HI Hp Hnd Hdm Hs Hns0. pose proof HI as [HQ Hh Hns Hnr Hst Hrd Hk Hd].
  assert (Hdesc : lookup sig (cdata c) <> None) by now apply Hd.
  assert (Hb : lookup (pid p) (built i) = None).
  { destruct (lookup (pid p) (built i)) eqn:E; auto. destruct (Hk (pid p)); try tauto. left. congruence. }
  assert (Hw : ~ In (pid p) (map wid (wait c))).
  { intro F. destruct (Hk (pid p)); tauto. }
  assert (Hst' : forall x, In x (if last then st else pid p :: st) -> In x st \/ (x = pid p /\ last = false)).
  { intros x H. destruct last; auto. destruct H; auto. }
  assert (Hst2 : forall x, In x st -> In x (if last then st else pid p :: st)).
  { intros x H. destruct last; auto. now right. }
  assert (Hall : forall x, In x st \/ In x dead \/ x = pid p ->
     In x (if last then st else pid p :: st) \/ In x (if last then pid p :: dead else dead)).
  { intros x [H|[H|H]]; auto.
    - right. destruct last; auto. now right.
    - destruct last; [right|left]; left; auto. }
  assert (CST : NoDup (if last then st else pid p :: st)).
  { destruct last; auto. constructor; auto. }
  assert (CD : forall x, In x (if last then st else pid p :: st) -> ~ In x (if last then pid p :: dead else dead)).
  { intros x H F. destruct (Hst' x H) as [G|[G1 G2]].
    - destruct last; [destruct F as [F|F]; [congruence|]|]; now apply (Hst x).
    - subst. auto. }
  assert (CR : forall x, In x rd -> In x (if last then pid p :: dead else dead)).
  { intros x H. destruct last; [right|]; auto. }
  unfold addDataBuffer, ideal_data. rewrite Hb.
  assert (Hex : existsb (is_pending (pid p)) (pend i) = false).
  { destruct (existsb (is_pending (pid p)) (pend i)) eqn:E; auto. exfalso. apply Hw.
    apply existsb_exists in E. destruct E as (v & V1 & V2). rewrite <- (q_wait _ _ HQ) in V1.
    apply in_map_iff in V1. destruct V1 as (u & U1 & U2). subst v. unfold is_pending in V2. cbn [strip p_pkt] in V2.
    apply Z.eqb_eq in V2. rewrite <- V2. change (pid (w_pkt u)) with (wid u). now apply in_map. }
  rewrite Hex.
  assert (Hlen : length (pend i) = length (wait c)) by (rewrite <- (q_wait _ _ HQ); apply map_length).
  rewrite Hlen.
  assert (GO : forall domp, dom_ok p domp ->
     exists c' i', option_map fst (build (S (length (wait c))) sig p last domp c) = Some c' /\
       option_map fst (deliver (S (length (wait c))) sig p domp i) = Some i'
    /\ Inv (if last then pid p :: dead else dead) sd (if last then st else pid p :: st) rd c' i'
    /\ (forall g x, (delivered g x (out c') + waiting_for g x (wait c')
          = delivered g x (out c) + waiting_for g x (wait c) + one ((sig =? g)%Z && (pid p =? x)%Z))%nat)
    /\ (Tight st rd c -> handover_clear (OData sig p last) c -> Tight (if last then st else pid p :: st) rd c')).
  { intros domp Hdk.
    destruct (build_sim (S (length (wait c))) sig p last domp c i HQ (Nat.lt_succ_diag_r _) Hdesc Hw Hb Hp Hdk)
      as (c' & i' & k & E1 & E2 & B). rewrite E1, E2. cbn [option_map fst].
    exists c', i'. split; [reflexivity|]. split; [reflexivity|].
    destruct B as [BQ Bd Bm Bi Bl Bh Bu Bo Bt Bn Bs Bc].
    split; [|split; [exact Bc|]].
    - constructor; auto.
      + intros x H. apply Bh. destruct H as [H|H]; auto. apply Hst' in H. destruct H; auto.
      + intros x H. apply Hall.
        assert (G : lookup x (built i) <> None \/ x = pid p \/ In x (map wid (wait c))).
        { destruct H as [H|H]; auto. right. right. apply waiting_In in H. destruct H as (u & U1 & U2).
          apply waiting_In. exists u. auto. }
        destruct G as [G|[G|G]]; auto; destruct (Hk x); auto.
      + intros g. rewrite Bd. apply Hd.
    - intros [T1 T2] _. split.
      + intros x H. destruct (lookup x (refd c')) as [q|] eqn:E; [|congruence].
        apply Bu in E. destruct E as [E|[(E & G)|(u & U1 & U2 & U3)]].
        * apply T1 in E. destruct E; auto.
        * subst x. rewrite G. left. now left.
        * subst x. destruct (T2 u U1 U3); auto.
      + intros v V R. apply Bi in V. destruct (T2 v V R); auto. }
  destruct (dom p) as [d|] eqn:Ed.
  - destruct (Hdm d eq_refl) as [Hdd _].
    destruct (lookup d (refd c)) as [k|] eqn:Er.
    + rewrite (q_refd _ _ HQ _ _ Er). apply GO. unfold dom_ok. rewrite Ed. apply (q_renders _ _ HQ). now apply (q_refd _ _ HQ).
    + assert (Ebd : lookup d (built i) = None).
      { destruct (lookup d (built i)) as [q|] eqn:F; auto. exfalso.
        destruct (Hk d) as [G|G]; [left; congruence| |tauto].
        destruct (Hh d (or_introl G)) as [(q' & F')|(u & U1 & U2 & U3)]; [congruence|].
        rewrite <- U2, (q_fresh _ _ HQ _ U1) in F. discriminate. }
      rewrite Ebd. eexists. eexists. split; [reflexivity|]. split; [reflexivity|].
      set (w := {| w_sig := sig; w_pkt := p; w_rel := last; w_extra := [] |}).
      assert (Hin : forall v, In v (wait c ++ [w]) -> In v (wait c) \/ v = w).
      { intros v V. apply in_app_or in V. destruct V as [V|[V|[]]]; auto. }
      split; [|split].
      * constructor; auto.
        -- destruct HQ. constructor; cbn [set_wait set_pend out cdata cdomd refd wait i_out i_data i_dom built pend]; auto.
           ++ rewrite map_app, q_wait0. reflexivity.
           ++ rewrite map_app. cbn [map]. apply NoDup_Add with (a := pid p) (l := map wid (wait c)).
              ** pose proof (Add_app (pid p) (map wid (wait c)) []) as AA. rewrite app_nil_r in AA. exact AA.
              ** auto.
           ++ intros v V. apply Hin in V. destruct V as [V|V]; [auto|subst v; exact Hb].
           ++ intros v V. apply Hin in V. destruct V as [V|V]; [auto|subst v; exact Hdesc].
           ++ intros v V. apply Hin in V. destruct V as [V|V]; [auto|subst v; exact Hp].
           ++ intros v V. apply Hin in V. destruct V as [V|V]; [auto|subst v; exists d; auto].
        -- intros x H. assert (G : (In x st \/ In x rd) \/ (x = pid p /\ last = false)).
           { destruct H as [H|H]; auto. apply Hst' in H. tauto. }
           destruct G as [G|[G1 G2]].
           ++ destruct (Hh x G) as [F|(u & U1 & U2 & U3)]; [left; exact F|right].
              exists u. repeat split; auto. cbn [set_wait wait]. apply in_or_app. auto.
           ++ right. exists w. cbn [set_wait wait]. split; [apply in_or_app; right; now left|]. auto.
        -- intros x H. apply Hall. cbn [set_wait wait set_pend built] in H.
           destruct H as [H|H]; [destruct (Hk x); auto|].
           rewrite map_app in H. apply in_app_or in H. destruct H as [H|[H|[]]]; auto. destruct (Hk x); auto.
      * intros g x. cbn [set_wait out wait]. rewrite waiting_app, waiting_cons. unfold due. cbn [w w_sig w_extra count_occ].
        change (wid w) with (pid p). cbn [waiting_for fold_right]. destruct (pid p =? x); rewrite ?andb_true_r, ?andb_false_r; cbn [one]; lia.
      * intros [T1 T2] _. split; cbn [set_wait refd wait].
        -- intros x H. destruct (T1 x H); auto.
        -- intros v V R. apply Hin in V. destruct V as [V|V].
           ++ destruct (T2 v V R); auto.
           ++ subst v. cbn [w w_rel] in R. subst last. left. left. reflexivity.
  - apply GO. unfold dom_ok. now rewrite Ed.
Qed.

Lemma destroy_sim : forall dead s c i x, SInv dead s c i -> ~ In x dead ->
  SInv (x :: dead) (destroyed x s) c i /\ (Tight (sent s) (ready s) c -> Tight (sent (destroyed x s)) (ready (destroyed x s)) c).
Proof.
  intros dead s c i x HI Hx. destruct HI as [HQ Hh Hns Hnr Hst Hrd Hk Hd]. unfold destroyed.
  destruct (mem x (sent s)) eqn:M.
  - apply mem_In in M. split.
    + constructor; cbn [sdesc sent ready]; auto.
      * intros y H. apply Hh. destruct H as [H|H]; [apply In_del in H; tauto|].
        apply in_app_or in H. destruct H as [H|[H|[]]]; subst; auto.
      * unfold del. now apply NoDup_filter.
      * apply NoDup_Add with (a := x) (l := ready s).
        -- pose proof (Add_app x (ready s) []) as AA. rewrite app_nil_r in AA. exact AA.
        -- split; auto.
      * intros y H [F|F]; apply In_del in H; destruct H; [congruence|now apply (Hst y)].
      * intros y H. apply in_app_or in H. destruct H as [H|[H|[]]]; [right; auto|left; auto].
      * intros y H. destruct (Z.eq_dec y x) as [F|F]; [right; left; auto|].
        destruct (Hk y H); [left; now apply In_del_ne|right; now right].
    + intros [T1 T2]. cbn [sent ready].
      assert (TT : forall y, In y (sent s) \/ In y (ready s) -> In y (del x (sent s)) \/ In y (ready s ++ [x])).
      { intros y H. destruct (Z.eq_dec y x) as [F|F]; [right; apply in_or_app; right; left; auto|].
        destruct H; [left; now apply In_del_ne|right; apply in_or_app; auto]. }
      split; intros; auto.
  - apply mem_not_In in M. split; auto. constructor; auto.
    + intros y H [F|F]; [subst; auto|now apply (Hst y)].
    + intros y H. right. auto.
    + intros y H. destruct (Hk y H); auto. right. now right.
Qed.

Definition live_ok (desc alive : list Z) (s : server) : Prop :=
  (forall g, mem g desc = mem g (sdesc s)) /\ (forall x, In x alive <-> In x (sent s)).

Lemma mem_cons_ext : forall g h (a b : list Z), mem g a = mem g b -> mem g (h :: a) = mem g (h :: b).
Proof. intros. unfold mem in *. cbn [existsb]. now rewrite H. Qed.

Definition handover_ok (desc : list Z) (o : op) (c : client) : Prop :=
  match o with OData sig _ _ => mem sig desc = true -> handover_clear o c | _ => True end.

Lemma step_sim : forall thr dead desc alive s c i o, SInv dead s c i -> ok_op dead o -> live_ok desc alive s ->
  let (s', bs) := server_step thr s o in
  exists c' i', client_run bs c = Some c' /\ ideal_step i o = Some i'
    /\ SInv (next_dead dead desc o) s' c' i'
    /\ live_ok (next_desc desc o) (next_live desc alive o) s'
    /\ (forall g x, (delivered g x (out c') + waiting_for g x (wait c')
          = delivered g x (out c) + waiting_for g x (wait c) + accepted g x desc o)%nat)
    /\ (Tight (sent s) (ready s) c -> handover_ok desc o c -> Tight (sent s') (ready s') c').
Proof.
  intros thr dead desc alive s c i o HI Hok [HD HA]. destruct o as [sig e|sig p last|x|]; cbn [server_step].
  - unfold addEventPacket.
    destruct (event_sim _ _ _ _ _ _ sig e HI) as (HI1 & HC1 & HW1 & HR1).
    set (s1 := {| sdesc := _; sent := sent s; ready := ready s |}).
    pose proof (check_sim thr false dead s1 _ _ HI1) as HK.
    destruct (checkAndSendReleasePacket thr false s1) as [s2 b2].
    destruct HK as (c2 & E2 & HI2 & O2 & W2 & T2 & D2 & S2 & _).
    exists c2, (ideal_event sig e i). unfold client_run in *. cbn [app fold_opt client_step]. split; [exact E2|].
    split; [reflexivity|]. split; [exact HI2|]. split; [|split].
    + split.
      * intros g. rewrite D2. unfold s1. cbn [sdesc]. destruct e as [[v|] d|n]; cbn [next_desc]; auto.
        destruct (mem sig (sdesc s)) eqn:M.
        -- unfold mem at 1. cbn [existsb]. fold (mem g desc). rewrite HD.
           destruct (Z.eqb_spec g sig) as [G|G]; auto. subst g. now rewrite M.
        -- apply mem_cons_ext. auto.
      * cbn [next_live]. intros x. rewrite S2. apply HA.
    + intros g x. rewrite O2, W2, HC1, HW1. cbn [accepted]. lia.
    + intros T _. apply T2. unfold s1. cbn [sent ready]. destruct T as [T3 T4]. split; rewrite ?HR1, ?HW1; auto.
  - cbn [ok_op] in Hok. destruct Hok as (Hp & Hnd & Hdm). unfold addDataPacket.
    destruct (mem sig (sdesc s)) eqn:M.
    + assert (M2 : mem sig desc = true) by (rewrite HD; auto).
      apply mem_In in M.
      assert (Hide : lookup sig (i_data i) <> None).
      { rewrite <- (q_data _ _ (v_q _ _ _ _ _ _ HI)). now apply (v_desc _ _ _ _ _ _ HI). }
      unfold shouldSendPacket. destruct (mem (pid p) (sent s)) eqn:MS.
      * apply mem_In in MS.
        destruct (already_sim _ _ _ _ _ _ sig p last HI Hp Hnd M MS) as (c1 & i1 & E1 & F1 & HI1 & C1 & T1).
        set (s1 := {| sdesc := sdesc s; sent := if last then del (pid p) (sent s) else sent s; ready := ready s |}).
        pose proof (check_sim thr false _ s1 _ _ HI1) as HK.
        destruct (checkAndSendReleasePacket thr false s1) as [s2 b2].
        destruct HK as (c2 & E2 & HI2 & O2 & W2 & T2 & D2 & S2 & _).
        exists c2, i1. unfold client_run in *. cbn [app fold_opt client_step]. rewrite E1. split; [exact E2|].
        cbn [ideal_step]. destruct (lookup sig (i_data i)); [|congruence]. split; [exact F1|].
        cbn [next_dead next_desc next_live accepted]. rewrite M2, andb_true_r. cbn [andb].
        split; [exact HI2|]. split; [|split].
        -- split; [intros g; rewrite D2; apply HD|]. intros x. rewrite S2. unfold s1. cbn [sent].
           destruct last; [rewrite !In_del, HA; tauto|]. cbn [In]. rewrite In_del, HA.
           destruct (Z.eq_dec x (pid p)); [subst; tauto|]. split; [intros [A|A]; [congruence|tauto]|tauto].
        -- intros g x. rewrite O2, W2. apply C1.
        -- intros T HC. cbn [handover_ok] in HC. specialize (HC M2). apply T2. unfold s1. cbn [sent ready]. auto.
      * apply mem_not_In in MS.
        destruct (fresh_sim _ _ _ _ _ _ sig p last HI Hp Hnd Hdm M MS) as (c1 & i1 & E1 & F1 & HI1 & C1 & T1).
        set (s1 := {| sdesc := sdesc s; sent := if last then sent s else pid p :: sent s; ready := ready s |}).
        pose proof (check_sim thr false _ s1 _ _ HI1) as HK.
        destruct (checkAndSendReleasePacket thr false s1) as [s2 b2].
        destruct HK as (c2 & E2 & HI2 & O2 & W2 & T2 & D2 & S2 & _).
        exists c2, i1. unfold client_run in *. cbn [app fold_opt client_step]. rewrite E1. split; [exact E2|].
        cbn [ideal_step]. destruct (lookup sig (i_data i)); [|congruence]. split; [exact F1|].
        cbn [next_dead next_desc next_live accepted]. rewrite M2, andb_true_r. cbn [andb].
        split; [exact HI2|]. split; [|split].
        -- split; [intros g; rewrite D2; apply HD|]. intros x. rewrite S2. unfold s1. cbn [sent].
           destruct last; cbn [In]; rewrite In_del, HA.
           ++ split; [tauto|]. intro F. split; auto. intro; subst; auto.
           ++ split; [intros [A|A]; [auto|tauto]|]. intros [A|A]; auto. right. split; auto. intro; subst; auto.
        -- intros g x. rewrite O2, W2. apply C1.
        -- intros T HC. cbn [handover_ok] in HC. specialize (HC M2). apply T2. unfold s1. cbn [sent ready]. auto.
    + exists c, i. split; [reflexivity|]. cbn [ideal_step].
      assert (M2 : mem sig desc = false) by (rewrite HD; auto).
      assert (lookup sig (i_data i) = None) as ->.
      { destruct (lookup sig (i_data i)) eqn:E; auto. exfalso. apply mem_not_In in M. apply M.
        apply (v_desc _ _ _ _ _ _ HI). rewrite (q_data _ _ (v_q _ _ _ _ _ _ HI)). congruence. }
      split; [reflexivity|]. cbn [next_dead next_desc next_live accepted]. rewrite M2, andb_false_r. cbn [andb one].
      split; [exact HI|]. split; [split; auto|]. split; [intros; lia|auto].
  - cbn [ok_op] in Hok. destruct (destroy_sim _ _ _ _ x HI Hok) as [HI1 T1].
    exists c, i. split; [reflexivity|]. split; [reflexivity|]. cbn [next_dead next_desc next_live accepted].
    split; [exact HI1|]. split; [|split; [intros; lia|auto]].
    unfold destroyed. destruct (mem x (sent s)) eqn:M; split; cbn [sdesc sent]; auto.
    + intros y. rewrite !In_del, HA. tauto.
    + intros y. rewrite In_del, HA. apply mem_not_In in M. split; [tauto|]. intros H. split; auto. intro; subst; auto.
  - pose proof (check_sim thr true dead s _ _ HI) as HK.
    destruct (checkAndSendReleasePacket thr true s) as [s2 b2].
    destruct HK as (c2 & E2 & HI2 & O2 & W2 & T2 & D2 & S2 & _).
    exists c2, i. split; [exact E2|]. split; [reflexivity|]. cbn [next_dead next_desc next_live accepted].
    split; [exact HI2|]. split; [|split; auto].
    + split; [intros; rewrite D2; auto|intros; rewrite S2; apply HA].
    + intros g x. rewrite O2, W2. lia.
Qed.

Definition final_dead (dead desc : list Z) (ops : list op) : list Z :=
  fst (fold_left (fun (q : list Z * list Z) o => (next_dead (fst q) (snd q) o, next_desc (snd q) o)) ops (dead, desc)).

Lemma run_sim : forall thr ops dead desc alive s c i, SInv dead s c i -> valid world dead desc ops -> live_ok desc alive s ->
  let (s', bs) := server_run thr s ops in
  exists c' i' dead' desc', client_run bs c = Some c' /\ fold_opt ideal_step ops i = Some i'
    /\ SInv dead' s' c' i' /\ live_ok desc' (live desc alive ops) s'
    /\ (forall g x, (delivered g x (out c') + waiting_for g x (wait c')
          = delivered g x (out c) + waiting_for g x (wait c) + calls g x desc ops)%nat).
Proof.
  intros thr. induction ops as [|o r IH]; intros dead desc alive s c i HI HV HL; cbn [server_run].
  - exists c, i, dead, desc. split; [reflexivity|]. split; [reflexivity|]. split; [auto|]. split; [auto|].
    intros; cbn [calls]; lia.
  - apply valid_cons in HV. destruct HV as [Hok HV].
    pose proof (step_sim thr dead desc alive s c i o HI Hok HL) as HS.
    destruct (server_step thr s o) as [s1 b1].
    destruct HS as (c1 & i1 & E1 & F1 & HI1 & HL1 & C1 & _).
    specialize (IH _ _ _ _ _ _ HI1 HV HL1).
    destruct (server_run thr s1 r) as [s2 b2].
    destruct IH as (c2 & i2 & dd & ds & E2 & F2 & HI2 & HL2 & C2).
    exists c2, i2, dd, ds. unfold client_run in *. rewrite fold_opt_app, E1. split; [exact E2|].
    cbn [fold_opt]. rewrite F1. split; [exact F2|]. split; [exact HI2|]. split.
    + rewrite live_cons. exact HL2.
    + intros g x. rewrite C2, C1, calls_cons. lia.
Qed.

Lemma Inv_init : SInv [] server_init client_init ideal_init.
Proof.
  constructor; cbn; try constructor; cbn; intros; try congruence; try tauto; try (now constructor).
Qed.
Lemma live_init : live_ok [] [] server_init.
Proof. clear world. split; cbn; tauto. Qed.
Lemma Tight_init : Tight [] [] client_init.
Proof. clear world. split; cbn; intros; [congruence|tauto]. Qed.

(** ** Histories with plain handovers *)

Lemma next_live_sub : forall desc alive o x, In x (next_live desc alive o) ->
  In x alive \/ (exists g p l, o = OData g p l /\ mem g desc = true /\ x = pid p).
Proof.
  intros desc alive o x. destruct o as [h e|h p l|y|]; cbn [next_live]; auto.
  - destruct (mem h desc) eqn:M; auto. destruct l.
    + rewrite In_del. tauto.
    + intros [H|H]; [|apply In_del in H; tauto]. right. exists h, p, false. auto.
  - rewrite In_del. tauto.
Qed.

Definition next_seen (seen desc : list Z) (o : op) : list Z :=
  match o with OData g p _ => if mem g desc then pid p :: seen else seen | _ => seen end.

Lemma plain_cons : forall seen desc o r, plain_handover seen desc (o :: r) ->
  plain_handover (next_seen seen desc o) (next_desc desc o) r /\
  match o with OData g p true => mem g desc = true -> In (pid p) seen -> dom p = None | _ => True end.
Proof.
  intros seen desc o r H. destruct o as [h [[v|] d|n]|h p l|y|]; cbn [plain_handover next_seen next_desc] in *; auto.
  destruct (mem h desc); destruct l; intuition auto; try discriminate.
Qed.

Lemma seen_step : forall desc alive seen o, incl alive seen -> incl (next_live desc alive o) (next_seen seen desc o).
Proof.
  intros desc alive seen o H x Hx. apply next_live_sub in Hx.
  destruct Hx as [Hx|(g & p & l & E & M & X)].
  - apply H in Hx. destruct o as [h e|h p l|y|]; cbn [next_seen]; auto. destruct (mem h desc); auto. now right.
  - subst o. cbn [next_seen]. rewrite M. now left.
Qed.

Lemma plain_tight : forall thr ops dead desc alive seen s c i, SInv dead s c i -> valid world dead desc ops ->
  live_ok desc alive s -> incl alive seen -> plain_handover seen desc ops -> Tight (sent s) (ready s) c ->
  let (s', bs) := server_run thr s ops in
  forall c', client_run bs c = Some c' -> Tight (sent s') (ready s') c'.
Proof.
  intros thr. induction ops as [|o r IH]; intros dead desc alive seen s c i HI HV HL HS HP HT; cbn [server_run].
  - intros c' E. inversion E. now subst.
  - apply valid_cons in HV. destruct HV as [Hok HV]. apply plain_cons in HP. destruct HP as [HP HO].
    pose proof (step_sim thr dead desc alive s c i o HI Hok HL) as HSt.
    destruct (server_step thr s o) as [s1 b1].
    destruct HSt as (c1 & i1 & E1 & F1 & HI1 & HL1 & C1 & T1).
    assert (HT1 : Tight (sent s1) (ready s1) c1).
    { apply T1; auto. destruct o as [h e|h p l|y|]; cbn [handover_ok]; auto. intros M.
      unfold handover_clear. destruct l; auto. intros w W E. cbn [ok_op] in Hok. destruct Hok as (Hp & Hnd & _).
      destruct (q_late _ _ (v_q _ _ _ _ _ _ HI) _ W) as (d & D1 & _).
      rewrite (q_world _ _ (v_q _ _ _ _ _ _ HI) _ W), E, <- Hp in D1.
      rewrite HO in D1; auto; [discriminate|]. apply HS. apply HL.
      destruct (v_known _ _ _ _ _ _ HI (pid p)) as [G|G]; auto; [|tauto].
      right. rewrite <- E. now apply in_map. }
    specialize (IH _ _ _ _ _ _ _ HI1 HV HL1 (seen_step _ _ _ _ HS) HP HT1).
    destruct (server_run thr s1 r) as [s2 b2].
    intros c' E. unfold client_run in *. rewrite fold_opt_app, E1 in E. auto.
Qed.

(** ** Histories in which domain packets come first *)

Lemma ideal_data_direct : forall sig p i desc, pend i = [] -> lookup sig (i_data i) = Some desc ->
  (forall d, dom p = Some d -> lookup d (built i) <> None) ->
  let k := match lookup (pid p) (built i) with
           | Some k => k
           | None => CP (pid p) (body p) desc (match dom p with Some d => lookup d (built i) | None => None end)
           end in
  exists i', ideal_data sig p i = Some i' /\ i_out i' = i_out i ++ [(sig, IData k)] /\ pend i' = []
    /\ i_data i' = i_data i /\ i_dom i' = i_dom i
    /\ (forall x, lookup x (built i') = if x =? pid p then Some k else lookup x (built i)).
Proof.
  intros sig p i desc HP HD HB. cbv zeta. unfold ideal_data.
  destruct (lookup (pid p) (built i)) as [k|] eqn:E.
  - eexists. split; [reflexivity|]. cbn [emit i_out pend i_data i_dom built]. repeat split; auto.
    intros x. destruct (Z.eqb_spec x (pid p)); auto. now subst.
  - rewrite HP. cbn [existsb length].
    assert (G : forall domp, exists i', option_map fst (deliver 1 sig p domp i) = Some i'
       /\ i_out i' = i_out i ++ [(sig, IData (CP (pid p) (body p) desc domp))] /\ pend i' = []
       /\ i_data i' = i_data i /\ i_dom i' = i_dom i
       /\ (forall x, lookup x (built i') = if x =? pid p then Some (CP (pid p) (body p) desc domp) else lookup x (built i))).
    { intros domp. rewrite deliver_unfold, HD. cbv zeta. cbn [pend set_built emit]. rewrite HP.
      cbn [filter fold_opt option_map fst]. eexists. split; [reflexivity|].
      cbn [set_pend set_built emit i_out pend i_data i_dom built]. repeat split; auto. intros x. apply lookup_assign. }
    destruct (dom p) as [d|].
    + specialize (HB d eq_refl). destruct (lookup d (built i)) as [k|]; [apply G|congruence].
    + apply G.
Qed.

Lemma df_cons : forall seen desc o r, domain_first seen desc (o :: r) ->
  domain_first (next_seen seen desc o) (next_desc desc o) r /\
  match o with OData g p _ => mem g desc = true -> forall d, dom p = Some d -> In d seen | _ => True end.
Proof.
  intros seen desc o r H. destruct o as [h [[v|] d|n]|h p l|y|]; cbn [domain_first next_seen next_desc] in *; auto.
  destruct (mem h desc); intuition auto; try discriminate.
Qed.

(** What the ideal channel and the direct reading agree on. *)
Record DF (seen desc : list Z) (i : ideal) (cd cm : list (Z * Z)) (blt : list (Z * cpkt)) : Prop := {
  d_pend : pend i = [];
  d_seen : forall x, In x seen -> lookup x (built i) <> None;
  d_desc : forall g, mem g desc = true <-> lookup g (i_data i) <> None;
  d_cd : i_data i = cd;
  d_cm : i_dom i = cm;
  d_blt : forall x, lookup x (built i) = lookup x blt
}.

Definition out_of (o : op) (cd cm : list (Z * Z)) (blt : list (Z * cpkt)) : list (Z * item) :=
  match o with
  | OEvent sig (EvDesc v d) => if noteworthy sig v d cd cm then [(sig, IEvent (EvDesc v d))] else []
  | OData sig p _ =>
      match lookup sig cd with
      | None => []
      | Some desc => [(sig, IData match lookup (pid p) blt with
                   | Some k => k
                   | None => CP (pid p) (body p) desc
                               (match dom p with Some d => lookup d blt | None => None end)
                   end)]
      end
  | _ => []
  end.

Lemma df_step : forall o r seen desc i cd cm blt, DF seen desc i cd cm blt -> domain_first seen desc (o :: r) ->
  exists i' cd' cm' blt', ideal_step i o = Some i' /\ i_out i' = i_out i ++ out_of o cd cm blt
    /\ DF (next_seen seen desc o) (next_desc desc o) i' cd' cm' blt'
    /\ direct (o :: r) cd cm blt = out_of o cd cm blt ++ direct r cd' cm' blt'.
Proof.
  intros o r seen desc i cd cm blt HD HF. apply df_cons in HF. destruct HF as [HF HO].
  destruct HD as [Hp Hs Hd Hcd Hcm Hb].
  destruct o as [sig [v d|n]|sig p l|y|].
  - cbn [ideal_step ideal_event]. rewrite Hcd, Hcm.
    exists (if noteworthy sig v d cd cm then emit (sig, IEvent (EvDesc v d))
       {| i_out := i_out i; i_data := assign_opt sig v cd; i_dom := assign_opt sig d cm; built := built i; pend := pend i |}
       else {| i_out := i_out i; i_data := assign_opt sig v cd; i_dom := assign_opt sig d cm; built := built i; pend := pend i |}).
    exists (assign_opt sig v cd), (assign_opt sig d cm), blt.
    split; [reflexivity|]. split; [|split].
    + cbn [out_of]. destruct (noteworthy sig v d cd cm); cbn [emit i_out]; auto. now rewrite app_nil_r.
    + cbn [next_seen].
      constructor; destruct (noteworthy sig v d cd cm); cbn [emit i_out i_data i_dom built pend]; auto.
      all: intros g; destruct v as [v|]; cbn [next_desc assign_opt]; [|rewrite <- Hcd; apply Hd].
      all: rewrite lookup_assign; unfold mem; cbn [existsb]; fold (mem g desc);
        destruct (Z.eqb_spec g sig); cbn [orb]; [split; [discriminate|auto]|rewrite <- Hcd; apply Hd].
    + cbn [direct out_of]. destruct v; reflexivity.
  - exists i, cd, cm, blt. cbn [ideal_step ideal_event out_of next_seen next_desc direct app].
    rewrite app_nil_r. split; [reflexivity|]. split; [reflexivity|]. split; [constructor; auto|reflexivity].
  - cbn [ideal_step out_of next_seen next_desc direct]. rewrite <- Hcd.
    destruct (lookup sig (i_data i)) as [desc0|] eqn:E.
    + assert (M : mem sig desc = true) by (apply Hd; congruence). rewrite M.
      destruct (ideal_data_direct sig p i desc0 Hp E) as (i' & E1 & E2 & E3 & E4 & E5 & E6).
      { intros d D. apply Hs. eapply HO; eauto. }
      assert (HK : match lookup (pid p) (built i) with
           | Some k => k
           | None => CP (pid p) (body p) desc0 (match dom p with Some d => lookup d (built i) | None => None end)
           end = match lookup (pid p) blt with
           | Some k => k
           | None => CP (pid p) (body p) desc0 (match dom p with Some d => lookup d blt | None => None end)
           end).
      { rewrite Hb. destruct (dom p); auto. now rewrite Hb. }
      rewrite HK in *. set (k := match lookup (pid p) blt with Some k => k | None => _ end) in *.
      exists i', (i_data i), cm, (assign (pid p) k blt).
      split; [exact E1|]. split; [exact E2|]. split.
      * constructor; auto.
        -- intros x [X|X]; rewrite E6; [subst; rewrite Z.eqb_refl; discriminate|].
           destruct (x =? pid p); [discriminate|auto].
        -- intros g. rewrite E4. apply Hd.
        -- congruence.
        -- intros x. rewrite E6, lookup_assign, Hb. reflexivity.
      * unfold k. reflexivity.
    + assert (M : mem sig desc = false).
      { destruct (mem sig desc) eqn:M; auto. apply Hd in M. congruence. }
      rewrite M. exists i, (i_data i), cm, blt. rewrite app_nil_r.
      split; [reflexivity|]. split; [reflexivity|]. split; [constructor; auto|reflexivity].
  - exists i, cd, cm, blt. cbn [ideal_step out_of next_seen next_desc direct app].
    rewrite app_nil_r. split; [reflexivity|]. split; [reflexivity|]. split; [constructor; auto|reflexivity].
  - exists i, cd, cm, blt. cbn [ideal_step out_of next_seen next_desc direct app].
    rewrite app_nil_r. split; [reflexivity|]. split; [reflexivity|]. split; [constructor; auto|reflexivity].
Qed.

Lemma df_run : forall ops seen desc i cd cm blt, DF seen desc i cd cm blt -> domain_first seen desc ops ->
  exists i', fold_opt ideal_step ops i = Some i' /\ i_out i' = i_out i ++ direct ops cd cm blt /\ pend i' = [].
Proof.
  induction ops as [|o r IH]; intros seen desc i cd cm blt HD HF.
  - exists i. cbn [direct]. rewrite app_nil_r. split; [reflexivity|]. split; [reflexivity|]. apply (d_pend _ _ _ _ _ _ HD).
  - destruct (df_step o r _ _ _ _ _ _ HD HF) as (i1 & cd1 & cm1 & b1 & E1 & O1 & D1 & R1).
    apply df_cons in HF. destruct HF as [HF _].
    destruct (IH _ _ _ _ _ _ D1 HF) as (i2 & E2 & O2 & P2).
    exists i2. cbn [fold_opt]. rewrite E1. split; [exact E2|]. split; [|exact P2].
    rewrite O2, O1, R1, app_assoc. reflexivity.
Qed.

Lemma DF_init : DF [] [] ideal_init [] [] [].
Proof. clear world. constructor; cbn; auto; try tauto. intros; split; congruence. Qed.

Lemma df_tight : forall thr ops dead desc alive seen s c i cd cm blt, SInv dead s c i -> valid world dead desc ops ->
  live_ok desc alive s -> DF seen desc i cd cm blt -> domain_first seen desc ops -> Tight (sent s) (ready s) c ->
  let (s', bs) := server_run thr s ops in
  forall c', client_run bs c = Some c' -> Tight (sent s') (ready s') c'.
Proof.
  intros thr. induction ops as [|o r IH]; intros dead desc alive seen s c i cd cm blt HI HV HL HD HF HT; cbn [server_run].
  - intros c' E. inversion E. now subst.
  - apply valid_cons in HV. destruct HV as [Hok HV].
    destruct (df_step o r _ _ _ _ _ _ HD HF) as (i1' & cd1 & cm1 & b1' & E1' & O1 & D1 & R1).
    apply df_cons in HF. destruct HF as [HF _].
    pose proof (step_sim thr dead desc alive s c i o HI Hok HL) as HSt.
    destruct (server_step thr s o) as [s1 b1].
    destruct HSt as (c1 & i1 & E1 & F1 & HI1 & HL1 & C1 & T1).
    rewrite E1' in F1. inversion F1; subst i1'.
    assert (HT1 : Tight (sent s1) (ready s1) c1).
    { apply T1; auto. destruct o as [h e|h p l|y|]; cbn [handover_ok]; auto. intros M.
      unfold handover_clear. destruct l; auto. intros w W E.
      pose proof (q_wait _ _ (v_q _ _ _ _ _ _ HI)) as QW. rewrite (d_pend _ _ _ _ _ _ HD) in QW.
      destruct (wait c); [destruct W|discriminate]. }
    specialize (IH _ _ _ _ _ _ _ _ _ _ HI1 HV HL1 D1 HF HT1).
    destruct (server_run thr s1 r) as [s2 b2].
    intros c' E. unfold client_run in *. rewrite fold_opt_app, E1 in E. auto.
Qed.
End World.

Lemma server_run_app : forall thr a b s,
  server_run thr s (a ++ b)
  = let (s1, x) := server_run thr s a in let (s2, y) := server_run thr s1 b in (s2, x ++ y).
Proof.
  induction a as [|o r IH]; intros b s; cbn [server_run app].
  - now destruct (server_run thr s b).
  - destruct (server_step thr s o) as [s1 x1]. rewrite IH. destruct (server_run thr s1 r) as [s2 x2].
    destruct (server_run thr s2 b). now rewrite app_assoc.
Qed.

Lemma flush_ready : forall thr s, ready (fst (checkAndSendReleasePacket thr true s)) = [].
Proof.
  intros thr s. unfold checkAndSendReleasePacket. cbv zeta. cbn [andb].
  destruct (ready s) as [|a l] eqn:E; cbn [length].
  - destruct (negb (0 <? 0)%nat && (0 <? thr)%nat); cbn [fst ready]; auto.
  - cbn [Nat.ltb Nat.leb negb andb fst ready]. reflexivity.
Qed.

Lemma valid_flush : forall world ops dead desc, valid world dead desc ops -> valid world dead desc (ops ++ [OFlush]).
Proof.
  induction ops as [|o r IH]; intros dead desc H; [cbn; auto|].
  destruct o as [g [[v|] d|n]|g p l|x|]; cbn [app valid] in *; intuition auto.
Qed.
Lemma live_flush : forall ops desc alive, live desc alive (ops ++ [OFlush]) = live desc alive ops.
Proof.
  induction ops as [|o r IH]; intros desc alive; [reflexivity|].
  cbn [app]. rewrite !live_cons. apply IH.
Qed.
Lemma plain_flush : forall ops seen desc, plain_handover seen desc ops -> plain_handover seen desc (ops ++ [OFlush]).
Proof.
  induction ops as [|o r IH]; intros seen desc H; [cbn; auto|].
  destruct o as [g [[v|] d|n]|g p l|x|]; cbn [app plain_handover] in *; auto.
  destruct (mem g desc); intuition auto.
Qed.
Lemma df_flush : forall ops seen desc, domain_first seen desc ops -> domain_first seen desc (ops ++ [OFlush]).
Proof.
  induction ops as [|o r IH]; intros seen desc H; [cbn; auto|].
  destruct o as [g [[v|] d|n]|g p l|x|]; cbn [app domain_first] in *; auto.
  destruct (mem g desc); intuition auto.
Qed.

(** *** Descriptor events of the ideal channel *)

Lemma heard_app : forall sig l1 l2 k, heard sig (l1 ++ l2) k = heard sig l2 (heard sig l1 k).
Proof.
  induction l1 as [|[g [[v d|n]|c]] l1 IH]; intros l2 k; cbn [app heard]; auto.
Qed.

Definition told (i : ideal) : Prop := forall sig, heard sig (i_out i) (None, None) = (lookup sig (i_data i), lookup sig (i_dom i)).

Lemma heard_extra : forall sig k' (l : list Z) k, heard sig (map (fun g => (g, IData k')) l) k = k.
Proof. induction l as [|g l IH]; intros k; cbn [map heard]; auto. Qed.

Lemma deliver_told : forall f sig p d i i' k, told i -> deliver f sig p d i = Some (i', k) ->
  told i' /\ i_data i' = i_data i /\ i_dom i' = i_dom i.
Proof.
  induction f as [|f IH]; intros sig p d i0 i1 k H E; [discriminate|].
  rewrite deliver_unfold in E. destruct (lookup sig (i_data i0)); [|discriminate]. cbv zeta in E.
  match type of E with option_map _ (fold_opt _ ?ws ?s) = _ => set (s1 := s) in E; set (wl := ws) in E end.
  assert (H1 : told s1). { intros g. unfold s1. cbn. rewrite heard_app. cbn [heard]. apply H. }
  assert (H2 : i_data s1 = i_data i0 /\ i_dom s1 = i_dom i0) by (split; reflexivity).
  destruct H2 as [H2 H3]. rewrite <- H2, <- H3. clear H2 H3 H.
  clearbody s1 wl. revert s1 H1 E. induction wl as [|w wl IHw]; intros s1 H1 E.
  - cbn in E. inversion E; subst. auto.
  - cbn [fold_opt] in E. unfold ideal_loop at 1 in E.
    destruct (deliver f (p_sig w) (p_pkt w) _ s1) as [[s2 k2]|] eqn:E2; [|discriminate].
    destruct (IH _ _ _ _ _ _ H1 E2) as (T2 & D2 & M2).
    rewrite emit_all in E. apply IHw in E.
    + cbn [i_data i_dom] in E. now rewrite D2, M2 in E.
    + intros g. cbn [i_out i_data i_dom]. rewrite heard_app, heard_extra. apply T2.
Qed.

Lemma step_told : forall i o i', told i -> ideal_step i o = Some i' -> told i' /\
  forall sig, (lookup sig (i_data i'), lookup sig (i_dom i')) = announced sig [o] (lookup sig (i_data i), lookup sig (i_dom i)).
Proof.
  intros j o j' H E1. destruct o as [sig [v d|m]|sig p l|x|]; cbn [ideal_step ideal_event announced] in *;
    try (inversion E1; subst; now split).
  - inversion E1; subst; clear E1.
    assert (A : forall g, (lookup g (assign_opt sig v (i_data j)), lookup g (assign_opt sig d (i_dom j)))
        = (if sig =? g then (later v (lookup g (i_data j)), later d (lookup g (i_dom j))) else (lookup g (i_data j), lookup g (i_dom j)))).
    { intros g. destruct v as [v|], d as [d|]; cbn [assign_opt later]; rewrite ?lookup_assign, ?(Z.eqb_sym g); destruct (sig =? g); reflexivity. }
    destruct (noteworthy sig v d (i_data j) (i_dom j)) eqn:N; (split; [|intros g; cbn [emit i_data i_dom fst snd]; apply A]);
      intros g; cbn [emit i_out i_data i_dom]; rewrite A.
    + rewrite heard_app. cbn [heard]. rewrite H. reflexivity.
    + rewrite H. unfold noteworthy, is_news, missing in N.
      destruct (Z.eqb_spec sig g) as [->|]; [|reflexivity].
      destruct v as [v|], d as [d|], (lookup g (i_data j)) as [a|], (lookup g (i_dom j)) as [b|]; cbn in N |- *; auto; try discriminate;
        repeat rewrite ?orb_true_r, ?orb_false_r in N; try discriminate;
        repeat match goal with |- context [Some ?x] => idtac end.
      * apply orb_false_iff in N. destruct N as [N1 N2]. apply negb_false_iff, Z.eqb_eq in N1. apply negb_false_iff, Z.eqb_eq in N2. congruence.
      * apply negb_false_iff, Z.eqb_eq in N. congruence.
      * apply negb_false_iff, Z.eqb_eq in N. congruence.
  - assert (G : told j' /\ i_data j' = i_data j /\ i_dom j' = i_dom j); [|destruct G as (? & -> & ->); auto].
    destruct (lookup sig (i_data j)); [|inversion E1; subst; auto].
    unfold ideal_data in E1. destruct (lookup (pid p) (built j)).
    + inversion E1; subst. split; [|auto]. intros g. cbn. rewrite heard_app. cbn [heard]. apply H.
    + destruct (existsb (is_pending (pid p)) (pend j)); [inversion E1; subst; auto|].
      destruct (dom p) as [d|].
      * destruct (lookup d (built j)) as [kk|].
        -- destruct (deliver _ sig p (Some kk) j) as [[j2 k2]|] eqn:ED; [|discriminate]. inversion E1; subst. eapply deliver_told; eauto.
        -- inversion E1; subst. auto.
      * destruct (deliver _ sig p None j) as [[j2 k2]|] eqn:ED; [|discriminate]. inversion E1; subst. eapply deliver_told; eauto.
Qed.

Lemma announced_cons : forall sig o r k, announced sig (o :: r) k = announced sig r (announced sig [o] k).
Proof. intros sig [g [v d|n]|g p l|x|] r k; reflexivity. Qed.

Lemma run_told : forall ops i i', told i -> fold_opt ideal_step ops i = Some i' -> told i' /\
  forall sig, (lookup sig (i_data i'), lookup sig (i_dom i')) = announced sig ops (lookup sig (i_data i), lookup sig (i_dom i)).
Proof.
  induction ops as [|o r IH]; intros i i' H E; cbn [fold_opt] in E; [inversion E; subst; auto|].
  destruct (ideal_step i o) as [i1|] eqn:E1; [|discriminate].
  destruct (step_told _ _ _ H E1) as [T A]. destruct (IH _ _ T E) as [T' A']. split; auto.
  intros sig. rewrite announced_cons, <- A. apply A'.
Qed.
