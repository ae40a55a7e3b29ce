From Verif Require Import Base Bytes Frame_Model.
From Verif Require Frame_Proofs.
From Verif Require Import PStr_Model Cache_Model Cache_Spec.
Local Open Scope Z_scope.

Lemma lookup_erase : forall {A} x y (l : list (Z * A)),
  lookup x (erase y l) = if x =? y then None else lookup x l.
Proof.
  induction l as [|[z a] l IH]; cbn [erase filter lookup fst].
  - now destruct (x =? y).
  - destruct (Z.eqb_spec z y) as [E|E]; cbn [negb].
    + subst z. fold (erase y l). rewrite IH. destruct (Z.eqb_spec x y) as [F|F]; auto.
      destruct (Z.eqb_spec y x); auto; lia.
    + cbn [lookup]. fold (erase y l). rewrite IH.
      destruct (Z.eqb_spec z x) as [F|F]; auto. subst z.
      destruct (Z.eqb_spec x y); auto; lia.
Qed.
Lemma lookup_assign : forall {A} x y a (l : list (Z * A)),
  lookup x (assign y a l) = if x =? y then Some a else lookup x l.
Proof.
  intros. unfold assign. cbn [lookup]. rewrite lookup_erase. rewrite (Z.eqb_sym y x). now destruct (x =? y).
Qed.
Fixpoint cnt (g : Z) (l : list buf) : Z :=
  match l with [] => 0 | b :: r => (if gid b =? g then 1 else 0) + cnt g r end.
Fixpoint siz (g : Z) (l : list buf) : Z :=
  match l with [] => 0 | b :: r => (if gid b =? g then bsize b else 0) + siz g r end.

Fixpoint ok (l : list buf) : Prop :=
  match l with
  | [] => True
  | b :: r => ok r /\ (gid b <> 0 -> match r with
                                     | [] => True
                                     | y :: _ => if gid y =? 0 then ~ In (gid b) (map gid r) else gid y = gid b
                                     end)
  end.

Record Inv (n : Z) (q : queue) : Prop := {
  i_groups : forall g, lookup g (groups q)
     = if (g =? 0) || (cnt g (items q) =? 0) then None
       else Some {| g_count := cnt g (items q); g_size := siz g (items q) |};
  i_nonc : nonc q = cnt 0 (items q);
  i_ok : ok (items q);
  i_small : forall b, In b (items q) -> cacheable b = small (cmax q) (msg_of b);
  i_wf : forall b, In b (items q) -> wf (msg_of b);
  i_le : forall b, In b (items q) -> 0 <= gid b <= cur q;
  i_last : forall b, last_item (items q) = Some b -> cacheable b = true -> gid b = cur q;
  i_cur : 0 <= cur q <= n
}.

Lemma cnt_nonneg : forall g l, 0 <= cnt g l.
Proof. induction l as [|b l IH]; cbn [cnt]; [lia|]. destruct (gid b =? g); lia. Qed.
Lemma cnt_app : forall g a b, cnt g (a ++ b) = cnt g a + cnt g b.
Proof. induction a as [|x a IH]; intros; cbn [cnt app]; [lia|]. rewrite IH. lia. Qed.
Lemma siz_app : forall g a b, siz g (a ++ b) = siz g a + siz g b.
Proof. induction a as [|x a IH]; intros; cbn [siz app]; [lia|]. rewrite IH. lia. Qed.
Lemma cnt_zero : forall g l, cnt g l = 0 <-> ~ In g (map gid l).
Proof.
  induction l as [|b l IH]; cbn [cnt map]; [cbn; tauto|]. cbn [In].
  pose proof (cnt_nonneg g l). destruct (Z.eqb_spec (gid b) g).
  - split; [lia|tauto].
  - rewrite Z.add_0_l, IH. tauto.
Qed.
Lemma cnt_all : forall g l, (forall b, In b l -> gid b = g) -> cnt g l = zlen l.
Proof.
  induction l as [|b l IH]; intros H; cbn [cnt]; [reflexivity|].
  rewrite (H b (or_introl eq_refl)), Z.eqb_refl, zlen_cons, IH; auto. intros; apply H; now right.
Qed.

Lemma bsize_eq : forall b, wf (msg_of b) -> bsize b = zlen (hdr b) + zlen (pay b).
Proof.
  intros b [H1 H2]. unfold bsize, w32. unfold msg_of in *. cbn [fst snd] in *.
  apply Z.mod_small. pose proof (zlen_nonneg (pay b)). lia.
Qed.
Lemma bsize_pos : forall b, wf (msg_of b) -> 0 < bsize b.
Proof.
  intros b H. rewrite bsize_eq; auto. destruct H as [H1 H2]. unfold msg_of in *. cbn [fst snd] in *.
  pose proof (zlen_nonneg (pay b)). lia.
Qed.
Lemma siz_pos : forall g l, (forall b, In b l -> wf (msg_of b)) -> 0 <= siz g l /\ (0 < cnt g l -> 0 < siz g l).
Proof.
  induction l as [|b l IH]; intros H; cbn [cnt siz]; [lia|].
  destruct IH as [I1 I2]; [intros; apply H; now right|].
  pose proof (bsize_pos b (H b (or_introl eq_refl))). destruct (gid b =? g); lia.
Qed.

Lemma last_item_snoc : forall l b, last_item (l ++ [b]) = Some b.
Proof. intros. unfold last_item. rewrite rev_app_distr. reflexivity. Qed.
Lemma last_item_some : forall l b, last_item l = Some b -> exists r, l = r ++ [b].
Proof.
  intros l b H. unfold last_item in H. destruct (rev l) as [|x r] eqn:E; [discriminate|]. inversion H; subst.
  exists (rev r). rewrite <- (rev_involutive l), E. reflexivity.
Qed.
Lemma last_item_none : forall l, last_item l = None -> l = [].
Proof.
  intros l H. unfold last_item in H. destruct (rev l) eqn:E; [|discriminate].
  rewrite <- (rev_involutive l), E. reflexivity.
Qed.
Lemma last_item_tail : forall b r x, last_item (b :: r) = Some x -> r <> [] -> last_item r = Some x.
Proof.
  intros b r x H N. apply last_item_some in H. destruct H as (l & E).
  destruct l as [|y l]; cbn [app] in E; inversion E; subst; [congruence|]. apply last_item_snoc.
Qed.

(** ** Popping *)

Lemma next_ok : forall n q b r, Inv n q -> items q = b :: r ->
  exists q', getNextPacketBuffer q = Done (Some (b, q')) /\ items q' = r /\ cmax q' = cmax q /\ cur q' = cur q /\ Inv n q'.
Proof.
  intros n q b r HI E. destruct HI as [Hg Hn Ho Hs Hw Hl Hla Hc].
  unfold getNextPacketBuffer. rewrite E in *.
  assert (Hwb : wf (msg_of b)) by (apply Hw; now left).
  assert (Hwr : forall x, In x r -> wf (msg_of x)) by (intros; apply Hw; now right).
  pose proof (bsize_pos b Hwb) as Hbp.
  assert (Hla' : forall x, last_item r = Some x -> cacheable x = true -> gid x = cur q).
  { intros x X C. destruct r as [|y r']; [discriminate|]. apply Hla; auto.
    apply last_item_some in X. destruct X as (l & X). rewrite X. change (b :: l ++ [x]) with ((b :: l) ++ [x]). apply last_item_snoc. }
  cbn [ok] in Ho. destruct Ho as [Hor Hob].
  destruct (cacheable b) eqn:C.
  - unfold cacheable in C. apply negb_true_iff in C. pose proof C as C0. apply Z.eqb_neq in C0.
    pose proof (Hg (gid b)) as G. rewrite C in G. cbn [orb cnt siz] in G. rewrite Z.eqb_refl in G.
    pose proof (cnt_nonneg (gid b) r) as P.
    destruct (Z.eqb_spec (1 + cnt (gid b) r) 0) as [F|_]; [lia|]. rewrite G. cbn [g_count g_size].
    destruct (Z.eqb_spec (1 + cnt (gid b) r) 0) as [F|_]; [lia|].
    destruct (siz_pos (gid b) r Hwr) as [S1 S2].
    destruct (Z.ltb_spec (bsize b + siz (gid b) r) (bsize b)) as [F|_]; [lia|].
    replace (1 + cnt (gid b) r - 1) with (cnt (gid b) r) by lia.
    replace (bsize b + siz (gid b) r - bsize b) with (siz (gid b) r) by lia.
    assert (Hz : (siz (gid b) r =? 0) = (cnt (gid b) r =? 0)).
    { destruct (Z.eqb_spec (cnt (gid b) r) 0) as [F|F].
      - apply Z.eqb_eq. clear - F. induction r as [|x r IH]; auto. cbn [cnt siz] in *. pose proof (cnt_nonneg (gid b) r).
        destruct (gid x =? gid b); [lia|]. rewrite IH; lia.
      - apply Z.eqb_neq. lia. }
    rewrite Hz, orb_diag, andb_diag.
    assert (FIN : forall gs, (forall g, lookup g gs = if (g =? 0) || (cnt g r =? 0) then None
                else Some {| g_count := cnt g r; g_size := siz g r |}) ->
        Inv n {| items := r; groups := gs; cur := cur q; nonc := nonc q; cmax := cmax q |}).
    { intros gs Hgs. constructor; cbn [items groups cur nonc cmax]; auto.
      - rewrite Hn. cbn [cnt]. rewrite C. lia.
      - intros x X. apply Hs. now right.
      - intros x X. apply Hl. now right. }
    destruct (Z.eqb_spec (cnt (gid b) r) 0) as [F|F].
    + eexists. split; [reflexivity|]. split; [reflexivity|]. split; [reflexivity|]. split; [reflexivity|]. apply FIN.
      intros g. rewrite lookup_erase. destruct (Z.eqb_spec g (gid b)) as [K|K].
      * subst g. rewrite F, Z.eqb_refl, orb_true_r. reflexivity.
      * rewrite Hg. cbn [cnt siz]. replace (gid b =? g) with false by (symmetry; apply Z.eqb_neq; lia). reflexivity.
    + eexists. split; [reflexivity|]. split; [reflexivity|]. split; [reflexivity|]. split; [reflexivity|]. apply FIN.
      intros g. rewrite lookup_assign. destruct (Z.eqb_spec g (gid b)) as [K|K].
      * subst g. rewrite C. apply Z.eqb_neq in F. rewrite F. reflexivity.
      * rewrite Hg. cbn [cnt siz]. replace (gid b =? g) with false by (symmetry; apply Z.eqb_neq; lia). reflexivity.
  - unfold cacheable in C. apply negb_false_iff in C.
    cbn [cnt] in Hn. rewrite C in Hn. pose proof (cnt_nonneg 0 r).
    destruct (Z.eqb_spec (nonc q) 0) as [F|_]; [lia|].
    eexists. split; [reflexivity|]. split; [reflexivity|]. split; [reflexivity|]. split; [reflexivity|].
    constructor; cbn [items groups cur nonc cmax]; auto; try lia.
    + intros g. rewrite Hg. cbn [cnt siz]. apply Z.eqb_eq in C. destruct (Z.eqb_spec g 0) as [K|K]; [reflexivity|].
      cbn [orb]. replace (gid b =? g) with false by (symmetry; apply Z.eqb_neq; lia). reflexivity.
    + intros x X. apply Hs. now right.
    + intros x X. apply Hl. now right.
Qed.

(** ** Queuing *)

Lemma ok_snoc_non : forall l b, ok l -> gid b = 0 -> ok (l ++ [b]).
Proof.
  induction l as [|x l IH]; intros b H E; cbn [app ok] in *.
  - split; auto.
  - destruct H as [H1 H2]. split; auto. intros N. specialize (H2 N). destruct l as [|y l].
    + cbn [app map]. rewrite E. cbn. intros [F|[]]; lia.
    + cbn [app] in *. destruct (gid y =? 0); auto. cbn [map] in *. rewrite map_app. intros [F|F]; [apply H2; now left|].
      apply in_app_or in F. destruct F as [F|[F|[]]]; [apply H2; now right|congruence].
Qed.

Lemma ok_snoc_cache : forall l b, ok l -> gid b <> 0 -> (forall x, In x l -> gid x <= gid b) ->
  (forall x, last_item l = Some x -> if cacheable x then gid x = gid b else (forall y, In y l -> gid y < gid b)) ->
  ok (l ++ [b]).
Proof.
  induction l as [|x l IH]; intros b H N L HL; cbn [app ok] in *.
  - split; auto.
  - destruct H as [H1 H2]. split.
    + apply IH; auto; [intros y Y; apply L; now right|]. intros y Y. destruct l as [|z l']; [discriminate|].
      assert (Y' : last_item (x :: z :: l') = Some y).
      { apply last_item_some in Y. destruct Y as (k & Y). rewrite Y. change (x :: k ++ [y]) with ((x :: k) ++ [y]). apply last_item_snoc. }
      specialize (HL y Y'). destruct (cacheable y); auto. intros u U. apply HL. now right.
    + intros Nx. specialize (H2 Nx). destruct l as [|y l].
      * cbn [app]. assert (E : last_item [x] = Some x) by reflexivity. specialize (HL x E).
        unfold cacheable in HL. apply Z.eqb_neq in Nx. rewrite Nx in HL. cbn [negb] in HL.
        destruct (Z.eqb_spec (gid b) 0) as [K|K]; [contradiction|now symmetry].
      * cbn [app] in *. destruct (gid y =? 0) eqn:EY; auto.
        intros F. change (y :: l ++ [b]) with ((y :: l) ++ [b]) in F. rewrite map_app in F. apply in_app_or in F.
        destruct F as [F|[F|[]]]; [auto|].
        destruct (last_item (x :: y :: l)) as [z|] eqn:EZ; [|apply last_item_none in EZ; discriminate].
        specialize (HL z eq_refl). destruct (cacheable z).
        -- apply H2. rewrite <- F, <- HL. apply last_item_tail in EZ; [|discriminate].
           apply last_item_some in EZ. destruct EZ as (k & EZ). rewrite EZ, map_app. apply in_or_app. right. now left.
        -- specialize (HL x (or_introl eq_refl)). lia.
Qed.

Lemma add_ok : forall n q h p, Inv n q -> n + 2 < two64 -> wf (h, p) ->
  exists q' b, add h p q = Done q' /\ items q' = items q ++ [b] /\ msg_of b = (h, p) /\ cmax q' = cmax q /\ Inv (n + 1) q'.
Proof.
  intros n q h p HI Hb W. pose proof HI as [Hg Hn Ho Hs Hw Hl Hla Hc].
  assert (GID : exists g c, getPacketCacheableGroupId (zlen p) q = Done (g, c) /\ 0 <= c <= n + 1 /\ 0 <= g <= c
     /\ (forall x, In x (items q) -> gid x <= c)
     /\ negb (g =? 0) = (zlen p <=? cmax q)
     /\ (g <> 0 -> g = c /\ forall x, last_item (items q) = Some x -> if cacheable x then gid x = g else (forall y, In y (items q) -> gid y < g))
     ).
  { unfold getPacketCacheableGroupId. destruct (zlen p <=? cmax q) eqn:M.
    - destruct (last_item (items q)) as [x|] eqn:E.
      + assert (X : In x (items q)).
        { apply last_item_some in E. destruct E as (k & E). rewrite E. apply in_or_app. right. now left. }
        destruct (cacheable x) eqn:C.
        * pose proof (Hla x eq_refl C) as HX. pose proof (Hl x X).
          unfold cacheable in C. apply negb_true_iff in C. apply Z.eqb_neq in C.
          destruct (Z.eqb_spec (cur q) 0); [lia|].
          exists (cur q), (cur q). split; [reflexivity|]. split; [lia|]. split; [lia|].
          split; [intros y Y; apply (Hl y Y)|]. split.
          -- apply negb_true_iff. now apply Z.eqb_neq.
          -- intros _. split; auto. intros z Z. inversion Z; subst z. unfold cacheable. apply Z.eqb_neq in C. rewrite C. exact HX.
        * rewrite (w64_small (cur q + 1)) by lia. destruct (Z.eqb_spec (cur q + 1) 0); [lia|].
          exists (cur q + 1), (cur q + 1). split; [reflexivity|]. split; [lia|]. split; [lia|].
          split; [intros y Y; pose proof (Hl y Y); lia|]. split.
          -- apply negb_true_iff. apply Z.eqb_neq. lia.
          -- intros _. split; auto. intros z Z. inversion Z; subst z. rewrite C. intros y Y. pose proof (Hl y Y). lia.
      + pose proof (last_item_none _ E) as E0.
        assert (GE : groups q = []).
        { destruct (groups q) as [|[g v] gs] eqn:EG; auto. specialize (Hg g). rewrite E0 in Hg. cbn [cnt] in Hg.
          rewrite Z.eqb_refl, orb_true_r in Hg. cbn [lookup] in Hg. rewrite Z.eqb_refl in Hg. discriminate. }
        rewrite GE. exists 1, 1. split; [reflexivity|]. split; [lia|]. split; [lia|].
        split; [rewrite E0; intros y []|]. split; [reflexivity|]. intros _. split; auto. intros z Z. discriminate.
    - exists 0, (cur q). split; [reflexivity|]. split; [lia|]. split; [lia|].
      split; [intros y Y; apply (Hl y Y)|]. split; [reflexivity|]. congruence. }
  destruct GID as (g & c & E & Hc' & Hgc & Hle & Hsm & Hlast).
  unfold add. rewrite E. set (b := {| hdr := h; pay := p; gid := g |}).
  eexists. exists b. split; [reflexivity|].
  unfold queuePacketBuffer. cbn [items groups cur nonc cmax]. change (gid b) with g. change (cacheable b) with (negb (g =? 0)).
  assert (COMMON : forall gs nn, (forall k, lookup k gs
     = if (k =? 0) || (cnt k (items q ++ [b]) =? 0) then None
       else Some {| g_count := cnt k (items q ++ [b]); g_size := siz k (items q ++ [b]) |}) ->
     nn = cnt 0 (items q ++ [b]) -> ok (items q ++ [b]) ->
     Inv (n + 1) {| items := items q ++ [b]; groups := gs; cur := c; nonc := nn; cmax := cmax q |}).
  { intros gs nn A B D. constructor; cbn [items groups cur nonc cmax]; auto.
    - intros x X. apply in_app_or in X. destruct X as [X|[X|[]]]; auto. subst x. exact Hsm.
    - intros x X. apply in_app_or in X. destruct X as [X|[X|[]]]; auto. subst x. exact W.
    - intros x X. apply in_app_or in X. destruct X as [X|[X|[]]].
      + split; [apply (Hl x X)|auto].
      + subst x. exact Hgc.
    - intros x X C. rewrite last_item_snoc in X. inversion X; subst x. unfold cacheable in C. change (gid b) with g in *.
      apply negb_true_iff, Z.eqb_neq in C. apply Hlast; auto. }
  destruct (Z.eqb_spec g 0) as [G|G]; cbn [negb].
  - split; [reflexivity|]. split; [reflexivity|]. split; [reflexivity|]. apply COMMON.
    + intros k. rewrite Hg, cnt_app, siz_app. cbn [cnt siz]. change (gid b) with g. subst g.
      destruct (Z.eqb_spec k 0) as [K|K]; [reflexivity|]. cbn [orb].
      replace (0 =? k) with false by (symmetry; apply Z.eqb_neq; lia). rewrite !Z.add_0_r. reflexivity.
    + rewrite cnt_app. cbn [cnt]. change (gid b) with g. subst g. rewrite Hn, Z.eqb_refl. lia.
    + apply ok_snoc_non; auto.
  - split; [reflexivity|]. split; [reflexivity|]. split; [reflexivity|]. destruct (Hlast G) as [Hgc2 Hlast2]. apply COMMON.
    + intros k. rewrite lookup_assign, cnt_app, siz_app. cbn [cnt siz]. change (gid b) with g.
      pose proof (cnt_nonneg g (items q)).
      destruct (Z.eqb_spec k g) as [K|K].
      * subst k. rewrite Hg, Z.eqb_refl. rewrite !Z.add_0_r.
        replace (g =? 0) with false by (symmetry; apply Z.eqb_neq; lia). cbn [orb].
        destruct (Z.eqb_spec (cnt g (items q)) 0) as [F|F]; cbn [g_count g_size].
        -- rewrite F. assert (siz g (items q) = 0) as ->.
           { clear - F. induction (items q) as [|x l IH]; auto. cbn [cnt siz] in *. pose proof (cnt_nonneg g l).
             destruct (gid x =? g); [lia|]. rewrite IH; lia. }
           reflexivity.
        -- destruct (Z.eqb_spec (cnt g (items q) + 1) 0); [lia|]. reflexivity.
      * replace (g =? k) with false by (symmetry; apply Z.eqb_neq; lia). rewrite !Z.add_0_r. apply Hg.
    + rewrite cnt_app. cbn [cnt]. change (gid b) with g. rewrite Hn.
      replace (g =? 0) with false by (symmetry; apply Z.eqb_neq; lia). lia.
    + apply ok_snoc_cache; auto. intros x X. change (gid b) with g. rewrite Hgc2. auto.
Qed.

(** ** Writing a batch *)

Lemma blit_app : forall a v x y pos, pos = zlen a -> length v = length x ->
  blit (a ++ v ++ y) pos x = a ++ x ++ y.
Proof.
  intros a v x y pos Hp Hl. subst pos. unfold blit, zlen. rewrite Nat2Z.id.
  rewrite firstn_app, firstn_all, Nat.sub_diag. cbn [firstn]. rewrite app_nil_r. f_equal. f_equal.
  rewrite app_assoc. rewrite skipn_app. rewrite app_length, Hl, Nat.sub_diag. cbn [skipn].
  rewrite skipn_all2; [reflexivity|]. rewrite app_length. lia.
Qed.

Lemma headers_ok : forall b, wf (msg_of b) -> fits (msg_of b) -> headers b = Done (head_task (msg_of b)).
Proof.
  intros b W F. unfold headers. rewrite bsize_eq by exact W. unfold fits, MAX_PAYLOAD_SIZE, PAYLOAD_SIZE_MASK in *.
  destruct W as [W1 W2]. unfold msg_of in *. cbn [fst snd] in *. pose proof (zlen_nonneg (pay b)).
  destruct (Z.gtb_spec (zlen (hdr b) + zlen (pay b)) 268435455); [lia|].
  unfold head_task, write_header, tPacket. cbn [fst snd]. rewrite Frame_Proofs.pack_eq by lia.
  change (1 mod 16) with 1. rewrite Z.mod_small by lia. rewrite Z.add_comm. reflexivity.
Qed.

Lemma headers_cases : forall b, wf (msg_of b) ->
  (fits (msg_of b) /\ headers b = Done (head_task (msg_of b))) \/ (~ fits (msg_of b) /\ headers b = TooBig).
Proof.
  intros b W. destruct (Z_le_gt_dec (zlen (hdr b) + zlen (pay b)) 268435455) as [L|G].
  - left. split; [exact L|]. apply headers_ok; auto.
  - right. split; [unfold fits, msg_of; cbn [fst snd]; lia|]. unfold headers. rewrite bsize_eq by exact W.
    unfold MAX_PAYLOAD_SIZE, PAYLOAD_SIZE_MASK. destruct (Z.gtb_spec (zlen (hdr b) + zlen (pay b)) 268435455); [reflexivity|lia].
Qed.

Lemma frame_head : forall m, frame m = head_task m ++ snd m.
Proof. intros [h p]. unfold frame, head_task. cbn [fst snd]. now rewrite <- app_assoc. Qed.
Lemma head_task_len : forall m, zlen (head_task m) = 4 + zlen (fst m).
Proof. intros m. unfold head_task. rewrite zlen_app, le_zlen. reflexivity. Qed.
Lemma frame_len : forall m, zlen (frame m) = 4 + zlen (fst m) + zlen (snd m).
Proof. intros. rewrite frame_head, zlen_app, head_task_len. reflexivity. Qed.

Definition frames (l : list buf) : list Z := stream (map msg_of l).
Lemma frames_cons : forall b l, frames (b :: l) = frame (msg_of b) ++ frames l.
Proof. reflexivity. Qed.

Lemma split_zlen : forall (v : list Z) n, 0 <= n <= zlen v ->
  exists a c, v = a ++ c /\ zlen a = n.
Proof.
  intros v n H. exists (firstn (Z.to_nat n) v), (skipn (Z.to_nat n) v). split; [now rewrite firstn_skipn|].
  unfold zlen in *. rewrite firstn_length_le; lia.
Qed.

Lemma zlen_length : forall (a b : list Z), zlen a = zlen b -> length a = length b.
Proof. unfold zlen. intros. lia. Qed.

Lemma copy_ok : forall l1 n g size q v done pos l2, Inv n q -> items q = l1 ++ l2 ->
  (forall b, In b l1 -> gid b = g) ->
  pos = zlen done -> zlen v = zlen (frames l1) -> size = zlen (done ++ v) ->
  exists q', cmax q' = cmax q /\ Inv n q' /\
   ((copy_loop (length l1) g size q (done ++ v) pos = (q', Done (done ++ frames l1, size)) /\ items q' = l2)
    \/ (copy_loop (length l1) g size q (done ++ v) pos = (q', TooBig) /\ exists x, In x l1 /\ ~ fits (msg_of x))).
Proof.
  induction l1 as [|b l1 IH]; intros n g size q v done pos l2 HI E Hb Hp Hv Hs; cbn [length copy_loop].
  - exists q. split; [reflexivity|]. split; [exact HI|]. left. change (frames []) with (@nil Z) in *. rewrite (@zlen_nil Z) in Hv.
    destruct v as [|x v]; [|rewrite zlen_cons in Hv; pose proof (zlen_nonneg v); lia].
    rewrite !app_nil_r in *. subst. split; [reflexivity|]. exact E.
  - cbn [app] in E. destruct (next_ok n q b (l1 ++ l2) HI E) as (q' & E1 & E2 & E3 & E3' & HI').
    rewrite E1. pose proof (Hb b (or_introl eq_refl)) as G. rewrite G, Z.eqb_refl. cbn [negb].
    assert (W : wf (msg_of b)). { apply (i_wf _ _ HI). rewrite E. now left. }
    rewrite frames_cons, zlen_app, frame_len in Hv. change (fst (msg_of b)) with (hdr b) in Hv. change (snd (msg_of b)) with (pay b) in Hv.
    pose proof (zlen_nonneg (frames l1)) as P1. pose proof (zlen_nonneg (hdr b)) as P2. pose proof (zlen_nonneg (pay b)) as P3.
    unfold PACKED. rewrite zlen_app in Hs.
    destruct (Z.ltb_spec size (pos + 4 + zlen (hdr b) + zlen (pay b))) as [K|K]; [lia|].
    destruct (headers_cases b W) as [[F HH]|[F HH]]; rewrite HH.
    2:{ exists q'. split; [exact E3|]. split; [exact HI'|]. right. split; [reflexivity|]. exists b. split; [now left|exact F]. }
    destruct (split_zlen v (4 + zlen (hdr b))) as (va & vr & V1 & V2); [lia|].
    assert (V3 : zlen vr = zlen (pay b) + zlen (frames l1)) by (rewrite V1, zlen_app in Hv; lia).
    destruct (split_zlen vr (zlen (pay b))) as (vb & vc & V4 & V5); [lia|].
    assert (V6 : zlen vc = zlen (frames l1)) by (rewrite V4, zlen_app in V3; lia).
    assert (B1 : blit (done ++ v) pos (head_task (msg_of b)) = (done ++ head_task (msg_of b)) ++ vr).
    { rewrite V1, (blit_app done va _ vr pos Hp); [now rewrite <- app_assoc|].
      apply zlen_length. rewrite V2, head_task_len. reflexivity. }
    rewrite B1.
    assert (B2 : (if zlen (pay b) >? 0 then blit ((done ++ head_task (msg_of b)) ++ vr) (pos + 4 + zlen (hdr b)) (pay b)
                  else (done ++ head_task (msg_of b)) ++ vr) = (done ++ frame (msg_of b)) ++ vc).
    { assert (X : (done ++ head_task (msg_of b)) ++ pay b ++ vc = (done ++ frame (msg_of b)) ++ vc).
      { rewrite frame_head. change (snd (msg_of b)) with (pay b). now rewrite !app_assoc. }
      rewrite <- X. rewrite V4. destruct (Z.gtb_spec (zlen (pay b)) 0) as [Y|Y].
      - apply blit_app; [rewrite zlen_app, head_task_len; change (fst (msg_of b)) with (hdr b); lia|].
        now apply zlen_length.
      - destruct vb as [|z vb]; [|rewrite zlen_cons in V5; pose proof (zlen_nonneg vb); lia].
        destruct (pay b) as [|z pb]; [reflexivity|rewrite zlen_cons in Y; pose proof (zlen_nonneg pb); lia]. }
    rewrite B2.
    destruct (IH n g size q' vc (done ++ frame (msg_of b)) (pos + 4 + zlen (hdr b) + zlen (pay b)) l2 HI' E2) as (q2 & C3 & C4 & C).
    + intros x X. apply Hb. now right.
    + rewrite zlen_app, frame_len. change (fst (msg_of b)) with (hdr b). change (snd (msg_of b)) with (pay b). lia.
    + exact V6.
    + rewrite !zlen_app, frame_len. change (fst (msg_of b)) with (hdr b). change (snd (msg_of b)) with (pay b). lia.
    + exists q2. split; [congruence|]. split; [auto|]. destruct C as [[C1 C2]|[C1 (x & X1 & X2)]].
      * left. rewrite C1. split; [now rewrite frames_cons, <- app_assoc|auto].
      * right. rewrite C1. split; [reflexivity|]. exists x. split; [now right|auto].
Qed.

(** The run of a group is a prefix of the queue. *)
Lemma group_prefix : forall l b r, ok l -> l = b :: r -> gid b <> 0 ->
  exists l1 l2, l = l1 ++ l2 /\ l1 <> [] /\ (forall x, In x l1 -> gid x = gid b) /\ ~ In (gid b) (map gid l2)
    /\ match l2 with [] => True | y :: _ => gid y = 0 end.
Proof.
  induction l as [|x l IH]; intros b r H E N; [discriminate|]. inversion E; subst x l. clear E.
  cbn [ok] in H. destruct H as [H1 H2]. specialize (H2 N). destruct r as [|y r].
  - exists [b], []. repeat split; auto; try discriminate. intros x [X|[]]; congruence.
  - destruct (gid y =? 0) eqn:Y.
    + exists [b], (y :: r). repeat split; auto; try discriminate.
      * intros x [X|[]]; congruence.
      * now apply Z.eqb_eq.
    + destruct (IH y r H1 eq_refl) as (l1 & l2 & A & B & C & D & F); [congruence|].
      exists (b :: l1), l2. rewrite A. repeat split; auto; try discriminate.
      * intros x [X|X]; [congruence|]. rewrite (C x X). exact H2.
      * rewrite <- H2. exact D.
Qed.

Lemma cnt_other : forall g l, ~ In g (map gid l) -> cnt g l = 0 /\ siz g l = 0.
Proof.
  induction l as [|x l IH]; intros H; cbn [cnt siz map] in *; [auto|].
  destruct IH as [A B]; [intro; apply H; now right|]. destruct (Z.eqb_spec (gid x) g) as [F|F]; [exfalso; apply H; now left|].
  lia.
Qed.
Lemma siz_all : forall g l, (forall b, In b l -> gid b = g /\ wf (msg_of b)) -> siz g l = zlen (frames l) - 4 * zlen l.
Proof.
  induction l as [|b l IH]; intros H; [reflexivity|]. cbn [siz]. destruct (H b (or_introl eq_refl)) as [G W].
  rewrite G, Z.eqb_refl, IH by (intros; apply H; now right). rewrite frames_cons, zlen_app, frame_len, zlen_cons, bsize_eq by exact W.
  change (fst (msg_of b)) with (hdr b). change (snd (msg_of b)) with (pay b). lia.
Qed.

Lemma cache_ok : forall n q b r, Inv n q -> items q = b :: r -> cacheable b = true ->
  exists q', cmax q' = cmax q /\ Inv n q' /\
   ((exists l1 l2, items q = l1 ++ l2 /\ l1 <> [] /\ (forall x, In x l1 -> cacheable x = true)
    /\ match l2 with [] => True | y :: _ => cacheable y = false end
    /\ cachePacketsToLinearBuffer (gid b) q = (q', Done (frames l1)) /\ items q' = l2)
   \/ (cachePacketsToLinearBuffer (gid b) q = (q', TooBig) /\ exists x, In x (items q) /\ ~ fits (msg_of x))).
Proof.
  intros n q b r HI E C.
  assert (N : gid b <> 0) by (unfold cacheable in C; apply negb_true_iff in C; now apply Z.eqb_neq).
  destruct (group_prefix (items q) b r (i_ok _ _ HI) E N) as (l1 & l2 & A & B & D & F & G).
  assert (CNT : cnt (gid b) (items q) = zlen l1).
  { rewrite A, cnt_app, (cnt_all (gid b) l1 D), (proj1 (cnt_other (gid b) l2 F)). lia. }
  assert (SIZ : siz (gid b) (items q) = zlen (frames l1) - 4 * zlen l1).
  { rewrite A, siz_app, (siz_all (gid b) l1), (proj2 (cnt_other (gid b) l2 F)); [lia|].
    intros x X. split; [auto|]. apply (i_wf _ _ HI). rewrite A. apply in_or_app. auto. }
  assert (LEN : 0 < zlen l1) by (destruct l1; [congruence|]; rewrite zlen_cons; pose proof (zlen_nonneg l1); lia).
  assert (LK : lookup (gid b) (groups q) = Some {| g_count := zlen l1; g_size := zlen (frames l1) - 4 * zlen l1 |}).
  { rewrite (i_groups _ _ HI), CNT, SIZ. apply Z.eqb_neq in N. rewrite N. destruct (Z.eqb_spec (zlen l1) 0); [lia|reflexivity]. }
  unfold cachePacketsToLinearBuffer, getCountOfCacheableBuffers, getSizeOfCacheableBuffers. rewrite LK. cbn [g_count g_size].
  unfold PACKED. replace (4 * zlen l1 + (zlen (frames l1) - 4 * zlen l1)) with (zlen (frames l1)) by lia.
  assert (Z.ltb (zlen (items q)) (zlen l1) = false) as ->.
  { apply Z.ltb_ge. rewrite A, zlen_app. pose proof (zlen_nonneg l2). lia. }
  replace (Z.to_nat (zlen l1)) with (length l1) by (unfold zlen; lia).
  assert (RL : zlen (repeat 0 (Z.to_nat (zlen (frames l1)))) = zlen (frames l1)).
  { unfold zlen. rewrite repeat_length. lia. }
  destruct (copy_ok l1 n (gid b) (zlen (frames l1)) q (repeat 0 (Z.to_nat (zlen (frames l1)))) [] 0 l2 HI A) as (q' & E3 & E4 & EE).
  - exact D.
  - reflexivity.
  - exact RL.
  - cbn [app]. now rewrite RL.
  - exists q'. split; [exact E3|]. split; [exact E4|]. cbn [app] in EE. destruct EE as [[E1 E2]|[E1 (x & X1 & X2)]].
    + left. rewrite E1. rewrite Z.eqb_refl. cbn [negb].
      exists l1, l2. split; [auto|]. split; [auto|]. split.
      * intros x X. unfold cacheable. rewrite (D x X). apply negb_true_iff. now apply Z.eqb_neq.
      * split; [|auto]. destruct l2; auto. unfold cacheable. rewrite G. reflexivity.
    + right. rewrite E1. split; [reflexivity|]. exists x. split; auto. rewrite A. apply in_or_app. auto.
Qed.

Lemma batch_run : forall max l1 l2, l1 <> [] -> (forall x, In x l1 -> small max x = true) ->
  match l2 with [] => True | y :: _ => small max y = false end ->
  batch max (l1 ++ l2) = stream l1 :: batch max l2.
Proof.
  intros max. induction l1 as [|m l1 IH]; intros l2 N H G; [congruence|].
  cbn [app batch]. rewrite (H m (or_introl eq_refl)). destruct l1 as [|m' l1].
  - cbn [app]. unfold stream. cbn [map concat]. rewrite app_nil_r. destruct l2 as [|y l2]; [reflexivity|]. now rewrite G.
  - cbn [app]. rewrite (H m' (or_intror (or_introl eq_refl))).
    assert (IH' := IH l2 ltac:(discriminate) (fun x X => H x (or_intror X)) G). cbn [app] in IH'. rewrite IH'. reflexivity.
Qed.

Lemma write_ok : forall fuel n q acc, Inv n q -> (length (items q) <= fuel)%nat ->
  exists q', cmax q' = cmax q /\ Inv n q' /\
   ((write_tasks fuel q acc = (q', Done (acc ++ batch (cmax q) (map msg_of (items q)))) /\ items q' = [])
   \/ (write_tasks fuel q acc = (q', TooBig) /\ exists x, In x (items q) /\ ~ fits (msg_of x))).
Proof.
  induction fuel as [|f IH]; intros n q acc HI L.
  - exists q. split; [reflexivity|]. split; [exact HI|]. left.
    destruct (items q) eqn:E; [|cbn in L; lia]. unfold write_tasks. rewrite E.
    cbn [map batch]. rewrite app_nil_r. split; auto.
  - cbn [write_tasks]. destruct (items q) as [|b r] eqn:E.
    { exists q. cbn [map batch]. rewrite app_nil_r. split; [reflexivity|]. split; [exact HI|]. left. split; auto. }
    destruct (cacheable b) eqn:C.
    + destruct (cache_ok n q b r HI E C) as (q' & E3 & HI' & EE).
      destruct EE as [(l1 & l2 & A & B & D & G & E1 & E2)|[E1 EX]].
      2:{ exists q'. split; [exact E3|]. split; [exact HI'|]. right. rewrite E1. rewrite <- E. auto. }
      rewrite E1. destruct (IH n q' (acc ++ [frames l1]) HI') as (q2 & F3 & F4 & FF).
      { rewrite E2. rewrite <- E, A, app_length in L. destruct l1; [congruence|]. cbn [length] in L. lia. }
      exists q2. split; [congruence|]. split; [auto|]. rewrite <- E, A, map_app, batch_run.
      * destruct FF as [[F1 F2]|[F1 (x & X1 & X2)]].
        -- left. rewrite F1, <- app_assoc, E2, E3. split; auto.
        -- right. split; [exact F1|]. exists x. split; auto. apply in_or_app. right. now rewrite <- E2.
      * destruct l1; [congruence|discriminate].
      * intros x X. apply in_map_iff in X. destruct X as (y & Y1 & Y2). subst x. rewrite <- (i_small _ _ HI); auto.
        rewrite A. apply in_or_app. auto.
      * destruct l2 as [|y l2]; cbn [map]; auto. rewrite <- (i_small _ _ HI); auto. rewrite A. apply in_or_app. right. now left.
    + destruct (next_ok n q b r HI E) as (q' & E1 & E2 & E3 & E4 & HI'). rewrite E1.
      assert (W : wf (msg_of b)). { apply (i_wf _ _ HI). rewrite E. now left. }
      unfold createTasks. destruct (headers_cases b W) as [[F HH]|[F HH]]; rewrite HH.
      2:{ exists q'. split; [exact E3|]. split; [exact HI'|]. right. split; [reflexivity|]. exists b. split; [now left|auto]. }
      destruct (IH n q' (acc ++ head_task (msg_of b) :: (if zlen (pay b) >? 0 then [pay b] else [])) HI') as (q2 & F3 & F4 & FF).
      { rewrite E2. cbn [length] in L. lia. }
      exists q2. split; [congruence|]. split; [auto|]. destruct FF as [[F1 F2]|[F1 (x & X1 & X2)]].
      2:{ right. split; [exact F1|]. exists x. split; auto. right. now rewrite <- E2. }
      left. rewrite F1, <- app_assoc. rewrite E2, E3. cbn [map batch].
      rewrite <- (i_small _ _ HI) by (rewrite E; now left). rewrite C.
      split; [|auto]. f_equal. f_equal. cbn [app]. f_equal. f_equal. f_equal.
      change (snd (msg_of b)) with (pay b). destruct (pay b) as [|z l]; [reflexivity|].
      rewrite zlen_cons. pose proof (zlen_nonneg l). destruct (Z.gtb_spec (1 + zlen l) 0); [reflexivity|lia].
Qed.

Lemma concat_batch : forall max ms, concat (batch max ms) = stream ms.
Proof.
  intros max. induction ms as [|m r IH]; [reflexivity|].
  cbn [batch]. change (stream (m :: r)) with (frame m ++ stream r). destruct (small max m).
  - destruct r as [|m' r']; [reflexivity|]. destruct (small max m').
    + destruct (batch max (m' :: r')) as [|t ts].
      * cbn [concat] in *. rewrite <- IH. reflexivity.
      * cbn [concat] in *. rewrite <- IH, <- app_assoc. reflexivity.
    + cbn [concat]. now rewrite IH.
  - cbn [concat]. rewrite concat_app, IH, frame_head, <- app_assoc. f_equal. f_equal.
    destruct (snd m); [reflexivity|]. cbn [concat]. now rewrite app_nil_r.
Qed.

Lemma Inv_init : forall max, Inv 0 (queue_init max).
Proof.
  intros max. constructor; cbn [queue_init items groups nonc cur cmax]; cbn; intros; try tauto; try lia; try discriminate.
  now rewrite orb_true_r.
Qed.
Lemma Inv_weak : forall n m q, Inv n q -> n <= m -> Inv m q.
Proof. intros n m q H L. destruct H. constructor; auto. lia. Qed.
