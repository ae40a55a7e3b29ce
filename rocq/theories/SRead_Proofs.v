(** Proofs for C21. *)
From Verif Require Import Base SRead_Model SRead_Spec.
Local Open Scope nat_scope.

Lemma mem_dec : forall x l, mem x l = if in_dec Nat.eq_dec x l then true else false.
Proof.
  intros x l. destruct (in_dec Nat.eq_dec x l) as [I|N]; unfold mem.
  - apply existsb_exists. exists x. split; auto. apply Nat.eqb_refl.
  - destruct (existsb (Nat.eqb x) l) eqn:E; auto. apply existsb_exists in E. destruct E as (y & I & Q). apply Nat.eqb_eq in Q. now subst.
Qed.

(** ** Lists of samples *)
Lemma concat_length : forall k l, Forall (fun s : list Z => length s = k) l -> length (concat l) = length l * k.
Proof. induction 1 as [|s l E F IH]; auto. cbn [concat length]. rewrite app_length, IH, E. lia. Qed.
Lemma forall_skip : forall (P : list Z -> Prop) n l, Forall P l -> Forall P (skipn n l).
Proof. intros P n. induction n as [|n IH]; intros l F; auto. destruct F; cbn [skipn]; auto. Qed.
Lemma skip_concat : forall k l o, Forall (fun s : list Z => length s = k) l -> skipn (o * k) (concat l) = concat (skipn o l).
Proof.
  intros k l o F. revert o. induction F as [|s l E F IH]; intros o; [cbn [concat]; rewrite !skipn_nil; reflexivity|].
  destruct o as [|o]; [reflexivity|]. cbn [concat skipn]. rewrite skipn_app, E. replace (S o * k - k) with (o * k) by lia. rewrite IH.
  rewrite skipn_all2 by (rewrite E; lia). reflexivity.
Qed.
Lemma first_concat : forall k l c, Forall (fun s : list Z => length s = k) l -> firstn (c * k) (concat l) = concat (firstn c l).
Proof.
  intros k l c F. revert c. induction F as [|s l E F IH]; intros c; [cbn [concat]; rewrite !firstn_nil; reflexivity|].
  destruct c as [|c]; [reflexivity|]. cbn [concat firstn]. rewrite firstn_app, E. replace (S c * k - k) with (c * k) by lia. rewrite IH.
  rewrite firstn_all2 by (rewrite E; lia). reflexivity.
Qed.
Lemma slice : forall k l o c, Forall (fun s : list Z => length s = k) l -> firstn (c * k) (skipn (o * k) (concat l)) = concat (firstn c (skipn o l)).
Proof. intros k l o c F. rewrite skip_concat by auto. apply first_concat. now apply forall_skip. Qed.

(** ** Items *)
Lemma samples_app : forall a b i d, samples_from i (a ++ b) d = samples_from i a d ++ samples_from (i + length a) b d.
Proof. induction a as [|x a IH]; intros b i d; cbn [app samples_from length]; [now rewrite Nat.add_0_r|]. rewrite IH. f_equal. f_equal. f_equal. lia. Qed.
Lemma samples_values : forall l i d, sample_values (samples_from i l d) = l.
Proof. induction l as [|x l IH]; intros i d; auto. unfold sample_values in *. cbn [samples_from flat_map app]. now rewrite IH. Qed.
Lemma samples_domains : forall l i dm, i + length l <= length (dsmp dm) -> sample_domains (samples_from i l (Some dm)) = firstn (length l) (skipn i (dsmp dm)).
Proof.
  unfold sample_domains. induction l as [|x l IH]; intros i dm L; [reflexivity|]. cbn [length] in *. cbn [samples_from flat_map option_map app].
  rewrite IH by lia. assert (SK : skipn i (dsmp dm) = nth i (dsmp dm) [] :: skipn (S i) (dsmp dm)).
  { clear - L. revert L. generalize (dsmp dm) as q. induction i as [|i IH]; intros [|y q] L; cbn [length] in L; try lia; [reflexivity|]. cbn [skipn nth]. rewrite IH; [reflexivity|lia]. }
  rewrite SK. reflexivity.
Qed.
Lemma samples_values_app : forall a b, sample_values (a ++ b) = sample_values a ++ sample_values b.
Proof. intros. unfold sample_values. apply flat_map_app. Qed.
Lemma samples_domains_app : forall a b, sample_domains (a ++ b) = sample_domains a ++ sample_domains b.
Proof. intros. unfold sample_domains. apply flat_map_app. Qed.
Lemma first_at_samples : forall l i d b, l <> [] -> first_at (samples_from i l d ++ b) = Some (offset_at d i).
Proof. intros [|x l] i d b N; [congruence|reflexivity]. Qed.

Definition prepend (l : list item) (t : taken) : taken := {| got := l ++ got t; told := told t; rest := rest t; then_ := then_ t |}.
Lemma take_samples : forall skip l i d n r m, take skip n (samples_from i l d ++ r) m =
  if n <? length l then {| got := samples_from i (firstn n l) d; told := None; rest := samples_from (i + n) (skipn n l) d ++ r; then_ := m |}
  else prepend (samples_from i l d) (take skip (n - length l) r m).
Proof.
  intros skip. induction l as [|x l IH]; intros i d n r m.
  - cbn [samples_from app length]. rewrite Nat.sub_0_r. destruct (Nat.ltb_spec n 0); [lia|]. destruct (take skip n r m); reflexivity.
  - cbn [samples_from app take length]. destruct n as [|n].
    + cbn [firstn skipn samples_from]. replace (0 <? S (length l)) with true by (symmetry; apply Nat.ltb_lt; lia). rewrite Nat.add_0_r. reflexivity.
    + rewrite IH. change (S n <? S (length l)) with (n <? length l). replace (S n - S (length l)) with (n - length l) by lia.
      destruct (n <? length l); unfold cons_item, prepend; cbn [got told rest then_ firstn skipn samples_from app]; [|reflexivity].
      do 2 f_equal. f_equal. lia.
Qed.

(** ** Descriptors *)
Definition unpar (p : par) : option desc := match p with Is d => Some d | _ => None end.
Definition fv (v : option desc) (l : list packet) : option desc := fold_left (fun v p => match p with Ev (Desc v' _) => in_force v v' | _ => v end) l v.
Definition fd (d : option desc) (l : list packet) : option desc := fold_left (fun d p => match p with Ev (Desc _ d') => in_force d d' | _ => d end) l d.
Lemma wt_app : forall l v d r, well_typed v d (l ++ r) <-> well_typed v d l /\ well_typed (fv v l) (fd d l) r.
Proof.
  induction l as [|p l IH]; intros v d r; cbn [app well_typed]; [unfold fv, fd; cbn [fold_left]; tauto|].
  destruct p as [smp dm|[v' d'|n|n]]; rewrite IH; unfold fv, fd; cbn [fold_left]; tauto.
Qed.
Lemma fv_app : forall v l r, fv v (l ++ r) = fv (fv v l) r.
Proof. intros. unfold fv. apply fold_left_app. Qed.
Lemma fd_app : forall d l r, fd d (l ++ r) = fd (fd d l) r.
Proof. intros. unfold fd. apply fold_left_app. Qed.
Lemma follow_later : forall old p, may_follow (unpar old) p -> unpar (later old p) = in_force (unpar old) p.
Proof. intros old [| |d] F; cbn [later in_force unpar]; auto. Qed.

(** ** The relation *)
Record TR (r : typed) (t : option nat) (k : option desc) (ok : bool) : Prop := {
  t_rt : rt r = t; t_known : known r = k;
  t_vps : vps r = match k with Some d => per d | None => 1 end;
  t_typ : forall d, k = Some d -> exists x, t = Some x /\ (ok = true -> mem x (oks d) = true)
}.
Definition cur_items (s : state) : list item :=
  match cur s with None => [] | Some ([], d) => [Nothing (match d with Some _ => true | None => false end) (offset_at d 0)] | Some (smp, d) => samples_from (idx s) (skipn (idx s) smp) d end.
Definition pending (s : state) (q : list packet) : list packet := match cur s with Some (smp, d) => Data smp d :: q | None => q end.
Record Rq (skip : bool) (s : state) (q : list packet) (i : ideal) : Prop := {
  r_items : left_ i = cur_items s ++ stream q;
  r_idx : match cur s with None => idx s = 0 | Some (smp, _) => idx s < length smp \/ (smp = [] /\ idx s = 0) end;
  r_v : TR (vr s) (vtype (now i)) (vdesc (now i)) (good (now i));
  r_d : TR (dr s) (dtype (now i)) (ddesc (now i)) (good (now i));
  r_good : good (now i) = negb (invalid s);
  r_wt : well_typed (vdesc (now i)) (ddesc (now i)) (pending s q);
  r_lastv : fv (vdesc (now i)) q = unpar (lastv s);
  r_lastd : fd (ddesc (now i)) q = unpar (lastd s);
  r_skip : skipEvents s = skip
}.

Lemma tr_handle : forall r t k ok d, TR r t k ok -> may_follow k (Is d) ->
  TR (fst (handleDescriptorChanged r d)) (type_for t (Is d)) (Some d) (ok && converts_b t (Is d)) /\ snd (handleDescriptorChanged r d) = converts_b t (Is d).
Proof.
  intros r t k ok d [E1 E2 E3 E4] F. cbn [may_follow] in F. unfold handleDescriptorChanged. cbn [fst snd]. rewrite E1, mem_dec. split; [|reflexivity].
  constructor; cbn [rt known vps]; auto.
  - unfold per. destruct (dims d) as [|x l] eqn:D; [|reflexivity]. rewrite E3. destruct k as [o|]; auto. unfold per. now rewrite F.
  - intros d0 E. inversion E; subst d0. eexists. cbn [type_for]. split; [reflexivity|]. intros O. apply andb_prop in O. destruct O as [_ O].
    rewrite mem_dec. unfold converts_b in O. exact O.
Qed.
Lemma tr_weaken : forall r t k ok ok', TR r t k ok -> (ok' = true -> ok = true) -> TR r t k ok'.
Proof. intros r t k ok ok' [E1 E2 E3 E4] W. constructor; auto. intros d E. destruct (E4 d E) as (x & X & M). exists x. split; auto. Qed.

Lemma meet_R : forall s v d m, TR (vr s) (vtype m) (vdesc m) (good m) -> TR (dr s) (dtype m) (ddesc m) (good m) -> good m = negb (invalid s) ->
  may_follow (vdesc m) v -> may_follow (ddesc m) d ->
  let s' := onDescriptorChanged v d s in let m' := meet (Desc v d) m in
  TR (vr s') (vtype m') (vdesc m') (good m') /\ TR (dr s') (dtype m') (ddesc m') (good m') /\ good m' = negb (invalid s')
  /\ cur s' = cur s /\ idx s' = idx s /\ lastv s' = lastv s /\ lastd s' = lastd s /\ skipEvents s' = skipEvents s.
Proof.
  intros s v d m TV TD G FV FD. unfold onDescriptorChanged.
  assert (HV : let x := match v with Is x => handleDescriptorChanged (vr s) x | _ => (vr s, true) end in
               TR (fst x) (type_for (vtype m) v) (in_force (vdesc m) v) (good m && converts_b (vtype m) v) /\ snd x = converts_b (vtype m) v).
  { destruct v as [| |x]; [| |apply tr_handle with (k := vdesc m); auto]; cbn [fst snd type_for in_force converts_b]; rewrite andb_true_r; auto. }
  assert (HD : let x := match d with Is x => handleDescriptorChanged (dr s) x | _ => (dr s, true) end in
               TR (fst x) (type_for (dtype m) d) (in_force (ddesc m) d) (good m && converts_b (dtype m) d) /\ snd x = converts_b (dtype m) d).
  { destruct d as [| |x]; [| |apply tr_handle with (k := ddesc m); auto]; cbn [fst snd type_for in_force converts_b]; rewrite andb_true_r; auto. }
  cbv zeta in *. destruct (match v with Is x => handleDescriptorChanged (vr s) x | _ => (vr s, true) end) as [v' vok].
  destruct (match d with Is x => handleDescriptorChanged (dr s) x | _ => (dr s, true) end) as [d' dok]. cbn [fst snd] in *. destruct HV as [HV ->], HD as [HD ->].
  cbn [set_readers vr dr invalid cur idx lastv lastd skipEvents meet vtype dtype vdesc ddesc good]. split; [|split; [|split; [|repeat split; auto]]].
  - eapply tr_weaken; [exact HV|]. intros O. apply andb_prop in O. destruct O as [O _]. exact O.
  - eapply tr_weaken; [exact HD|]. intros O. apply andb_prop in O. destruct O as [O1 O2]. apply andb_prop in O1. destruct O1 as [O1 _]. now rewrite O1, O2.
  - rewrite G. destruct (invalid s), (converts_b (vtype m) v), (converts_b (dtype m) d); reflexivity.
Qed.

Lemma read_typed : forall r t k d smp off cnt, TR r t k true -> k = Some d -> Forall (fun s => length s = per d) smp -> off + cnt <= length smp ->
  readData r (concat smp) off cnt = Got (concat (firstn cnt (skipn off smp))).
Proof.
  intros r t k d smp off cnt [E1 E2 E3 E4] K F L. unfold readData. destruct (E4 d K) as (x & X & M). rewrite E1, X, E2, K, (M eq_refl).
  rewrite K in E3. rewrite E3, (concat_length (per d)) by auto. replace ((off + cnt) * per d <=? length smp * per d) with true; [now rewrite slice|].
  symmetry. apply Nat.leb_le. now apply Nat.mul_le_mono_r.
Qed.

Definition add_call (c : call) (l : list item) : call :=
  {| values := values c; domainValues := domainValues c; remainingToRead := remainingToRead c - length (sample_values l);
     gotv := gotv c ++ (if values c then concat (sample_values l) else []); gotd := gotd c ++ (if domainValues c then concat (sample_domains l) else []);
     offset := match offset c with Some o => Some o | None => first_at l end |}.

(** reading from the packet held *)
Lemma packet_read : forall skip s q m c smp d, Rq skip s q {| left_ := cur_items s ++ stream q; now := m |} -> good m = true -> cur s = Some (smp, d) ->
  0 < remainingToRead c -> (domainValues c = true -> forall x, In x (cur_items s) -> ~ without_domain x) ->
  let l := firstn (remainingToRead c) (skipn (idx s) smp) in
  exists s', readPacketData s (setOffset s c d) smp d = POk s' (add_call (setOffset s c d) (samples_from (idx s) l d))
    /\ vr s' = vr s /\ dr s' = dr s /\ invalid s' = invalid s /\ lastv s' = lastv s /\ lastd s' = lastd s /\ skipEvents s' = skipEvents s
    /\ if remainingToRead c <? length smp - idx s then cur s' = cur s /\ idx s' = idx s + remainingToRead c else cur s' = None /\ idx s' = 0.
Proof.
  intros skip s q m c smp d R G CE RP DOM l. destruct R as [RI RX RV RD RG RW RLV RLD RS]. cbn [left_ now] in *. rewrite CE in RX. unfold pending in RW. rewrite CE in RW.
  cbn [well_typed] in RW. destruct RW as ((x & VX & FX) & DX & _).
  assert (SE : forall c, values (setOffset s c d) = values c /\ domainValues (setOffset s c d) = domainValues c /\ remainingToRead (setOffset s c d) = remainingToRead c).
  { intros c0. unfold setOffset. destruct (offset c0); auto. }
  destruct (SE c) as (SV & SD & SR). set (c' := setOffset s c d) in *. clear SE.
  unfold readPacketData. rewrite SV, SD, SR. set (tr := Nat.min (remainingToRead c) (length smp - idx s)).
  assert (LE : idx s + tr <= length smp) by (unfold tr; destruct RX as [RX|[-> RX]]; cbn [length] in *; lia).
  assert (LL : l = firstn tr (skipn (idx s) smp)).
  { unfold l, tr. rewrite <- skipn_length. destruct (Nat.le_ge_cases (remainingToRead c) (length (skipn (idx s) smp))).
    - now rewrite Nat.min_l. - rewrite Nat.min_r by auto. now rewrite !firstn_all2 by auto. }
  assert (LN : length l = tr) by (rewrite LL, firstn_length, skipn_length; unfold tr; lia).
  rewrite (read_typed (vr s) (vtype m) (vdesc m) x smp (idx s) tr) by (rewrite ?G in *; auto). rewrite <- LL.
  assert (DR : (if domainValues c then match d with None => (dr s, Fails true) | Some dm => match readData (dr s) (concat (dsmp dm)) (idx s) tr with
       | Fails true => let (r, ok) := handleDescriptorChanged (dr s) (dd dm) in if ok then (r, readData r (concat (dsmp dm)) (idx s) tr) else (r, Fails true)
       | x0 => (dr s, x0) end end else (dr s, Got [])) = (dr s, Got (if domainValues c then concat (sample_domains (samples_from (idx s) l d)) else []))).
  { destruct (domainValues c) eqn:DV; auto. destruct d as [dm|].
    - destruct (DX dm eq_refl) as (DD & DL & DF). rewrite (read_typed (dr s) (dtype m) (ddesc m) (dd dm) (dsmp dm) (idx s) tr) by (rewrite ?G in *; auto; lia).
      rewrite samples_domains by lia. now rewrite LN.
    - exfalso. specialize (DOM eq_refl). unfold cur_items in DOM. rewrite CE in DOM. destruct smp as [|a smp]; [apply (DOM _ (or_introl eq_refl)); exact I|].
      destruct RX as [RX|[E _]]; [|discriminate].
      destruct (skipn (idx s) (a :: smp)) as [|b r] eqn:K; [apply (f_equal (@length _)) in K; rewrite skipn_length in K; cbn [length] in *; lia|].
      apply (DOM _ (or_introl eq_refl)). exact I. }
  replace (if values c then Got (concat l) else Got []) with (Got (if values c then concat l else [])) by (destruct (values c); reflexivity).
  rewrite DR. exists (if tr <? length smp - idx s then set_cur (cur s) (idx s + tr) (set_readers (vr s) (dr s) (invalid s) s) else set_cur None 0 (set_readers (vr s) (dr s) (invalid s) s)).
  split.
  - f_equal. unfold add_call. rewrite SV, SD, SR, samples_values, LN. 
    assert (OF : offset c' = match offset c' with Some o => Some o | None => first_at (samples_from (idx s) l d) end).
    { unfold c'. unfold setOffset. destruct (offset c) eqn:O; [now rewrite O|]. reflexivity. }
    rewrite <- OF. reflexivity.
  - unfold tr. destruct (Nat.ltb_spec (remainingToRead c) (length smp - idx s)) as [L|L].
    + rewrite Nat.min_l by lia. destruct (Nat.ltb_spec (remainingToRead c) (length smp - idx s)); [|lia]. repeat split.
    + rewrite Nat.min_r by lia. destruct (Nat.ltb_spec (length smp - idx s) (length smp - idx s)); [lia|]. repeat split.
Qed.

(** ** The loop *)
Lemma add_nil : forall c, add_call c [] = c.
Proof. intros [v d r gv gd o]. unfold add_call. cbn [values domainValues remainingToRead gotv gotd offset sample_values sample_domains flat_map length concat]. destruct v, d, o; rewrite ?app_nil_r, Nat.sub_0_r; reflexivity. Qed.
Lemma first_at_app : forall a b, first_at (a ++ b) = match first_at a with Some o => Some o | None => first_at b end.
Proof. intros a b. unfold first_at. rewrite flat_map_app. destruct (flat_map _ a); reflexivity. Qed.
Lemma add_app : forall c a b, add_call (add_call c a) b = add_call c (a ++ b).
Proof.
  intros c a b. unfold add_call. cbn [values domainValues remainingToRead gotv gotd offset]. rewrite samples_values_app, samples_domains_app, !concat_app, first_at_app, app_length.
  f_equal; [lia|rewrite <- app_assoc; destruct (values c); reflexivity|rewrite <- app_assoc; destruct (domainValues c); reflexivity|]. destruct (offset c), (first_at a); reflexivity.
Qed.
Lemma add_event : forall c e l, add_call c (Event e :: l) = add_call c l.
Proof. reflexivity. Qed.
Lemma offset_eq : forall s c d, offset (setOffset s c d) = match offset c with Some o => Some o | None => Some (offset_at d (idx s)) end.
Proof. intros s c d. unfold setOffset. destruct (offset c) eqn:E; [now rewrite E|]. reflexivity. Qed.

Lemma cur_nonempty : forall s smp d, cur s = Some (smp, d) -> (idx s < length smp \/ (smp = [] /\ idx s = 0)) -> exists b a, 
  cur_items s = [Nothing b a] /\ smp = [] /\ first_at (cur_items s) = Some (offset_at d (idx s)) \/ (cur_items s = samples_from (idx s) (skipn (idx s) smp) d /\ 0 < length smp - idx s).
Proof.
  intros s smp d E X. unfold cur_items. rewrite E. destruct X as [X|[-> X]].
  - destruct smp as [|a smp]; [cbn in X; lia|]. exists true, 0%Z. right. split; auto. lia.
  - eexists _, _. left. split; [reflexivity|]. split; auto. rewrite X. reflexivity.
Qed.

Lemma setOffset_other : forall s c d, values (setOffset s c d) = values c /\ domainValues (setOffset s c d) = domainValues c /\ remainingToRead (setOffset s c d) = remainingToRead c
  /\ gotv (setOffset s c d) = gotv c /\ gotd (setOffset s c d) = gotd c.
Proof. intros s c d. unfold setOffset. destruct (offset c); auto 10. Qed.

Lemma cur_add : forall s c d l, l <> [] -> add_call (setOffset s c d) (samples_from (idx s) l d) = add_call c (samples_from (idx s) l d).
Proof.
  intros s c d l N. destruct (setOffset_other s c d) as (E1 & E2 & E3 & E4 & E5). unfold add_call. rewrite E1, E2, E3, E4, E5, offset_eq. f_equal.
  rewrite <- (app_nil_r (samples_from (idx s) l d)). rewrite first_at_samples by auto. destruct (offset c); reflexivity.
Qed.

Lemma step_cur : forall skip s q m c smp d, Rq skip s q {| left_ := cur_items s ++ stream q; now := m |} -> good m = true -> cur s = Some (smp, d) ->
  0 < remainingToRead c -> (domainValues c = true -> forall x, In x (cur_items s) -> ~ without_domain x) ->
  exists s2 c2, readPacketData s (setOffset s c d) smp d = POk s2 c2 /\
  let t := take skip (remainingToRead c) (cur_items s ++ stream q) m in
  match cur s2 with
  | Some _ => c2 = add_call c (got t) /\ told t = None /\ Rq skip s2 q {| left_ := rest t; now := then_ t |}
  | None => let t' := take skip (remainingToRead c2) (stream q) m in
            t = prepend (cur_items s) t' /\ c2 = add_call c (cur_items s) /\ Rq skip s2 q {| left_ := stream q; now := m |}
  end.
Proof.
  intros skip s q m c smp d R G CE RP DOM. destruct (packet_read skip s q m c smp d R G CE RP DOM) as (s2 & PE & F1 & F2 & F3 & F4 & F5 & F6 & CASE).
  eexists s2, _. split; [exact PE|]. cbv zeta. destruct R as [RI RX RV RD RG RW RLV RLD RS]. cbn [left_ now] in *. rewrite CE in RX.
  set (l := firstn (remainingToRead c) (skipn (idx s) smp)).
  assert (L0 : length (skipn (idx s) smp) = length smp - idx s) by apply skipn_length.
  destruct (Nat.ltb_spec (remainingToRead c) (length smp - idx s)) as [LT|GE].
  - destruct CASE as [C1 C2]. rewrite C1, CE. destruct (cur_nonempty s smp d CE RX) as (b & a & [(CI & -> & _)|(CI & _)]); [cbn [length] in LT; lia|].
    rewrite CI. rewrite take_samples, L0. destruct (Nat.ltb_spec (remainingToRead c) (length smp - idx s)); [|lia]. cbn [got told rest then_]. fold l.
    assert (LN : l <> []). { intros E. apply (f_equal (@length _)) in E. unfold l in E. rewrite firstn_length, L0 in E. cbn [length] in E. lia. }
    split; [now apply cur_add|]. split; [reflexivity|].
    constructor; cbn [left_ now]; rewrite ?F1, ?F2, ?F3, ?F4, ?F5, ?F6; auto.
    + f_equal. unfold cur_items. rewrite C1, CE, C2. destruct smp as [|x smp]; [cbn [length] in LT; lia|].
      assert (SKA : forall (A : Type) (i n : nat) (z : list A), skipn n (skipn i z) = skipn (i + n) z).
      { intros A. induction i as [|i IH]; intros n z; [reflexivity|]. destruct z as [|w z]; [now rewrite !skipn_nil|]. cbn [skipn Nat.add]. apply IH. }
      now rewrite SKA.
    + rewrite C1, CE, C2. left. lia.
    + unfold pending in *. now rewrite C1.
  - destruct CASE as [C1 C2]. rewrite C1.
    assert (LE : l = skipn (idx s) smp) by (unfold l; rewrite firstn_all2; [reflexivity|rewrite L0; lia]).
    destruct (cur_nonempty s smp d CE RX) as (b & a & [(CI & E0 & FA)|(CI & PO)]).
    + subst smp. assert (L1 : l = []) by (unfold l; now rewrite skipn_nil, firstn_nil). rewrite L1. cbn [samples_from]. rewrite add_nil.
      destruct (setOffset_other s c d) as (E1 & E2 & E3 & E4 & E5). rewrite E3, CI.
      split; [|split].
      * cbn [app take]. destruct (remainingToRead c) as [|n]; [lia|]. reflexivity.
      * rewrite CI in FA. unfold add_call. cbn [sample_values sample_domains flat_map length concat]. rewrite FA.
        assert (A0 : forall (b0 : bool) (z : list Z), z ++ (if b0 then [] else []) = z) by (intros [|] z; apply app_nil_r). rewrite !A0, Nat.sub_0_r.
        unfold setOffset, offset_at. destruct c as [cv cd cr cgv cgd [o|]]; reflexivity.
      * constructor; cbn [left_ now]; rewrite ?F1, ?F2, ?F3, ?F4, ?F5, ?F6; auto; unfold cur_items, pending in *; rewrite C1; [reflexivity|auto|]. rewrite CE in RW. cbn [well_typed] in RW. tauto.
    + assert (LN : l <> []). { intros E. apply (f_equal (@length _)) in E. rewrite LE, L0 in E. cbn [length] in E. lia. }
      fold l. rewrite cur_add by auto. rewrite CI, <- LE.
      split; [|split; [reflexivity|]].
      * rewrite take_samples. rewrite LE, L0. destruct (Nat.ltb_spec (remainingToRead c) (length smp - idx s)); [lia|].
        unfold add_call. cbn [remainingToRead]. rewrite samples_values, L0. reflexivity.
      * constructor; cbn [left_ now]; rewrite ?F1, ?F2, ?F3, ?F4, ?F5, ?F6; auto; unfold cur_items, pending in *; rewrite C1; [reflexivity|auto|]. rewrite CE in RW. cbn [well_typed] in RW. tauto.
Qed.

Lemma rq_queue : forall skip s q q' i, Rq skip s q i -> Rq skip (set_queue q' s) q i.
Proof. intros skip s q q' i [RI RX RV RD RG RW RLV RLD RS]. constructor; auto. Qed.

Lemma queue_read : forall q skip s m c, Rq skip s q {| left_ := stream q; now := m |} -> good m = true -> cur s = None ->
  (domainValues c = true -> forall x, In x (stream q) -> ~ without_domain x) ->
  let t := take skip (remainingToRead c) (stream q) m in
  exists s', fromQueue q s c = Ends s' (add_call c (got t)) (told t) /\ Rq skip s' (queue s') {| left_ := rest t; now := then_ t |}.
Proof.
  induction q as [|p q IH]; intros skip s m c R G CN DOM; cbv zeta.
  - cbn [stream flat_map take got told rest then_ fromQueue]. rewrite add_nil. eexists. split; [reflexivity|]. now apply (rq_queue skip s []).
  - destruct p as [smp d|e].
    + cbn [fromQueue]. set (s1 := set_cur (Some (smp, d)) 0 s).
      assert (C1 : cur s1 = Some (smp, d)) by reflexivity.
      assert (IT : stream (Data smp d :: q) = cur_items s1 ++ stream q) by (unfold cur_items; rewrite C1; destruct smp; reflexivity).
      assert (R1 : Rq skip s1 q {| left_ := cur_items s1 ++ stream q; now := m |}).
      { destruct R as [RI RX RV RD RG RW RLV RLD RS]. cbn [left_ now] in *. constructor; cbn [left_ now]; auto.
        - cbn [s1 set_cur cur idx]. destruct smp; [now right|]. left. cbn [length]. lia.
        - unfold pending in *. rewrite C1. rewrite CN in RW. exact RW. }
      rewrite IT in *. destruct (Nat.eqb_spec (remainingToRead c) 0) as [Z|NZ].
      * rewrite Z. assert (TK : take skip 0 (cur_items s1 ++ stream q) m = {| got := []; told := None; rest := cur_items s1 ++ stream q; then_ := m |}).
        { unfold cur_items. rewrite C1. destruct smp; reflexivity. }
        rewrite TK. cbn [got told rest then_]. rewrite add_nil. eexists. split; [reflexivity|]. now apply (rq_queue skip s1 q).
      * destruct (step_cur skip s1 q m c smp d R1 G C1) as (s2 & c2 & PE & CASE); [lia|intros D x I; apply DOM; auto; apply in_or_app; now left|].
        rewrite PE. cbv zeta in CASE. destruct (cur s2) as [y|] eqn:C2.
        -- destruct CASE as (E1 & E2 & R2). subst c2. rewrite E2. eexists. split; [reflexivity|]. now apply (rq_queue skip s2 q).
        -- destruct CASE as (E1 & E2 & R2). rewrite E1. unfold prepend. cbn [got told rest then_].
           destruct (IH skip s2 m c2 R2 G C2) as (s' & FE & R'); [intros D x I; apply DOM; [now subst c2|apply in_or_app; now right]|].
           exists s'. split; [|exact R']. rewrite FE. f_equal. rewrite E2 at 1. now rewrite add_app.
    + cbn [fromQueue]. change (stream (Ev e :: q)) with (Event e :: stream q) in *.
      set (s1 := match e with Desc v d => onDescriptorChanged v d s | _ => s end).
      assert (R1 : Rq skip s1 q {| left_ := stream q; now := meet e m |} /\ cur s1 = None).
      { destruct R as [RI RX RV RD RG RW RLV RLD RS]. cbn [left_ now] in *. unfold pending in RW. rewrite CN in RW, RX.
        destruct e as [v d|n|n]; cbn [meet] in *.
        - cbn [well_typed] in RW. destruct RW as (FV & FD & RW). destruct (meet_R s v d m RV RD RG FV FD) as (A1 & A2 & A3 & A4 & A5 & A6 & A7 & A8).
          fold s1 in A1, A2, A3, A4, A5, A6, A7, A8. rewrite CN in A4. split; auto. constructor; cbn [left_ now]; auto; unfold cur_items, pending; rewrite ?A4, ?A5, ?A6, ?A7, ?A8; auto.
        - subst s1. split; auto. constructor; cbn [left_ now]; auto; unfold cur_items, pending; rewrite CN; auto.
        - subst s1. split; auto. constructor; cbn [left_ now]; auto; unfold cur_items, pending; rewrite CN; auto. }
      destruct R1 as [R1 C1]. cbn [take]. unfold reported. pose proof (r_good _ _ _ _ R1) as RG1. cbn [now] in RG1. rewrite RG1, negb_involutive. rewrite (r_skip _ _ _ _ R).
      destruct (negb skip || invalid s1 || match e with Gap _ => true | _ => false end) eqn:RP.
      * cbn [got told rest then_]. rewrite add_event, add_nil. eexists. split; [reflexivity|]. now apply (rq_queue skip s1 q).
      * assert (G1 : good (meet e m) = true). { pose proof (r_good _ _ _ _ R1) as RG. cbn [now] in RG. rewrite RG. apply orb_false_iff in RP. destruct RP as [RP _]. apply orb_false_iff in RP. destruct RP as [_ RP]. now rewrite RP. }
        destruct (IH skip s1 (meet e m) c R1 G1 C1) as (s' & FE & R'); [intros D x I; apply DOM; auto; now right|].
        exists s'. split; [|exact R']. rewrite FE. unfold cons_item. cbn [got told]. now rewrite add_event.
Qed.

Lemma all_read : forall skip s m c, Rq skip s (queue s) {| left_ := cur_items s ++ stream (queue s); now := m |} -> good m = true ->
  (domainValues c = true -> forall x, In x (cur_items s ++ stream (queue s)) -> ~ without_domain x) ->
  let t := take skip (remainingToRead c) (cur_items s ++ stream (queue s)) m in
  exists s', readPackets s c = Ends s' (add_call c (got t)) (told t) /\ Rq skip s' (queue s') {| left_ := rest t; now := then_ t |}.
Proof.
  intros skip s m c R G DOM. cbv zeta. unfold readPackets. destruct (cur s) as [[smp d]|] eqn:CE.
  - destruct (Nat.eqb_spec (remainingToRead c) 0) as [Z|NZ].
    + assert (TK : take skip (remainingToRead c) (cur_items s ++ stream (queue s)) m = {| got := []; told := None; rest := cur_items s ++ stream (queue s); then_ := m |}).
      { rewrite Z. pose proof (r_idx _ _ _ _ R) as RX. rewrite CE in RX. destruct (cur_nonempty s smp d CE RX) as (b & a & [(CI & _)|(CI & PO)]); rewrite CI; [reflexivity|].
        rewrite <- skipn_length in PO. destruct (skipn (idx s) smp); [cbn in PO; lia|]. reflexivity. }
      rewrite TK. cbn [got told rest then_]. rewrite add_nil. exists s. split; auto.
    + destruct (step_cur skip s (queue s) m c smp d R G CE) as (s2 & c2 & PE & CASE); [lia|intros D x I; apply DOM; auto; apply in_or_app; now left|].
      rewrite PE. assert (QE : queue s2 = queue s).
      { clear - PE. unfold readPacketData in PE. destruct (if values _ then _ else _) as [vs|b|]; try discriminate. destruct (if domainValues _ then _ else _) as [r [ds|b|]]; try discriminate.
        inversion PE. destruct (_ <? _); reflexivity. }
      cbv zeta in CASE. destruct (cur s2) as [y|] eqn:C2.
      * destruct CASE as (E1 & E2 & R2). subst c2. rewrite E2. exists s2. split; [reflexivity|]. now rewrite QE.
      * destruct CASE as (E1 & E2 & R2). rewrite E1. unfold prepend. cbn [got told rest then_]. rewrite QE.
        destruct (queue_read (queue s) skip s2 m c2 R2 G C2) as (s' & FE & R'); [intros D x I; apply DOM; [now subst c2|apply in_or_app; now right]|].
        exists s'. split; [|exact R']. rewrite FE. f_equal. rewrite E2 at 1. now rewrite add_app.
  - assert (CI : cur_items s = []) by (unfold cur_items; now rewrite CE). rewrite CI in *. cbn [app] in *. now apply queue_read.
Qed.

Lemma take_count : forall skip l n m, length (sample_values (got (take skip n l m))) <= n.
Proof.
  intros skip. induction l as [|x l IH]; intros n m; cbn [take]; [cbn; lia|]. destruct x as [v d a|b a|e].
  - destruct n as [|n]; [cbn; lia|]. unfold cons_item. cbn [got]. unfold sample_values. cbn [flat_map app length]. specialize (IH n m). unfold sample_values in IH. lia.
  - destruct n as [|n]; [cbn; lia|]. apply (IH (S n) m).
  - destruct (reported skip e (meet e m)); [cbn; lia|]. apply (IH n (meet e m)).
Qed.

(** ** Histories *)
Definition R (skip : bool) (h : list op) (s : state) (i : ideal) : Prop :=
  Rq skip s (queue s) i /\ fv None (received h) = unpar (lastv s) /\ fd None (received h) = unpar (lastd s).

Lemma received_cons : forall o h, received (o :: h) = received h ++ match o with Enqueue p => [p] | _ => [] end.
Proof. intros o h. unfold received. cbn [flat_map]. rewrite rev_app_distr. destruct o; reflexivity. Qed.

Lemma enqueue_R : forall skip h s i p, R skip h s i -> well_typed None None (received h ++ [p]) -> 
  Rq skip (enqueue p s) (queue s ++ [p]) {| left_ := left_ i ++ items p; now := now i |}
  /\ fv None (received h ++ [p]) = unpar (lastv (enqueue p s)) /\ fd None (received h ++ [p]) = unpar (lastd (enqueue p s)).
Proof.
  intros skip h s i p [RR [HV HD]] WT. apply wt_app in WT. destruct WT as [_ WT]. rewrite HV, HD in WT.
  assert (LV : unpar (lastv (enqueue p s)) = fv (unpar (lastv s)) [p]).
  { unfold enqueue, fv. destruct p as [smp d|[v d|n|n]]; cbn [lastv fold_left]; auto. apply follow_later. cbn [well_typed] in WT. tauto. }
  assert (LD : unpar (lastd (enqueue p s)) = fd (unpar (lastd s)) [p]).
  { unfold enqueue, fd. destruct p as [smp d|[v d|n|n]]; cbn [lastd fold_left]; auto. apply follow_later. cbn [well_typed] in WT. tauto. }
  assert (SAME : cur (enqueue p s) = cur s /\ idx (enqueue p s) = idx s /\ vr (enqueue p s) = vr s /\ dr (enqueue p s) = dr s /\ invalid (enqueue p s) = invalid s /\ skipEvents (enqueue p s) = skipEvents s).
  { unfold enqueue. destruct p as [smp d|[v d|n|n]]; cbn [cur idx vr dr invalid skipEvents]; auto 10. }
  destruct SAME as (S1 & S2 & S3 & S4 & S5 & S6). split; [|rewrite LV, LD, fv_app, fd_app, HV, HD; auto].
  destruct RR as [RI RX RV RD RG RW RLV RLD RS]. constructor; cbn [left_ now]; rewrite ?S1, ?S2, ?S3, ?S4, ?S5, ?S6; auto.
  - rewrite RI. unfold cur_items. rewrite S1, S2. unfold stream. rewrite flat_map_app. cbn [flat_map]. rewrite app_nil_r. now rewrite app_assoc.
  - assert (PE : pending (enqueue p s) (queue s ++ [p]) = pending s (queue s) ++ [p]) by (unfold pending; rewrite S1; destruct (cur s) as [[smp d]|]; reflexivity).
    rewrite PE. apply wt_app. split; auto.
    assert (FP : fv (vdesc (now i)) (pending s (queue s)) = unpar (lastv s) /\ fd (ddesc (now i)) (pending s (queue s)) = unpar (lastd s)).
    { unfold pending. destruct (cur s) as [[smp d]|]; unfold fv, fd in *; cbn [fold_left]; auto. }
    destruct FP as [-> ->]. exact WT.
  - rewrite fv_app, RLV. now rewrite LV.
  - rewrite fd_app, RLD. now rewrite LD.
Qed.

Lemma no_change : forall q, (forall x, In x (stream q) -> ~ descriptor_change x) -> forall v, fv v q = v /\ fd v q = v.
Proof.
  induction q as [|p q IH]; intros N v; [split; reflexivity|]. assert (N' : forall x, In x (stream q) -> ~ descriptor_change x) by (intros x I; apply N; cbn [stream flat_map]; apply in_or_app; now right).
  unfold fv, fd. cbn [fold_left]. destruct p as [smp d|[v' d'|n|n]]; try (apply (IH N' v)). exfalso. apply (N (Event (Desc v' d'))); [now left|exact I].
Qed.

Lemma read_R : forall skip h s i v d n, R skip h s i -> (d = true -> forall x, In x (left_ i) -> ~ without_domain x) ->
  let '(s', r) := doRead s v d n in let '(i', r') := ideal_read skip v d n i in r = r' /\ R skip h s' i'.
Proof.
  intros skip h s i v d n [RR [HV HD]] DOM. unfold doRead, ideal_read. pose proof (r_good _ _ _ _ RR) as RG. destruct (invalid s) eqn:IV.
  - rewrite RG. cbn [negb]. split; auto. split; auto.
  - rewrite RG. cbn [negb]. set (c := {| values := v; domainValues := d; remainingToRead := n; gotv := []; gotd := []; offset := None |}).
    pose proof (r_items _ _ _ _ RR) as RI. destruct i as [li m]. cbn [left_ now] in *. subst li.
    destruct (all_read skip s m c RR RG) as (s' & E & R'); [intros D x I; apply DOM; auto|]. cbv zeta in E, R'. change (remainingToRead c) with n in *.
    rewrite E. set (t := take skip n (cur_items s ++ stream (queue s)) m) in *. split.
    + unfold answer. f_equal. pose proof (r_good _ _ _ _ R') as RG'. cbn [now] in RG'. rewrite RG'. unfold add_call. cbn [c values domainValues remainingToRead gotv gotd offset app].
      f_equal. pose proof (take_count skip (cur_items s ++ stream (queue s)) n m) as TC. fold t in TC. lia.
    + split; auto.
      assert (LL : lastv s' = lastv s /\ lastd s' = lastd s).
      { pose proof (r_lastv _ _ _ _ R'). clear - E. unfold readPackets in E.
        assert (PD : forall s c smp d s2 c2, readPacketData s c smp d = POk s2 c2 -> lastv s2 = lastv s /\ lastd s2 = lastd s).
        { intros s0 c0 smp0 d0 s2 c2 P. unfold readPacketData in P. destruct (if values _ then _ else _) as [vs|b|]; try discriminate. destruct (if domainValues _ then _ else _) as [r [ds|b|]]; try discriminate.
          inversion P. destruct (_ <? _); auto. }
        assert (FQ : forall q s c s' c' e, fromQueue q s c = Ends s' c' e -> lastv s' = lastv s /\ lastd s' = lastd s).
        { induction q as [|p q IH]; intros s0 c0 s1 c1 e F; cbn [fromQueue] in F; [inversion F; auto|]. destruct p as [smp d0|e0].
          - destruct (remainingToRead c0 =? 0); [inversion F; auto|]. destruct (readPacketData _ _ smp d0) as [s2 c2| |] eqn:P; try discriminate. apply PD in P. cbn [set_cur lastv lastd] in P.
            destruct (cur s2); [inversion F; subst; cbn [set_queue lastv lastd]; auto|]. apply IH in F. destruct F as [-> ->]. auto.
          - assert (OD : forall v d s, lastv (onDescriptorChanged v d s) = lastv s /\ lastd (onDescriptorChanged v d s) = lastd s).
            { intros v0 d1 s2. unfold onDescriptorChanged. destruct (match v0 with Is x => _ | _ => _ end). destruct (match d1 with Is x => _ | _ => _ end). auto. }
            match type of F with (if ?b then Ends (set_queue q ?s1) _ _ else _) = _ => assert (L1 : lastv s1 = lastv s0 /\ lastd s1 = lastd s0) by (destruct e0; auto); destruct b end.
            + inversion F; subst; auto.
            + apply IH in F. destruct F as [-> ->]. auto. }
        destruct (cur s) as [[smp d0]|]; [|eapply FQ; eauto]. destruct (remainingToRead c =? 0); [inversion E; auto|].
        destruct (readPacketData s _ smp d0) as [s2 c2| |] eqn:P; try discriminate. apply PD in P. destruct (cur s2); [inversion E; subst; auto|]. apply FQ in E. destruct E as [-> ->]. auto. }
      destruct LL as [-> ->]. auto.
Qed.

Lemma existing_R : forall skip h s i vt dt, R skip h s i -> call_ok i (FromExisting vt dt) ->
  R skip h (fromExisting vt dt s) (fst (ideal_step skip i (FromExisting vt dt))).
Proof.
  intros skip h s i vt dt [RR [HV HD]] OK. cbn [call_ok] in OK. destruct RR as [RI RX RV RD RG RW RLV RLD RS].
  assert (NC : forall x, In x (stream (queue s)) -> ~ descriptor_change x) by (intros x I; apply OK; rewrite RI; apply in_or_app; now right).
  destruct (no_change _ NC (vdesc (now i))) as [NV _]. destruct (no_change _ NC (ddesc (now i))) as [_ ND]. rewrite NV in RLV. rewrite ND in RLD.
  unfold fromExisting. set (s0 := set_readers (createReaderForType vt) (createReaderForType dt) false s).
  assert (EQ : onDescriptorChanged (lastv s) (lastd s) s0 = onDescriptorChanged (param (vdesc (now i))) (param (ddesc (now i))) s0).
  { rewrite RLV, RLD. unfold onDescriptorChanged. destruct (lastv s), (lastd s); reflexivity. }
  rewrite EQ. cbn [ideal_step fst].
  assert (TN : forall t, TR (createReaderForType t) t None true) by (intros t; constructor; auto; discriminate).
  destruct (meet_R s0 (param (vdesc (now i))) (param (ddesc (now i))) (new_mode vt dt)) as (A1 & A2 & A3 & A4 & A5 & A6 & A7 & A8).
  { apply TN. } { apply TN. } { reflexivity. }
  { cbn [new_mode vdesc]. destruct (vdesc (now i)); exact I. } { cbn [new_mode ddesc]. destruct (ddesc (now i)); exact I. }
  set (s' := onDescriptorChanged (param (vdesc (now i))) (param (ddesc (now i))) s0) in *. set (m' := meet (Desc (param (vdesc (now i))) (param (ddesc (now i)))) (new_mode vt dt)) in *.
  assert (MV : vdesc m' = vdesc (now i)) by (unfold m'; cbn [meet vdesc new_mode]; destruct (vdesc (now i)); reflexivity).
  assert (MD : ddesc m' = ddesc (now i)) by (unfold m'; cbn [meet ddesc new_mode]; destruct (ddesc (now i)); reflexivity).
  assert (QE : queue s' = queue s) by (unfold s', onDescriptorChanged; destruct (match param (vdesc (now i)) with Is x => _ | _ => _ end); destruct (match param (ddesc (now i)) with Is x => _ | _ => _ end); reflexivity).
  split; [|rewrite A6, A7; auto]. rewrite QE. constructor; cbn [left_ now]; auto.
  - rewrite RI. unfold cur_items. rewrite A4, A5. reflexivity.
  - rewrite A4, A5. exact RX.
  - rewrite MV, MD. unfold pending. rewrite A4. exact RW.
  - now rewrite MV, A6, NV.
  - now rewrite MD, A7, ND.
  - now rewrite A8.
Qed.

Theorem refines : forall skip vt dt h, well_typed None None (received h) -> calls_ok skip vt dt h -> R skip h (after skip vt dt h) (ideal_after skip vt dt h).
Proof.
  intros skip vt dt. induction h as [|o h IH]; intros WT OK.
  - split; [|split; reflexivity]. constructor; cbn; auto; constructor; auto; discriminate.
  - destruct OK as [O1 O2]. rewrite received_cons in WT. specialize (IH (proj1 (proj1 (wt_app _ _ _ _) WT)) O2). cbn [after ideal_after].
    destruct o as [p|n|n|n|vt' dt']; cbn [step ideal_step].
    + destruct (enqueue_R skip h _ _ p IH WT) as (A & B & C). cbn [fst]. split; [|rewrite received_cons; auto].
      assert (QE : queue (enqueue p (after skip vt dt h)) = queue (after skip vt dt h) ++ [p]) by (unfold enqueue; destruct p as [?|[? ?|?|?]]; reflexivity). now rewrite QE.
    + pose proof (read_R skip h _ _ true false n IH) as X. destruct (doRead _ true false n) as [s' r]. destruct (ideal_read skip true false n _) as [i' r']. cbn [fst]. unfold R. rewrite received_cons, app_nil_r. apply X. discriminate.
    + pose proof (read_R skip h _ _ true true n IH) as X. destruct (doRead _ true true n) as [s' r]. destruct (ideal_read skip true true n _) as [i' r']. cbn [fst]. unfold R. rewrite received_cons, app_nil_r. apply X. intros _. exact O1.
    + pose proof (read_R skip h _ _ false false n IH) as X. destruct (doRead _ false false n) as [s' r]. destruct (ideal_read skip false false n _) as [i' r']. cbn [fst]. unfold R. rewrite received_cons, app_nil_r. apply X. discriminate.
    + cbn [fst]. unfold R. rewrite received_cons, app_nil_r. exact (existing_R skip h _ _ vt' dt' IH O1).
Qed.

Theorem same_answer : forall skip vt dt h o, well_typed None None (received h) -> calls_ok skip vt dt (o :: h) ->
  snd (step (after skip vt dt h) o) = snd (ideal_step skip (ideal_after skip vt dt h) o).
Proof.
  intros skip vt dt h o WT [O1 O2]. pose proof (refines skip vt dt h WT O2) as RR. destruct o as [p|n|n|n|vt' dt']; cbn [step ideal_step]; auto.
  - pose proof (read_R skip h _ _ true false n RR) as X. destruct (doRead _ true false n) as [s' r]. destruct (ideal_read skip true false n _) as [i' r']. cbn [snd]. apply X. discriminate.
  - pose proof (read_R skip h _ _ true true n RR) as X. destruct (doRead _ true true n) as [s' r]. destruct (ideal_read skip true true n _) as [i' r']. cbn [snd]. apply X. intros _. exact O1.
  - pose proof (read_R skip h _ _ false false n RR) as X. destruct (doRead _ false false n) as [s' r]. destruct (ideal_read skip false false n _) as [i' r']. cbn [snd]. apply X. discriminate.
Qed.
