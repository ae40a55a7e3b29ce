(** * MMgr_Proofs2: choosing, modules, local ids, configurations *)
From Coq Require Import Ascii String List Bool Arith ZArith Lia Permutation.
From Coq Require Import DecimalString DecimalNat.
From Verif Require Import CStat_Model CStat_Spec CStat_Proofs MMgr_Model MMgr_Spec MMgr_Proofs.
Import ListNotations.
Open Scope string_scope.
Open Scope nat_scope.
Open Scope list_scope.

(** ** Choosing a protocol *)

Definition rankOf (c : cap) : nat :=
  if String.eqb (cp_id c) "OpenDAQNativeConfiguration" then 4
  else match cp_type c with PBoth => 3 | PConfiguration => 2 | PStreaming => 1 | PUnknown => 0 end.

Lemma rankOf_spec : forall c n, protocolRank c n <-> n = rankOf c.
Proof.
  intros c n. unfold rankOf. split.
  - intro H. destruct H as [c H|c H T|c H T|c H T|c H T].
    + apply String.eqb_eq in H. rewrite H. reflexivity.
    + apply String.eqb_neq in H. rewrite H, T. reflexivity.
    + apply String.eqb_neq in H. rewrite H, T. reflexivity.
    + apply String.eqb_neq in H. rewrite H, T. reflexivity.
    + apply String.eqb_neq in H. rewrite H, T. reflexivity.
  - intros ->. destruct (String.eqb (cp_id c) "OpenDAQNativeConfiguration") eqn:E.
    + apply String.eqb_eq in E. constructor. exact E.
    + apply String.eqb_neq in E. destruct (cp_type c) eqn:T.
      * apply rank_unknown; assumption.
      * apply rank_str; assumption.
      * apply rank_conf; assumption.
      * apply rank_both; assumption.
Qed.

Lemma priority_rank : forall a b, (priority a <? priority b) = (rankOf a <? rankOf b).
Proof.
  intros a b. unfold priority, rankOf, nativeId.
  destruct (String.eqb (cp_id a) "OpenDAQNativeConfiguration"), (String.eqb (cp_id b) "OpenDAQNativeConfiguration"),
    (cp_type a), (cp_type b); reflexivity.
Qed.

Lemma select_spec : forall l b,
  (select b l = b /\ (forall y, In y l -> rankOf y <= rankOf b)) \/
  (exists l1 l2, l = l1 ++ select b l :: l2 /\ rankOf b < rankOf (select b l) /\
     (forall y, In y l1 -> rankOf y < rankOf (select b l)) /\ (forall y, In y l2 -> rankOf y <= rankOf (select b l))).
Proof.
  induction l as [|c l IH]; intro b; cbn [select].
  - left. split; [reflexivity|]. intros y [].
  - rewrite priority_rank. destruct (rankOf b <? rankOf c) eqn:E.
    + apply Nat.ltb_lt in E. right. destruct (IH c) as [[E1 H]|[l1 [l2 [E1 [R [H1 H2]]]]]].
      * exists [], l. rewrite E1. split; [reflexivity|]. split; [exact E|]. split; [intros y []|exact H].
      * exists (c :: l1), l2. split; [rewrite <- app_comm_cons; f_equal; exact E1|]. split; [lia|].
        split; [|exact H2]. intros y [<-|Y]; [exact R|exact (H1 y Y)].
    + apply Nat.ltb_ge in E. destruct (IH b) as [[E1 H]|[l1 [l2 [E1 [R [H1 H2]]]]]].
      * left. split; [exact E1|]. intros y [<-|Y]; [exact E|exact (H y Y)].
      * right. exists (c :: l1), l2. split; [rewrite <- app_comm_cons; f_equal; exact E1|]. split; [exact R|].
        split; [|exact H2]. intros y [<-|Y]; [lia|exact (H1 y Y)].
Qed.

Lemma select_best : forall c r, firstBest protocolRank (c :: r) (select c (c :: r)).
Proof.
  intros c r. destruct (select_spec (c :: r) c) as [[E H]|[l1 [l2 [E [R [H1 H2]]]]]].
  - rewrite E. exists [], r, (rankOf c). split; [reflexivity|]. split; [apply rankOf_spec; reflexivity|].
    split; [intros y m []|]. intros y m Y M. apply rankOf_spec in M. subst m. apply H. right. exact Y.
  - exists l1, l2, (rankOf (select c (c :: r))). split; [exact E|]. split; [apply rankOf_spec; reflexivity|].
    split; intros y m Y M; apply rankOf_spec in M; subst m; [exact (H1 y Y)|exact (H2 y Y)].
Qed.

Lemma firstBest_unique : forall {A} (rank : A -> nat -> Prop) l x y,
  (forall a, exists n, rank a n) -> (forall a n m, rank a n -> rank a m -> n = m) ->
  firstBest rank l x -> firstBest rank l y -> x = y.
Proof.
  intros A rank l x y T F [a1 [a2 [n [E1 [R1 [A1 A2]]]]]] [b1 [b2 [m [E2 [R2 [B1 B2]]]]]].
  rewrite E1 in E2. clear E1. revert b1 E2 B1. induction a1 as [|u a1 IH]; intros b1 E2 B1; destruct b1 as [|w b1].
  - injection E2 as -> _. reflexivity.
  - cbn [app] in E2. injection E2 as -> ->. assert (X := B1 w n (or_introl eq_refl) R1).
    assert (Y : m <= n) by (apply (A2 y m); [apply in_or_app; right; left; reflexivity|exact R2]). lia.
  - cbn [app] in E2. injection E2 as -> <-. assert (X := A1 y m (or_introl eq_refl) R2).
    assert (Y : n <= m) by (apply (B2 x n); [apply in_or_app; right; left; reflexivity|exact R1]). lia.
  - cbn [app] in E2. injection E2 as <- E2. apply (IH (fun z k Z => A1 z k (or_intror Z)) b1 E2 (fun z k Z => B1 z k (or_intror Z))).
Qed.

(** ** Choosing an address *)

(** What is held so far: nothing, an unreachable or an unknown one. *)
Definition holds (t : string) (seen : list addr) (cs : option string) (st : reach) : Prop :=
  match cs with
  | None => ofType t seen = [] /\ st = Unreachable
  | Some s => exists a, firstBest addressRank (ofType t seen) a /\ s = ad_conn a /\ ad_reach a = st /\ st <> Reachable
  end.

Lemma best_snoc_less : forall l a b, firstBest addressRank l a -> reachRank (ad_reach b) <= reachRank (ad_reach a) ->
  firstBest addressRank (l ++ [b]) a.
Proof.
  intros l a b [l1 [l2 [n [-> [R [H1 H2]]]]]] L. exists l1, (l2 ++ [b]), n.
  split; [rewrite <- app_assoc; reflexivity|]. split; [exact R|]. split; [exact H1|].
  intros y m Y M. apply in_app_iff in Y. destruct Y as [Y|[<-|[]]]; [exact (H2 y m Y M)|].
  unfold addressRank in *. subst. exact L.
Qed.

Lemma best_snoc_more : forall l b, (forall y, In y l -> reachRank (ad_reach y) < reachRank (ad_reach b)) ->
  firstBest addressRank (l ++ [b]) b.
Proof.
  intros l b H. exists l, [], (reachRank (ad_reach b)). split; [reflexivity|]. split; [reflexivity|].
  split; [|intros y m []]. intros y m Y M. unfold addressRank in M. subst m. exact (H y Y).
Qed.

Lemma best_bound : forall l a y, firstBest addressRank l a -> In y l -> reachRank (ad_reach y) <= reachRank (ad_reach a).
Proof.
  intros l a y [l1 [l2 [n [-> [R [H1 H2]]]]]] Y. unfold addressRank in R. subst n.
  apply in_app_iff in Y. destruct Y as [Y|[<-|Y]]; [|lia|exact (H2 y _ Y eq_refl)].
  assert (X := H1 y _ Y eq_refl). lia.
Qed.

Lemma ofType_snoc : forall t l a, ofType t (l ++ [a]) = if String.eqb (ad_type a) t then ofType t l ++ [a] else ofType t l.
Proof.
  intros t l a. unfold ofType. rewrite filter_app. cbn [filter]. destruct (String.eqb (ad_type a) t); [reflexivity|apply app_nil_r].
Qed.

Lemma best_reachable : forall t seen cs st a l2, holds t seen cs st -> ad_reach a = Reachable -> String.eqb (ad_type a) t = true ->
  firstBest addressRank (ofType t (seen ++ a :: l2)) a.
Proof.
  intros t seen cs st a l2 H R T. unfold ofType. rewrite filter_app. cbn [filter]. rewrite T.
  exists (ofType t seen), (ofType t l2), 2. split; [reflexivity|]. unfold addressRank. rewrite R. split; [reflexivity|]. split.
  - intros y m Y M. subst m. destruct cs as [s|]; cbn [holds] in H.
    + destruct H as [b [B [_ [E N]]]]. assert (X := best_bound _ _ _ B Y). rewrite E in X.
      destruct st; cbn [reachRank] in *; try lia. destruct N. reflexivity.
    + destruct H as [H _]. rewrite H in Y. destruct Y.
  - intros y m Y M. subst m. destruct (ad_reach y); cbn [reachRank]; lia.
Qed.

Lemma pick_spec : forall t l seen cs st, holds t seen cs st ->
  match pickAddress t l cs st with
  | None => ofType t (seen ++ l) = []
  | Some s => exists a, firstBest addressRank (ofType t (seen ++ l)) a /\ s = ad_conn a
  end.
Proof.
  intros t. induction l as [|a l IH]; intros seen cs st H; cbn [pickAddress].
  - rewrite app_nil_r. destruct cs as [s|]; cbn [holds] in H.
    + destruct H as [a [B [E _]]]. exists a. split; assumption.
    + tauto.
  - assert (A : seen ++ a :: l = (seen ++ [a]) ++ l) by (rewrite <- app_assoc; reflexivity).
    destruct (String.eqb (ad_type a) t) eqn:T.
    2:{ rewrite A. apply IH. unfold holds in *. rewrite ofType_snoc, T. exact H. }
    destruct (ad_reach a) eqn:R.
    + rewrite A. apply IH. destruct cs as [s|]; cbn [holds] in H.
      * destruct H as [b [B [E [S1 N]]]]. destruct st; [|destruct N; reflexivity|].
        -- cbn [holds]. exists b. rewrite ofType_snoc, T. split; [|split; [exact E|split; [exact S1|exact N]]].
           apply best_snoc_less; [exact B|]. rewrite R, S1. lia.
        -- cbn [holds]. exists a. rewrite ofType_snoc, T. split; [|split; [reflexivity|split; [exact R|discriminate]]].
           apply best_snoc_more. intros y Y. assert (X := best_bound _ _ _ B Y). rewrite S1 in X. rewrite R. cbn [reachRank] in *. lia.
      * destruct H as [H ->]. cbn [holds]. exists a. rewrite ofType_snoc, T, H.
        split; [|split; [reflexivity|split; [exact R|discriminate]]]. apply best_snoc_more. intros y [].
    + exists a. split; [|reflexivity]. exact (best_reachable t seen cs st a l H R T).
    + rewrite A. apply IH. destruct cs as [s|]; cbn [holds] in *.
      * destruct H as [b [B [E [S1 N]]]]. exists b. rewrite ofType_snoc, T. split; [|split; [exact E|split; [exact S1|exact N]]].
        apply best_snoc_less; [exact B|]. rewrite R. cbn [reachRank]. lia.
      * destruct H as [H ->]. exists a. rewrite ofType_snoc, T, H.
        split; [|split; [reflexivity|split; [exact R|discriminate]]]. apply best_snoc_more. intros y [].
Qed.

(** ** Modules *)

Lemma findType_some : forall p l ty, findType p l = Some ty <-> exists a b, l = a ++ (ty, p) :: b /\ ~ In p (map snd a).
Proof.
  intros p. induction l as [|[id q] l IH]; intro ty; cbn [findType].
  - split; [discriminate|]. intros [a [b [H _]]]. destruct a; discriminate.
  - destruct (String.eqb q p) eqn:E.
    + apply String.eqb_eq in E. subst q. split.
      * intro H. injection H as ->. exists [], l. split; [reflexivity|exact (fun x => x)].
      * intros [a [b [H N]]]. destruct a as [|y a]; [injection H as -> _; reflexivity|].
        cbn [app] in H. injection H as <- _. destruct N. left. reflexivity.
    + apply String.eqb_neq in E. rewrite IH. split.
      * intros [a [b [-> N]]]. exists ((id, q) :: a), b. split; [reflexivity|]. cbn [map snd In]. tauto.
      * intros [a [b [H N]]]. destruct a as [|y a]; [injection H as _ F; congruence|].
        cbn [app] in H. injection H as <- ->. exists a, b. split; [reflexivity|]. intro F. apply N. right. exact F.
Qed.

Lemma findType_none : forall p l, findType p l = None <-> ~ In p (map snd l).
Proof.
  intros p. induction l as [|[id q] l IH]; cbn [findType map snd In]; [tauto|].
  destruct (String.eqb q p) eqn:E.
  - apply String.eqb_eq in E. subst q. split; [discriminate|]. tauto.
  - apply String.eqb_neq in E. rewrite IH. tauto.
Qed.

Lemma takes_find : forall m p ty, takes m p ty <-> exists l, m_types m = Types l /\ findType p l = Some ty.
Proof.
  intros m p ty. split.
  - intros [a [b [E N]]]. exists (a ++ (ty, p) :: b). split; [exact E|]. apply findType_some. exists a, b. split; [reflexivity|exact N].
  - intros [l [E F]]. apply findType_some in F. destruct F as [a [b [-> N]]]. exists a, b. split; assumption.
Qed.

Lemma createWith_made : forall mods k s i ty,
  createWith k mods s = Made i ty <->
  exists j m, i = (k + j)%nat /\ nth_error mods j = Some m /\ takes m (prefixOf s) ty /\ m_creates m s = true /\
    forall j2 m2, j2 < j -> nth_error mods j2 = Some m2 -> passes m2 (prefixOf s).
Proof.
  induction mods as [|m mods IH]; intros k s i ty; cbn [createWith].
  - split; [discriminate|]. intros [j [m [_ [H _]]]]. destruct j; discriminate.
  - assert (Skip : passes m (prefixOf s) ->
      (createWith (S k) mods s = Made i ty <->
       exists j m0, i = (k + j)%nat /\ nth_error (m :: mods) j = Some m0 /\ takes m0 (prefixOf s) ty /\ m_creates m0 s = true /\
         forall j2 m2, j2 < j -> nth_error (m :: mods) j2 = Some m2 -> passes m2 (prefixOf s))).
    { intro P. rewrite IH. split.
      - intros [j [m0 [-> [N [T [C H]]]]]]. exists (S j), m0. split; [lia|]. split; [exact N|]. split; [exact T|]. split; [exact C|].
        intros [|j2] m2 L N2; [injection N2 as <-; exact P|]. apply (H j2 m2); [lia|exact N2].
      - intros [[|j] [m0 [-> [N [T [C H]]]]]].
        + injection N as <-. destruct T as [a [b [E Q]]]. destruct P as [P|[l [P Q2]]]; rewrite E in P; [discriminate|].
          injection P as <-. destruct Q2. rewrite map_app. apply in_or_app. right. left. reflexivity.
        + exists j, m0. split; [lia|]. split; [exact N|]. split; [exact T|]. split; [exact C|].
          intros j2 m2 L N2. apply (H (S j2) m2); [lia|exact N2]. }
    destruct (m_types m) as [| |l] eqn:E.
    + apply Skip. left. exact E.
    + split; [discriminate|]. intros [[|j] [m0 [_ [N [T [_ H]]]]]].
      * injection N as <-. destruct T as [a [b [F _]]]. congruence.
      * destruct (H 0 m) as [F|[l [F _]]]; [lia|reflexivity|congruence|congruence].
    + destruct (findType (prefixOf s) l) as [t|] eqn:F.
      2:{ apply Skip. right. exists l. split; [exact E|]. apply findType_none. exact F. }
      assert (NP : ~ passes m (prefixOf s)).
      { intros [P|[l2 [P Q]]]; rewrite E in P; [discriminate|]. injection P as <-. apply findType_none in Q. congruence. }
      split.
      * destruct (m_creates m s) eqn:C; [|discriminate]. intro H. injection H as <- <-. exists 0, m.
        split; [lia|]. split; [reflexivity|]. split; [apply takes_find; exists l; split; assumption|]. split; [exact C|].
        intros j2 m2 L. lia.
      * intros [[|j] [m0 [-> [N [T [C H]]]]]].
        -- injection N as <-. rewrite C. apply takes_find in T. destruct T as [l2 [E2 F2]]. rewrite E in E2. injection E2 as <-.
           rewrite F in F2. injection F2 as ->. f_equal. lia.
        -- destruct NP. apply (H 0 m); [lia|reflexivity].
Qed.

Definition streamPasses (m : modul) (p : string) : Prop := passes m p \/ m_types m = TypesFail.

Lemma stream_skip : forall l i s acc, (forall m, In m l -> passes m (prefixOf s)) ->
  createStreaming i l s acc = (acc, Some (match rev acc with [] => None | x :: _ => Some x end)).
Proof.
  induction l as [|m l IH]; intros i s acc H; cbn [createStreaming]; [reflexivity|].
  destruct (H m (or_introl eq_refl)) as [E|[ts [E N]]]; rewrite E.
  - apply IH. intros x X. apply H. right. exact X.
  - apply findType_none in N. rewrite N. apply IH. intros x X. apply H. right. exact X.
Qed.

Lemma stream_one : forall a i m b s ty, (forall x, In x a -> passes x (prefixOf s)) -> (forall x, In x b -> passes x (prefixOf s)) ->
  takes m (prefixOf s) ty ->
  createStreaming i (a ++ m :: b) s [] =
  if m_creates m s then ([(i + length a)%nat], Some (Some (i + length a)%nat)) else ([], None).
Proof.
  induction a as [|x a IH]; intros i m b s ty A B T.
  - cbn [app createStreaming length]. apply takes_find in T. destruct T as [l [E F]]. rewrite E, F. rewrite Nat.add_0_r.
    destruct (m_creates m s); [|reflexivity]. rewrite stream_skip by exact B. reflexivity.
  - rewrite <- app_comm_cons. cbn [createStreaming length].
    replace (i + S (length a))%nat with (S i + length a)%nat by lia.
    assert (R := IH (S i) m b s ty (fun y Y => A y (or_intror Y)) B T).
    destruct (A x (or_introl eq_refl)) as [E|[ts [E N]]]; rewrite E; [exact R|].
    apply findType_none in N. rewrite N. exact R.
Qed.

(** ** Several devices *)

Lemma ends_spec : forall ok l s, NoDup l ->
  let r := fold_left (oneEnds ok) l s in
  v_count r = (v_count s + length (filter ok l))%nat /\
  (forall c, dget c (v_devices r) = if in_dec string_dec c l then Some (ok c) else dget c (v_devices s)) /\
  (forall c, dget c (v_codes r) = if in_dec string_dec c l then Some (ok c) else dget c (v_codes s)).
Proof.
  intros ok. induction l as [|x l IH]; intros s N; cbn [fold_left filter].
  - cbn [length]. split; [lia|]. split; intro c; destruct (in_dec string_dec c []) as [[]|_]; reflexivity.
  - inversion N as [|? ? Nx N']; subst. destruct (IH (oneEnds ok s x) N') as [C [D E]]. cbv zeta in *.
    split; [|split].
    + rewrite C. cbn [oneEnds v_count]. destruct (ok x); cbn [length]; lia.
    + intro c. rewrite D. cbn [oneEnds v_devices].
      destruct (in_dec string_dec c l) as [I1|I1], (in_dec string_dec c (x :: l)) as [I2|I2]; try reflexivity.
      * destruct I2. right. exact I1.
      * destruct I2 as [<-|I2]; [apply dget_set_same|contradiction].
      * apply dget_set_other. intros ->. apply I2. left. reflexivity.
    + intro c. rewrite E. cbn [oneEnds v_codes].
      destruct (in_dec string_dec c l) as [I1|I1], (in_dec string_dec c (x :: l)) as [I2|I2]; try reflexivity.
      * destruct I2. right. exact I1.
      * destruct I2 as [<-|I2]; [apply dget_set_same|contradiction].
      * apply dget_set_other. intros ->. apply I2. left. reflexivity.
Qed.

Lemma ends_keys : forall ok l s, incl l (map fst (v_devices s)) ->
  map fst (v_devices (fold_left (oneEnds ok) l s)) = map fst (v_devices s).
Proof.
  intros ok. induction l as [|x l IH]; intros s H; [reflexivity|]. cbn [fold_left].
  assert (K : map fst (v_devices (oneEnds ok s x)) = map fst (v_devices s)).
  { cbn [oneEnds v_devices]. apply keys_set_in. apply H. left. reflexivity. }
  rewrite IH; [exact K|]. rewrite K. intros y Y. apply H. right. exact Y.
Qed.

Lemma filter_all : forall {A} (f : A -> bool) l, length (filter f l) = length l <-> forall x, In x l -> f x = true.
Proof.
  intros A f. induction l as [|x l IH]; cbn [filter length]. { split; [intros _ y []|reflexivity]. }
  assert (L : length (filter f l) <= length l).
  { clear IH. induction l as [|y l IH]; cbn [filter length]; [lia|]. destruct (f y); cbn [length]; lia. }
  destruct (f x) eqn:E; cbn [length].
  - split.
    + intros H y [<-|Y]; [exact E|]. apply IH; [lia|exact Y].
    + intro H. f_equal. apply IH. intros y Y. apply H. right. exact Y.
  - split; [lia|]. intro H. rewrite H in E by (left; reflexivity). discriminate.
Qed.

Lemma filter_none : forall {A} (f : A -> bool) l, length (filter f l) = 0 <-> forall x, In x l -> f x = false.
Proof.
  intros A f. induction l as [|x l IH]; cbn [filter length]. { split; [intros _ y []|reflexivity]. }
  destruct (f x) eqn:E; cbn [length].
  - split; [discriminate|]. intro H. rewrite H in E by (left; reflexivity). discriminate.
  - rewrite IH. split; intros H y; [intros [<-|Y]; [exact E|exact (H y Y)]|intro Y; apply H; right; exact Y].
Qed.

(** ** Local ids *)

Lemma digits_uint : forall u a any, any = true \/ u <> Decimal.Nil ->
  digits (NilEmpty.string_of_uint u) (Z.of_nat a) any = Some (Z.of_nat (Nat.of_uint_acc u a)).
Proof.
  assert (D : forall u k (c : ascii) a any,
    (forall a any, any = true \/ u <> Decimal.Nil -> digits (NilEmpty.string_of_uint u) (Z.of_nat a) any = Some (Z.of_nat (Nat.of_uint_acc u a))) ->
    digit c = Some (Z.of_nat k) ->
    digits (String c (NilEmpty.string_of_uint u)) (Z.of_nat a) any = Some (Z.of_nat (Nat.of_uint_acc u (k + 10 * a)))).
  { intros u k c a any IH Dc. cbn [digits]. rewrite Dc. replace (Z.of_nat a * 10 + Z.of_nat k)%Z with (Z.of_nat (k + 10 * a)) by lia.
    apply IH. left. reflexivity. }
  induction u as [|u IH|u IH|u IH|u IH|u IH|u IH|u IH|u IH|u IH|u IH]; intros a any H;
    cbn [NilEmpty.string_of_uint Nat.of_uint_acc]; rewrite ?Nat.tail_mul_spec.
  - destruct H as [->|H]; [reflexivity|destruct H; reflexivity].
  - exact (D u 0 "0"%char a any IH eq_refl).
  - exact (D u 1 "1"%char a any IH eq_refl).
  - exact (D u 2 "2"%char a any IH eq_refl).
  - exact (D u 3 "3"%char a any IH eq_refl).
  - exact (D u 4 "4"%char a any IH eq_refl).
  - exact (D u 5 "5"%char a any IH eq_refl).
  - exact (D u 6 "6"%char a any IH eq_refl).
  - exact (D u 7 "7"%char a any IH eq_refl).
  - exact (D u 8 "8"%char a any IH eq_refl).
  - exact (D u 9 "9"%char a any IH eq_refl).
Qed.

Lemma afterLast_app : forall p n, afterLast (p ++ String "_"%char (decimal n)) = Some (decimal n).
Proof. intros p n. exact (after_app p (decimal n) (noU_decimal n)). Qed.

Lemma decimal_head : forall n, exists d c r, decimal n = String c r /\ digit c = Some d /\ isSpace c = false /\ c <> "-"%char /\ c <> "+"%char.
Proof.
  intro n. unfold decimal, NilZero.string_of_uint.
  destruct (Nat.to_uint n) as [|u|u|u|u|u|u|u|u|u|u]; cbn [NilEmpty.string_of_uint].
  - exists 0%Z, "0"%char, "". repeat split; discriminate.
  - exists 0%Z, "0"%char, (NilEmpty.string_of_uint u). repeat split; discriminate.
  - exists 1%Z, "1"%char, (NilEmpty.string_of_uint u). repeat split; discriminate.
  - exists 2%Z, "2"%char, (NilEmpty.string_of_uint u). repeat split; discriminate.
  - exists 3%Z, "3"%char, (NilEmpty.string_of_uint u). repeat split; discriminate.
  - exists 4%Z, "4"%char, (NilEmpty.string_of_uint u). repeat split; discriminate.
  - exists 5%Z, "5"%char, (NilEmpty.string_of_uint u). repeat split; discriminate.
  - exists 6%Z, "6"%char, (NilEmpty.string_of_uint u). repeat split; discriminate.
  - exists 7%Z, "7"%char, (NilEmpty.string_of_uint u). repeat split; discriminate.
  - exists 8%Z, "8"%char, (NilEmpty.string_of_uint u). repeat split; discriminate.
  - exists 9%Z, "9"%char, (NilEmpty.string_of_uint u). repeat split; discriminate.
Qed.

Lemma digits_decimal : forall n, digits (decimal n) 0 false = Some (Z.of_nat n).
Proof.
  intro n. unfold decimal. assert (U : NilZero.string_of_uint (Nat.to_uint n) = NilEmpty.string_of_uint (Nat.to_uint n)).
  { assert (N := to_uint_nonnil n). destruct (Nat.to_uint n); try reflexivity. destruct N. reflexivity. }
  rewrite U. change 0%Z with (Z.of_nat 0). rewrite digits_uint by (right; apply to_uint_nonnil).
  f_equal. f_equal. exact (DecimalNat.Unsigned.of_to n).
Qed.

Lemma stoi_decimal : forall n, (Z.of_nat n <= intMax)%Z -> stoi (decimal n) = Some (Z.of_nat n).
Proof.
  intros n L. unfold stoi. assert (D := digits_decimal n). destruct (decimal_head n) as [d [c [r [E [_ [Sp [M P]]]]]]].
  rewrite E in *. cbn [skipSpace]. rewrite Sp.
  assert (V : signed (String c r) = Some (Z.of_nat n)).
  { cbn [signed]. apply Ascii.eqb_neq in M, P. rewrite M, P. exact D. }
  rewrite V. unfold intMin. destruct (-2147483648 <=? Z.of_nat n)%Z eqn:E1; [|apply Z.leb_gt in E1; lia].
  apply Z.leb_le in L. rewrite L. reflexivity.
Qed.

Lemma starts_app : forall p r, starts p (p ++ r)%string = true.
Proof. intros p r. apply starts_spec. exists r. reflexivity. Qed.

Lemma number_bound : forall ty id z, number ty id = Some z -> (z <= intMax)%Z.
Proof.
  intros ty id z H. unfold number in H. destruct (starts ty id); [|discriminate]. destruct (afterLast id) as [x|]; [|discriminate].
  unfold stoi in H. match type of H with match ?v with _ => _ end = _ => destruct v as [y|]; [|discriminate] end.
  destruct ((intMin <=? y) && (y <=? intMax))%Z eqn:E; [|discriminate]. injection H as <-.
  apply andb_true_iff in E. destruct E as [_ E]. apply Z.leb_le in E. exact E.
Qed.

Lemma max_spec : forall ty ids m, (m <= intMax)%Z ->
  (m <= maxNumber ty ids m <= intMax)%Z /\ (forall id z, In id ids -> number ty id = Some z -> (z <= maxNumber ty ids m)%Z) /\
  (maxNumber ty ids m = m \/ exists id, In id ids /\ number ty id = Some (maxNumber ty ids m)).
Proof.
  intros ty. induction ids as [|x ids IH]; intros m M; cbn [maxNumber].
  - split; [lia|]. split; [intros id z []|]. left. reflexivity.
  - destruct (number ty x) as [zx|] eqn:X.
    + assert (B := number_bound _ _ _ X). destruct (m <? zx)%Z eqn:L.
      * apply Z.ltb_lt in L. destruct (IH zx B) as [R [H C]]. split; [lia|]. split.
        -- intros id z [<-|I1] N; [rewrite X in N; injection N as <-; lia|exact (H id z I1 N)].
        -- right. destruct C as [C|[id [I1 N]]]; [exists x; split; [left; reflexivity|rewrite C; exact X]|exists id; split; [right; exact I1|exact N]].
      * apply Z.ltb_ge in L. destruct (IH m M) as [R [H C]]. split; [lia|]. split.
        -- intros id z [<-|I1] N; [rewrite X in N; injection N as <-; lia|exact (H id z I1 N)].
        -- destruct C as [C|[id [I1 N]]]; [left; exact C|right; exists id; split; [right; exact I1|exact N]].
    + destruct (IH m M) as [R [H C]]. split; [exact R|]. split.
      * intros id z [<-|I1] N; [congruence|exact (H id z I1 N)].
      * destruct C as [C|[id [I1 N]]]; [left; exact C|right; exists id; split; [right; exact I1|exact N]].
Qed.

Lemma number_own : forall ty n, (Z.of_nat n <= intMax)%Z -> number ty (ty ++ "_" ++ decimal n)%string = Some (Z.of_nat n).
Proof.
  intros ty n L. unfold number. rewrite starts_app. cbn [append]. rewrite afterLast_app. apply stoi_decimal. exact L.
Qed.

(** ** Configurations *)

Lemma dget_override : forall {A} (f : A -> string -> A) src t n,
  dget n (override f t src) = match dget n t with
                              | None => None
                              | Some x => Some (match dget n src with Some v => f x v | None => x end)
                              end.
Proof.
  intros A f src t n. unfold override. induction t as [|[k x] t IH]; [reflexivity|]. cbn [map dget fst snd].
  destruct (String.eqb n k) eqn:E; [|exact IH]. apply String.eqb_eq in E. subst k. reflexivity.
Qed.

Lemma override_keys : forall {A} (f : A -> string -> A) src t, map fst (override f t src) = map fst t.
Proof. intros A f src t. unfold override. rewrite map_map. cbn [fst]. reflexivity. Qed.

Lemma copy_get : forall gen t n, NoDup (map fst gen) ->
  dget n (copyGeneral gen t) = match dget n t with None => None | Some x => Some (fromGeneral gen n x) end.
Proof.
  unfold fromGeneral. induction gen as [|[k [v d]] gen IH]; intros t n N; cbn [copyGeneral].
  - cbn [dget]. destruct (dget n t); reflexivity.
  - cbn [map fst] in N. inversion N as [|? ? Nk N']; subst. rewrite IH by exact N'. cbn [dget].
    destruct (String.eqb n k) eqn:E.
    + apply String.eqb_eq in E. subst k. assert (G : dget n gen = None) by (apply dget_none; exact Nk). rewrite G.
      destruct (dget n t) as [x|] eqn:T; [|rewrite T; reflexivity].
      destruct (String.eqb x d); [rewrite dget_set_same; reflexivity|rewrite T; reflexivity].
    + apply String.eqb_neq in E. destruct (dget k t) as [y|]; [|reflexivity].
      destruct (String.eqb y d); [rewrite dget_set_other by exact E; reflexivity|reflexivity].
Qed.

Lemma options_get : forall o t n, NoDup (map fst o) ->
  dget n (fromOptions o t) = match dget n t with
                             | None => None
                             | Some x => Some (match dget n o with Some v => v | None => x end)
                             end.
Proof.
  induction o as [|[k v] o IH]; intros t n N; cbn [fromOptions].
  - cbn [dget]. destruct (dget n t); reflexivity.
  - cbn [map fst] in N. inversion N as [|? ? Nk N']; subst. rewrite IH by exact N'. cbn [dget]. rewrite dhas_get.
    destruct (String.eqb n k) eqn:E.
    + apply String.eqb_eq in E. subst k. assert (G : dget n o = None) by (apply dget_none; exact Nk). rewrite G.
      destruct (dget n t) as [x|] eqn:T; [rewrite dget_set_same; reflexivity|rewrite T; reflexivity].
    + apply String.eqb_neq in E. destruct (dget k t); [rewrite dget_set_other by exact E; reflexivity|reflexivity].
Qed.

(** ** Merging *)

Lemma mergeProps_get : forall disc have n, NoDup (map fst disc) ->
  dget n (mergeProps disc have) = mergedProp (dget n disc) (dget n have).
Proof.
  induction disc as [|[k [v d]] disc IH]; intros have n N; cbn [mergeProps]; [reflexivity|].
  cbn [map fst] in N. inversion N as [|? ? Nk N']; subst. rewrite IH by exact N'. cbn [dget].
  destruct (String.eqb n k) eqn:E.
  - apply String.eqb_eq in E. subst k. assert (G : dget n disc = None) by (apply dget_none; exact Nk). rewrite G.
    cbn [mergedProp]. destruct (dget n have) as [[v0 d0]|] eqn:H.
    + destruct (String.eqb v d); [exact H|apply dget_set_same].
    + rewrite dget_snoc_all, H, String.eqb_refl. reflexivity.
  - assert (E' := E). apply String.eqb_neq in E. f_equal. destruct (dget k have) as [[v0 d0]|] eqn:H.
    + destruct (String.eqb v d); [reflexivity|apply dget_set_other; exact E].
    + rewrite dget_snoc_all, E'. destruct (dget n have); reflexivity.
Qed.

Lemma findCap_some : forall id l c, findCap id l = Some c -> In c l /\ pc_id c = id.
Proof.
  intros id. induction l as [|x l IH]; intros c H; cbn [findCap] in H; [discriminate|].
  destruct (String.eqb (pc_id x) id) eqn:E.
  - injection H as <-. apply String.eqb_eq in E. split; [left; reflexivity|exact E].
  - destruct (IH c H) as [A B]. split; [right; exact A|exact B].
Qed.

Lemma findCap_none : forall id l, findCap id l = None <-> ~ In id (map pc_id l).
Proof.
  intros id. induction l as [|x l IH]; cbn [findCap map In]; [tauto|]. destruct (String.eqb (pc_id x) id) eqn:E.
  - apply String.eqb_eq in E. split; [discriminate|tauto].
  - apply String.eqb_neq in E. rewrite IH. tauto.
Qed.

Lemma findCap_snoc : forall id l c, findCap id (l ++ [c]) =
  match findCap id l with Some x => Some x | None => if String.eqb (pc_id c) id then Some c else None end.
Proof.
  intros id. induction l as [|x l IH]; intro c; [reflexivity|]. rewrite <- app_comm_cons. cbn [findCap].
  destruct (String.eqb (pc_id x) id); [reflexivity|apply IH].
Qed.

Lemma findCap_remove : forall id k l, findCap id (removeCap k l) = if String.eqb id k then None else findCap id l.
Proof.
  intros id k. unfold removeCap. induction l as [|x l IH]; cbn [filter findCap]; [destruct (String.eqb id k); reflexivity|].
  destruct (String.eqb (pc_id x) k) eqn:E; cbn [negb].
  - rewrite IH. apply String.eqb_eq in E. destruct (String.eqb id k) eqn:E2; [reflexivity|].
    destruct (String.eqb (pc_id x) id) eqn:E3; [|reflexivity]. apply String.eqb_eq in E3. apply String.eqb_neq in E2. congruence.
  - cbn [findCap]. rewrite IH. destruct (String.eqb (pc_id x) id) eqn:E3; [|reflexivity].
    apply String.eqb_eq in E3. subst id. rewrite E. reflexivity.
Qed.

Lemma ids_remove : forall k l, NoDup (map pc_id l) -> NoDup (map pc_id (removeCap k l)) /\ ~ In k (map pc_id (removeCap k l)).
Proof.
  intros k l N. split.
  - unfold removeCap. induction l as [|x l IH]; cbn [filter map]; [constructor|]. cbn [map] in N. inversion N as [|? ? Nx N']; subst.
    destruct (String.eqb (pc_id x) k); cbn [negb map]; [exact (IH N')|]. constructor; [|exact (IH N')].
    intro H. apply Nx. apply in_map_iff in H. destruct H as [y [E Y]]. apply filter_In in Y. rewrite <- E. apply in_map. tauto.
  - apply findCap_none. rewrite findCap_remove, String.eqb_refl. reflexivity.
Qed.

Lemma mergeCaps_spec : forall disc have, NoDup (map pc_id disc) -> NoDup (map pc_id have) ->
  NoDup (map pc_id (mergeCaps disc have)) /\
  forall id, findCap id (mergeCaps disc have) =
    match findCap id disc, findCap id have with
    | None, x => x
    | Some c, None => Some c
    | Some c, Some h => Some (PCap id (mergeProps (pc_props c) (pc_props h)))
    end.
Proof.
  induction disc as [|c disc IH]; intros have Nd Nh; cbn [mergeCaps].
  - split; [exact Nh|]. intro id. reflexivity.
  - cbn [map] in Nd. inversion Nd as [|? ? Nc Nd']; subst.
    assert (Gc : findCap (pc_id c) disc = None) by (apply findCap_none; exact Nc).
    destruct (findCap (pc_id c) have) as [h|] eqn:F.
    + destruct (findCap_some _ _ _ F) as [_ Eh]. destruct (ids_remove (pc_id c) have Nh) as [R1 R2].
      assert (N2 : NoDup (map pc_id (removeCap (pc_id c) have ++ [PCap (pc_id h) (mergeProps (pc_props c) (pc_props h))]))).
      { rewrite map_app. apply nodup_snoc; [exact R1|]. cbn [pc_id]. rewrite Eh. exact R2. }
      destruct (IH _ Nd' N2) as [N3 G]. split; [exact N3|]. intro id. rewrite G, findCap_snoc, findCap_remove. cbn [pc_id findCap].
      rewrite Eh. destruct (String.eqb (pc_id c) id) eqn:E.
      * apply String.eqb_eq in E. subst id. rewrite Gc, String.eqb_refl, F. reflexivity.
      * rewrite String.eqb_sym, E. destruct (findCap id disc), (findCap id have); reflexivity.
    + assert (N2 : NoDup (map pc_id (have ++ [c]))).
      { rewrite map_app. apply nodup_snoc; [exact Nh|]. apply findCap_none. exact F. }
      destruct (IH _ Nd' N2) as [N3 G]. split; [exact N3|]. intro id. rewrite G, findCap_snoc. cbn [findCap].
      destruct (String.eqb (pc_id c) id) eqn:E.
      * apply String.eqb_eq in E. subst id. rewrite Gc, F. reflexivity.
      * destruct (findCap id disc), (findCap id have); reflexivity.
Qed.
