(** Proofs about packets created in bulk. *)
From Coq Require Import List Bool ZArith Lia Arith.
From Verif Require Import Bulk_Model Bulk_Spec.
Import ListNotations.
Open Scope Z_scope.

(* ---------- layout ---------- *)
Lemma up_ge v a : 1 <= a -> v <= up v a.
Proof. intro A. unfold up. pose proof (Z.div_mod (v + a - 1) a ltac:(lia)) as D. pose proof (Z.mod_pos_bound (v + a - 1) a ltac:(lia)). rewrite Z.mul_comm. lia. Qed.
Lemma up_le v a : 1 <= a -> up v a <= v + a - 1.
Proof. intro A. unfold up. pose proof (Z.div_mod (v + a - 1) a ltac:(lia)) as D. pose proof (Z.mod_pos_bound (v + a - 1) a ltac:(lia)). rewrite Z.mul_comm. lia. Qed.
Lemma up_mod v a : 1 <= a -> up v a mod a = 0.
Proof. intro A. unfold up. apply Z.mod_mul. lia. Qed.
Lemma up_add v x a : 1 <= a -> v mod a = 0 -> up (v + x) a = v + up x a.
Proof.
  intros A M. unfold up. pose proof (Z.div_mod v a ltac:(lia)) as D. rewrite M in D.
  replace (v + x + a - 1) with (v / a * a + (x + a - 1)) by lia. rewrite Z.div_add_l by lia. lia.
Qed.
Lemma align_up v a : 1 <= a -> 0 <= v -> v + a - 1 < W -> align_to v a = up v a.
Proof.
  intros A V L. unfold align_to. rewrite (Z.mod_small (v + a - 1)) by lia. apply Z.mod_small.
  pose proof (up_ge v a A). pose proof (up_le v a A). unfold up in *. lia.
Qed.

Fixpoint chain (lo : Z) (l : list region) (hi : Z) : Prop :=
  match l with [] => lo <= hi | r :: l => lo <= fst r /\ 0 <= snd r /\ chain (fst r + snd r) l hi end.
Lemma chain_low l : forall lo lo' hi, lo' <= lo -> chain lo l hi -> chain lo' l hi.
Proof. destruct l as [|r l]; intros lo lo' hi L C; cbn [chain] in *; [lia|]. destruct C as (A & B & C). split; [lia|]. split; assumption. Qed.
Lemma chain_app l1 : forall lo l2 mid hi, chain lo l1 mid -> chain mid l2 hi -> chain lo (l1 ++ l2) hi.
Proof.
  induction l1 as [|r l1 IH]; intros lo l2 mid hi C1 C2; cbn [app chain] in *; [exact (chain_low _ _ _ _ C1 C2)|].
  destruct C1 as (A & B & C1). split; [exact A|]. split; [exact B|]. exact (IH _ _ _ _ C1 C2).
Qed.
Lemma chain_len l : forall lo hi, chain lo l hi -> lo <= hi.
Proof. induction l as [|r l IH]; intros lo hi C; cbn [chain] in C; [exact C|]. destruct C as (A & B & C). specialize (IH _ _ C). lia. Qed.
Lemma chain_in l : forall lo hi r, chain lo l hi -> In r l -> lo <= fst r /\ 0 <= snd r /\ fst r + snd r <= hi.
Proof.
  induction l as [|s l IH]; intros lo hi r C H; [destruct H|]. cbn [chain] in C. destruct C as (A & B & C). pose proof (chain_len _ _ _ C).
  destruct H as [->|H]; [lia|]. destruct (IH _ _ _ C H). lia.
Qed.
Lemma chain_apart l : forall lo hi, chain lo l hi -> Pairwise apart l.
Proof.
  induction l as [|s l IH]; intros lo hi C; cbn [Pairwise]; [exact Logic.I|]. cbn [chain] in C. destruct C as (A & B & C). split; [|exact (IH _ _ C)].
  intros r H. left. destruct (chain_in _ _ _ _ C H). lia.
Qed.

Section Layout.
  Variables (c : conf) (a : Z).
  Hypothesis A : c_align c = a.
  Hypothesis A1 : 1 <= a.
  Definition need (p : pkt) : Z := p_count p * 8 + p_count p * p_raw p + 2 * a.
  Lemma places_chain dom : 0 <= dom <= 8 -> forall ps d, 0 <= d -> (forall p, In p ps -> 0 <= p_count p /\ 0 <= p_raw p) ->
    d + sum (map need ps) < W ->
    chain d (concat (map (fun x => used dom (fst x) (snd x)) (combine ps (places c d ps)))) (mem_size c d ps) /\
    d <= mem_size c d ps < W.
  Proof.
    intros Hd. induction ps as [|p ps IH]; intros d D P L; [cbn in *; lia|].
    destruct (P p (or_introl eq_refl)) as [P1 P2]. cbn [map sum] in L. unfold need at 1 in L.
    assert (S0 : 0 <= sum (map need ps)).
    { assert (Q : forall p, In p ps -> 0 <= p_count p /\ 0 <= p_raw p) by (intros q Hq; apply P; right; exact Hq).
      clear - Q A1. induction ps as [|q ps IH]; cbn [map sum]; [lia|]. destruct (Q q (or_introl eq_refl)). unfold need at 1.
      assert (0 <= p_count q * p_raw q) by nia. specialize (IH (fun r Hr => Q r (or_intror Hr))). lia. }
    assert (R0 : 0 <= p_count p * p_raw p) by nia.
    assert (C8 : (p_count p * 8) mod W = p_count p * 8) by (apply Z.mod_small; lia).
    assert (C8' : (8 * p_count p) mod W = p_count p * 8) by (rewrite Z.mul_comm; exact C8).
    assert (CR : (p_count p * p_raw p) mod W = p_count p * p_raw p) by (apply Z.mod_small; lia).
    assert (CR' : (p_raw p * p_count p) mod W = p_count p * p_raw p) by (rewrite Z.mul_comm; exact CR).
    pose proof (up_ge (p_count p * 8) a A1) as U1. pose proof (up_le (p_count p * 8) a A1) as U2.
    pose proof (up_ge (p_count p * p_raw p) a A1) as U3. pose proof (up_le (p_count p * p_raw p) a A1) as U4.
    set (d1 := if c_explicit c then d + align_to ((8 * p_count p) mod W) (c_align c) else d).
    set (d2 := d1 + align_to ((p_raw p * p_count p) mod W) (c_align c)).
    assert (D2 : d1 + up (p_count p * p_raw p) a = d2) by (unfold d2; rewrite CR', A, align_up by lia; reflexivity).
    assert (DS : (d + data_size c p) mod W = d2 /\ d <= d1 /\ (c_explicit c = true -> d + p_count p * 8 <= d1) /\ d2 + sum (map need ps) < W).
    { unfold data_size, d2, d1. rewrite A, C8, C8', CR, CR'. destruct (c_explicit c) eqn:EX.
      - rewrite !(align_up (p_count p * 8)), !(align_up (p_count p * p_raw p)) by lia.
        rewrite (Z.mod_small (up (p_count p * 8) a + _)) by lia. rewrite align_up by lia. rewrite up_add by (try exact A1; apply up_mod; exact A1).
        rewrite Z.mod_small by lia. repeat split; lia.
      - rewrite Z.add_0_l, (Z.mod_small (p_count p * p_raw p)) by lia. rewrite (align_up (p_count p * p_raw p)) by lia. rewrite Z.mod_small by lia. repeat split; lia. }
    destruct DS as (DS & DL & DE & DB). cbn [mem_size]. rewrite DS.
    destruct (IH d2) as [C L2]; [lia|intros q Hq; apply P; right; exact Hq|exact DB|].
    split; [|lia].
    change (places c d (p :: ps)) with ((if c_explicit c then Some d else None, d1) :: places c d2 ps).
    cbn [combine map concat fst snd]. eapply chain_app; [|exact C]. unfold used. cbn [fst snd]. clearbody d1 d2.
    destruct (c_explicit c); cbn [app chain fst snd].
    - specialize (DE eq_refl). assert (0 <= p_count p * dom <= p_count p * 8) by nia. repeat split; lia.
    - repeat split; lia.
  Qed.
  Lemma objects_chain : 0 <= c_int c -> 0 <= c_obj c -> forall n d, chain d (objects c d n) (d + ((if c_offsets c then c_int c else 0) + c_obj c * 2) * Z.of_nat n).
  Proof.
    intros I0 O0. induction n as [|n IH]; intro d; [cbn; lia|]. cbn [objects].
    set (i := if c_offsets c then c_int c else 0) in *.
    assert (Hi : 0 <= i) by (unfold i; destruct (c_offsets c); lia).
    eapply chain_app with (mid := d + i).
    { unfold i. destruct (c_offsets c); cbn [chain fst snd]; repeat split; lia. }
    cbn [app chain fst snd]. split; [lia|]. split; [lia|]. split; [lia|]. split; [lia|].
    specialize (IH (d + i + c_obj c + c_obj c)). replace (d + (i + c_obj c * 2) * Z.of_nat (S n)) with (d + i + c_obj c + c_obj c + (i + c_obj c * 2) * Z.of_nat n) by lia. exact IH.
  Qed.
  Lemma all_chain dom ps : 0 <= dom <= 8 -> Sensible c ps -> Fits c ps -> chain 0 (all_used c dom ps) (allocated c ps).
  Proof.
    intros Hd (I0 & O0 & _ & P) F. unfold Fits in F. rewrite A in F. fold need in F. change (2 ^ 64) with W in F.
    change (map (fun p => p_count p * 8 + p_count p * p_raw p + 2 * a) ps) with (map need ps) in F.
    assert (S0 : 0 <= sum (map need ps)).
    { clear - P A1. induction ps as [|q ps IH]; cbn [map sum]; [lia|]. destruct (P q (or_introl eq_refl)). unfold need at 1.
      assert (0 <= p_count q * p_raw q) by nia. specialize (IH (fun r Hr => P r (or_intror Hr))). lia. }
    unfold all_used. cbn [app chain fst snd]. split; [lia|]. split; [lia|]. split; [lia|]. split; [lia|]. split; [lia|]. split; [lia|].
    change (12 + 8) with 20.
    set (i := if c_offsets c then c_int c else 0) in *.
    assert (Hi : 0 <= i <= c_int c) by (unfold i; destruct (c_offsets c); lia).
    set (sz := 20 + (i + c_obj c * 2) * Z.of_nat (length ps)).
    assert (SZ : 0 <= sz /\ sz + a + sum (map need ps) < W) by (unfold sz; nia).
    assert (H : header c ps = up sz a).
    { unfold header. fold i. change (4 + 8 + 8) with 20. fold sz. rewrite Z.mod_small by lia. rewrite A. apply align_up; lia. }
    pose proof (up_ge sz a A1). pose proof (up_le sz a A1).
    destruct (places_chain dom Hd ps (header c ps)) as [C _]; [lia|exact P|lia|].
    eapply chain_app; [exact (objects_chain I0 O0 (length ps) 20)|]. fold i. fold sz. unfold layout, allocated.
    eapply chain_low; [|exact C]. lia.
  Qed.
  (** All data begin at multiples of the alignment. *)
  Lemma mod_plus x y : x mod a = 0 -> y mod a = 0 -> (x + y) mod a = 0.
  Proof. intros X Y. rewrite Z.add_mod, X, Y by lia. apply Z.mod_0_l. lia. Qed.
  Lemma places_aligned : forall ps d, d mod a = 0 -> 0 <= d -> (forall p, In p ps -> 0 <= p_count p /\ 0 <= p_raw p) -> sum (map need ps) < W ->
    forall l, In l (places c d ps) -> snd l mod a = 0 /\ (forall x, fst l = Some x -> x mod a = 0).
  Proof.
    induction ps as [|p ps IH]; intros d D D0 P L l H; [destruct H|].
    destruct (P p (or_introl eq_refl)) as [P1 P2]. cbn [map sum] in L. unfold need at 1 in L.
    assert (S0 : 0 <= sum (map need ps)).
    { assert (Q : forall p, In p ps -> 0 <= p_count p /\ 0 <= p_raw p) by (intros q Hq; apply P; right; exact Hq).
      clear - Q A1. induction ps as [|q ps IH]; cbn [map sum]; [lia|]. destruct (Q q (or_introl eq_refl)). unfold need at 1.
      assert (0 <= p_count q * p_raw q) by nia. specialize (IH (fun r Hr => Q r (or_intror Hr))). lia. }
    assert (R0 : 0 <= p_count p * p_raw p) by nia.
    assert (E1 : align_to ((8 * p_count p) mod W) (c_align c) = up (8 * p_count p) a) by (rewrite A, Z.mod_small, align_up by lia; reflexivity).
    assert (E2 : align_to ((p_raw p * p_count p) mod W) (c_align c) = up (p_raw p * p_count p) a) by (rewrite A, Z.mod_small, align_up by lia; reflexivity).
    pose proof (up_ge (8 * p_count p) a A1) as U1. pose proof (up_ge (p_raw p * p_count p) a A1) as U2.
    cbn [places] in H. rewrite E1, E2 in H.
    assert (M1 : (if c_explicit c then d + up (8 * p_count p) a else d) mod a = 0).
    { destruct (c_explicit c); [|exact D]. apply mod_plus; [exact D|apply up_mod; exact A1]. }
    destruct H as [<-|H].
    - cbn [fst snd]. split; [exact M1|]. intros x E. destruct (c_explicit c); inversion E; subst; exact D.
    - refine (IH _ _ _ _ _ l H).
      + apply mod_plus; [exact M1|apply up_mod; exact A1].
      + destruct (c_explicit c); lia.
      + intros q Hq. apply P. right. exact Hq.
      + lia.
  Qed.
  Lemma layout_aligned ps : Sensible c ps -> Fits c ps -> forall l, In l (layout c ps) -> snd l mod a = 0 /\ (forall x, fst l = Some x -> x mod a = 0).
  Proof.
    intros (I0 & O0 & _ & P) F. unfold Fits in F. rewrite A in F. change (2 ^ 64) with W in F.
    change (map (fun p => p_count p * 8 + p_count p * p_raw p + 2 * a) ps) with (map need ps) in F.
    set (i := if c_offsets c then c_int c else 0) in *.
    assert (Hi : 0 <= i <= c_int c) by (unfold i; destruct (c_offsets c); lia).
    assert (S0 : 0 <= sum (map need ps)).
    { clear - P A1. induction ps as [|q ps IH]; cbn [map sum]; [lia|]. destruct (P q (or_introl eq_refl)). unfold need at 1.
      assert (0 <= p_count q * p_raw q) by nia. specialize (IH (fun r Hr => P r (or_intror Hr))). lia. }
    set (sz := 20 + (i + c_obj c * 2) * Z.of_nat (length ps)).
    assert (SZ : 0 <= sz /\ sz + a + sum (map need ps) < W) by (unfold sz; nia).
    assert (H : header c ps = up sz a).
    { unfold header. fold i. change (4 + 8 + 8) with 20. fold sz. rewrite Z.mod_small by lia. rewrite A. apply align_up; lia. }
    pose proof (up_ge sz a A1). unfold layout. apply places_aligned; [rewrite H; apply up_mod; exact A1|lia|exact P|lia].
  Qed.
End Layout.

(* ---------- lifetime ---------- *)
Fixpoint tot (f : agent -> Z) (l : list agent) : Z := match l with [] => 0 | a :: l => f a + tot f l end.
Lemma tot_app f l1 l2 : tot f (l1 ++ l2) = tot f l1 + tot f l2.
Proof. induction l1 as [|a l1 IH]; cbn [app tot]; [reflexivity|]. rewrite IH. lia. Qed.
Lemma tot_pos f l : (forall a, 0 <= f a) -> 0 <= tot f l.
Proof. intro P. induction l as [|a l IH]; cbn [tot]; [lia|]. specialize (P a). lia. Qed.
Fixpoint occ (p : op -> bool) (l : list op) : Z := match l with [] => 0 | a :: l => (if p a then 1 else 0) + occ p l end.
Lemma occ_app p l1 l2 : occ p (l1 ++ l2) = occ p l1 + occ p l2.
Proof. induction l1 as [|a l1 IH]; cbn [app occ]; [reflexivity|]. rewrite IH. lia. Qed.
Lemma occ_pos p l : 0 <= occ p l.
Proof. induction l as [|a l IH]; cbn [occ]; [lia|]. destruct (p a); lia. Qed.
Definition is_rel o x := match x with Release j => Nat.eqb j o | _ => false end.
Definition is_chunk x := match x with Chunk => true | _ => false end.
Definition is_destr x := match x with Destruct => true | _ => false end.
Definition uses o a := match a with Hold j => if Nat.eqb j o then 1 else 0 | Run l => occ (is_rel o) l end.
Definition chunks a := match a with Hold _ => 0 | Run l => occ is_chunk l end.
Definition destrs a := match a with Hold _ => 0 | Run l => occ is_destr l end.
Lemma uses_pos o a : 0 <= uses o a.
Proof. destruct a as [j|l]; cbn [uses]; [destruct (Nat.eqb j o); lia|apply occ_pos]. Qed.
Lemma chunks_pos a : 0 <= chunks a.
Proof. destruct a as [j|l]; cbn [chunks]; [lia|apply occ_pos]. Qed.
Lemma destrs_pos a : 0 <= destrs a.
Proof. destruct a as [j|l]; cbn [destrs]; [lia|apply occ_pos]. Qed.
Lemma tot_todo_u o k : tot (uses o) (todo k) = occ (is_rel o) k.
Proof. destruct k; [reflexivity|]. cbn [todo tot uses]. lia. Qed.
Lemma tot_todo_c k : tot chunks (todo k) = occ is_chunk k.
Proof. destruct k; [reflexivity|]. cbn [todo tot chunks]. lia. Qed.
Lemma tot_todo_d k : tot destrs (todo k) = occ is_destr k.
Proof. destruct k; [reflexivity|]. cbn [todo tot destrs]. lia. Qed.

Fixpoint live (l : list Z) : Z := match l with [] => 0 | c :: l => (if 0 <? c then 1 else 0) + live l end.
Lemma live_pos l : 0 <= live l.
Proof. induction l as [|c l IH]; cbn [live]; [lia|]. destruct (0 <? c); lia. Qed.
Lemma add_at_nth d : forall l k j, nth j (add_at k d l) 0 = if (Nat.eqb j k && (k <? length l)%nat)%bool then nth j l 0 + d else nth j l 0.
Proof.
  induction l as [|c l IH]; intros k j.
  - change (k <? length (@nil Z))%nat with false. rewrite andb_false_r. destruct k; reflexivity.
  - destruct k as [|k], j as [|j]; [reflexivity|reflexivity|reflexivity|].
    change (nth (S j) (add_at (S k) d (c :: l)) 0) with (nth j (add_at k d l) 0). rewrite IH. reflexivity.
Qed.
Lemma live_add_at d : forall l k, (k < length l)%nat -> live (add_at k d l) =
  live l - (if 0 <? nth k l 0 then 1 else 0) + (if 0 <? nth k l 0 + d then 1 else 0).
Proof.
  induction l as [|c l IH]; intros k H; cbn [length] in H; [lia|]. destruct k as [|k]; cbn [add_at live nth]; [lia|].
  rewrite IH by lia. lia.
Qed.
Lemma live_nth : forall l k, 0 < nth k l 0 -> 1 <= live l.
Proof.
  induction l as [|c l IH]; intros k P; [destruct k; cbn in P; lia|]. cbn [live]. pose proof (live_pos l). destruct k as [|k]; cbn [nth] in P.
  - destruct (0 <? c) eqn:E; [lia|apply Z.ltb_ge in E; lia].
  - specialize (IH k P). destruct (0 <? c); lia.
Qed.
Lemma live_zero l : (forall k, nth k l 0 = 0) -> live l = 0.
Proof.
  induction l as [|c l IH]; intro H; [reflexivity|]. cbn [live]. pose proof (H 0%nat) as H0. cbn [nth] in H0. subst c. rewrite IH; [reflexivity|]. intro k. exact (H (S k)).
Qed.

Section Life.
  Variable m : nat.
  Hypothesis M : (2 <= m)%nat.
  (** the object after [o] owns it, and has not been released *)
  Definition own (refs : list Z) (o : nat) : Z := if Nat.eqb (Nat.modulo (S o) m) 0 then 0 else if 0 <? nth (S o) refs 0 then 1 else 0.
  Record inv (st : state) : Prop := {
    v_ub : s_ub st = false;
    v_refs : forall o, nth o (s_refs st) 0 = tot (uses o) (s_agents st) + own (s_refs st) o;
    v_chunk : s_chunk st = live (s_refs st) + tot chunks (s_agents st);
    v_freed : Z.of_nat (s_freed st) + tot destrs (s_agents st) + (if 0 <? s_chunk st then 1 else 0) = 1
  }.

  Lemma nth_len (l : list Z) o : 0 < nth o l 0 -> (o < length l)%nat.
  Proof. intro P. destruct (Nat.lt_ge_cases o (length l)) as [L|L]; [exact L|]. rewrite nth_overflow in P by exact L. lia. Qed.
  Lemma own_pos r o : 0 <= own r o.
  Proof. unfold own. destruct (Nat.eqb _ 0); [lia|]. destruct (0 <? _); lia. Qed.
  Lemma child_some o c : child m o = Some c -> o = S c /\ Nat.eqb (Nat.modulo (S c) m) 0 = false.
  Proof.
    unfold child. destruct (Nat.eqb (Nat.modulo o m) 0) eqn:E; [discriminate|]. intro H. inversion H; subst c. destruct o as [|o]; [rewrite Nat.mod_0_l in E by lia; discriminate E|].
    split; [reflexivity|exact E].
  Qed.
  Lemma child_none o : child m o = None -> Nat.eqb (Nat.modulo o m) 0 = true.
  Proof. unfold child. destruct (Nat.eqb (Nat.modulo o m) 0); [reflexivity|discriminate]. Qed.
  Lemma own_add_pos l k j : 0 < nth k l 0 -> own (add_at k 1 l) j = own l j.
  Proof.
    intro P. unfold own. destruct (Nat.eqb (Nat.modulo (S j) m) 0); [reflexivity|]. rewrite add_at_nth.
    destruct (Nat.eqb_spec (S j) k) as [->|N]; cbn [andb]; [|reflexivity]. rewrite (proj2 (Nat.ltb_lt _ _) (nth_len _ _ P)).
    rewrite (proj2 (Z.ltb_lt 0 (nth k l 0)) P). destruct (Z.ltb_spec 0 (nth k l 0 + 1)); lia.
  Qed.
  Lemma act_inv st l1 a l2 x st' w : inv st -> s_agents st = l1 ++ a :: l2 -> act m a x st = Some (st', w) -> inv (with_agents st' (l1 ++ w ++ l2)).
  Proof.
    intros V EA EC. destruct st as [r ch fr ub ag]. destruct V as [V1 V2 V3 V4]. cbn [s_refs s_chunk s_freed s_ub s_agents] in *. subst ub ag.
    assert (V2' : forall o, nth o r 0 = tot (uses o) l1 + uses o a + tot (uses o) l2 + own r o) by (intro o; rewrite V2, tot_app; cbn [tot]; lia).
    rewrite tot_app in V3, V4. cbn [tot] in V3, V4.
    pose proof (tot_pos chunks l1 chunks_pos) as T1. pose proof (tot_pos chunks l2 chunks_pos) as T2. pose proof (tot_pos destrs l1 destrs_pos) as T3. pose proof (tot_pos destrs l2 destrs_pos) as T4.
    pose proof (live_pos r) as LP.
    assert (UP : forall o, 0 <= tot (uses o) l1 /\ 0 <= tot (uses o) l2 /\ 0 <= own r o) by (intro o; split; [apply tot_pos, uses_pos|split; [apply tot_pos, uses_pos|apply own_pos]]).
    destruct a as [o|[|[o| |] k]], x; cbn [act] in EC; try discriminate EC.
    - (* Add *) injection EC as <- <-.
      assert (P : 0 < nth o r 0) by (rewrite V2'; specialize (UP o); cbn [uses]; rewrite Nat.eqb_refl; lia).
      pose proof (live_nth _ _ P) as L1. cbn [chunks destrs] in *. destruct (Z.ltb_spec 0 ch); [|lia]. assert (fr = 0%nat) by lia. subst fr.
      constructor; cbn [with_agents add_ref use use_obj s_refs s_chunk s_freed s_ub s_agents].
      + rewrite (proj2 (Z.leb_gt _ _) P). reflexivity.
      + intro j. rewrite own_add_pos by exact P. rewrite add_at_nth, (proj2 (Nat.ltb_lt _ _) (nth_len _ _ P)), andb_true_r, !tot_app. cbn [app tot uses]. rewrite V2'. cbn [uses].
        rewrite (Nat.eqb_sym j o). destruct (Nat.eqb o j); lia.
      + rewrite live_add_at by (apply nth_len; exact P). rewrite !tot_app. cbn [app tot chunks]. destruct (Z.ltb_spec 0 (nth o r 0)); destruct (Z.ltb_spec 0 (nth o r 0 + 1)); lia.
      + rewrite !tot_app. cbn [app tot destrs]. destruct (Z.ltb_spec 0 ch); lia.
    - (* Drop *) injection EC as <- <-. constructor; cbn [with_agents s_refs s_chunk s_freed s_ub s_agents].
      + reflexivity.
      + intro j. rewrite !tot_app. cbn [app tot uses occ is_rel]. rewrite V2'. cbn [uses]. lia.
      + rewrite !tot_app. cbn [app tot chunks occ is_chunk] in *. lia.
      + rewrite !tot_app. cbn [app tot destrs occ is_destr] in *. lia.
    - (* Get *) destruct (child m o) as [c|] eqn:CH; [|discriminate EC]. injection EC as <- <-. destruct (child_some _ _ CH) as [-> NE].
      assert (PO : 0 < nth (S c) r 0) by (rewrite V2'; specialize (UP (S c)); cbn [uses]; rewrite Nat.eqb_refl; lia).
      assert (P : 0 < nth c r 0).
      { rewrite V2'. specialize (UP c). pose proof (uses_pos c (Hold (S c))). assert (own r c = 1) by (unfold own; rewrite NE, (proj2 (Z.ltb_lt _ _) PO); reflexivity). lia. }
      pose proof (live_nth _ _ P) as L1. cbn [chunks destrs] in *. destruct (Z.ltb_spec 0 ch); [|lia]. assert (fr = 0%nat) by lia. subst fr.
      constructor; cbn [with_agents add_ref use use_obj s_refs s_chunk s_freed s_ub s_agents].
      + rewrite (proj2 (Z.leb_gt _ _) P), (proj2 (Z.leb_gt _ _) PO). reflexivity.
      + intro j. rewrite own_add_pos by exact P. rewrite add_at_nth, (proj2 (Nat.ltb_lt _ _) (nth_len _ _ P)), andb_true_r, !tot_app. cbn [app tot uses]. rewrite V2'. cbn [uses].
        rewrite (Nat.eqb_sym j c). destruct (Nat.eqb c j); lia.
      + rewrite live_add_at by (apply nth_len; exact P). rewrite !tot_app. cbn [app tot chunks]. destruct (Z.ltb_spec 0 (nth c r 0)); destruct (Z.ltb_spec 0 (nth c r 0 + 1)); lia.
      + rewrite !tot_app. cbn [app tot destrs]. destruct (Z.ltb_spec 0 ch); lia.
    - (* Release *)
      assert (P : 0 < nth o r 0) by (rewrite V2'; specialize (UP o); cbn [uses occ is_rel]; rewrite Nat.eqb_refl; pose proof (occ_pos (is_rel o) k); lia).
      pose proof (nth_len _ _ P) as LO. pose proof (live_nth _ _ P) as L1. cbn [chunks destrs occ is_chunk is_destr] in *.
      pose proof (occ_pos is_chunk k). pose proof (occ_pos is_destr k).
      assert (fr = 0%nat) by (destruct (Z.ltb_spec 0 ch); lia). subst fr.
      cbn [add_ref use use_obj s_refs s_chunk s_freed s_ub s_agents] in EC.
      assert (N : nth o (add_at o (-1) r) 0 = nth o r 0 - 1) by (rewrite add_at_nth, Nat.eqb_refl, (proj2 (Nat.ltb_lt _ _) LO); reflexivity).
      rewrite N in EC.
      assert (Nj : forall j, nth j (add_at o (-1) r) 0 = nth j r 0 - (if Nat.eqb o j then 1 else 0)).
      { intro j. rewrite add_at_nth, (proj2 (Nat.ltb_lt _ _) LO), andb_true_r, (Nat.eqb_sym j o). destruct (Nat.eqb o j); lia. }
      assert (Lw : live (add_at o (-1) r) = live r - 1 + (if 0 <? nth o r 0 - 1 then 1 else 0)).
      { rewrite live_add_at by exact LO. rewrite (proj2 (Z.ltb_lt _ _) P). reflexivity. }
      destruct (Z.eqb_spec (nth o r 0 - 1) 0) as [Z0|Z0]; injection EC as <- <-.
      + (* the last reference *)
        rewrite (proj2 (Z.ltb_ge 0 (nth o r 0 - 1))) in Lw by lia.
        constructor; cbn [with_agents add_ref use use_obj s_refs s_chunk s_freed s_ub s_agents].
        * rewrite (proj2 (Z.leb_gt _ _) P). reflexivity.
        * intro j. rewrite Nj, !tot_app. cbn [app tot uses]. rewrite occ_app. cbn [occ is_rel]. rewrite V2'. cbn [uses occ is_rel].
          destruct (child m o) as [c|] eqn:CH.
          -- destruct (child_some _ _ CH) as [-> NE]. cbn [occ is_rel].
             assert (Ow : own (add_at (S c) (-1) r) j = own r j - (if Nat.eqb c j then 1 else 0)).
             { unfold own. rewrite Nj. cbn [Nat.eqb]. destruct (Nat.eqb_spec c j) as [<-|NJ].
               - rewrite NE, (proj2 (Z.ltb_lt _ _) P). rewrite (proj2 (Z.ltb_ge 0 (nth (S c) r 0 - 1))) by lia. reflexivity.
               - rewrite Z.sub_0_r. lia. }
             rewrite Ow. destruct (Nat.eqb (S c) j); destruct (Nat.eqb c j); lia.
          -- pose proof (child_none _ CH) as NE. cbn [occ].
             assert (Ow : own (add_at o (-1) r) j = own r j).
             { unfold own. rewrite Nj. destruct (Nat.eqb_spec o (S j)) as [->|NJ]; [rewrite NE; reflexivity|]. rewrite Z.sub_0_r. reflexivity. }
             rewrite Ow. destruct (Nat.eqb o j); lia.
        * rewrite Lw, !tot_app. cbn [app tot chunks]. rewrite occ_app. cbn [occ is_chunk]. destruct (child m o); cbn [occ is_chunk]; lia.
        * rewrite !tot_app. cbn [app tot destrs]. rewrite occ_app. cbn [occ is_destr]. destruct (child m o); cbn [occ is_destr]; lia.
      + rewrite (proj2 (Z.ltb_lt 0 (nth o r 0 - 1))) in Lw by lia.
        constructor; cbn [with_agents add_ref use use_obj s_refs s_chunk s_freed s_ub s_agents].
        * rewrite (proj2 (Z.leb_gt _ _) P). reflexivity.
        * intro j. rewrite Nj, !tot_app. rewrite tot_todo_u. rewrite V2'. cbn [uses occ is_rel].
          assert (Ow : own (add_at o (-1) r) j = own r j).
          { unfold own. rewrite Nj. destruct (Nat.eqb_spec o (S j)) as [->|NJ]; [|rewrite Z.sub_0_r; reflexivity].
            rewrite (proj2 (Z.ltb_lt _ _) P), (proj2 (Z.ltb_lt 0 (nth (S j) r 0 - 1))) by lia. reflexivity. }
          rewrite Ow. destruct (Nat.eqb o j); lia.
        * rewrite Lw, !tot_app, tot_todo_c. lia.
        * rewrite !tot_app, tot_todo_d. lia.
    - (* Chunk *) cbn [chunks destrs occ is_chunk is_destr] in *. pose proof (occ_pos is_chunk k). pose proof (occ_pos is_destr k).
      assert (fr = 0%nat) by (destruct (Z.ltb_spec 0 ch); lia). subst fr.
      injection EC as <- <-. constructor; cbn [with_agents add_chunk use s_refs s_chunk s_freed s_ub s_agents].
      + reflexivity.
      + intro j. rewrite !tot_app. rewrite V2'. cbn [uses occ is_rel]. destruct (ch + -1 =? 0); [cbn [tot uses occ is_rel]|rewrite tot_todo_u]; lia.
      + rewrite !tot_app. destruct (ch + -1 =? 0); [cbn [tot chunks occ is_chunk]|rewrite tot_todo_c]; lia.
      + rewrite !tot_app. destruct (Z.eqb_spec (ch + -1) 0); [cbn [tot destrs occ is_destr]|rewrite tot_todo_d];
          destruct (Z.ltb_spec 0 ch); destruct (Z.ltb_spec 0 (ch + -1)); lia.
    - (* Destruct *) cbn [chunks destrs occ is_chunk is_destr] in *. pose proof (occ_pos is_chunk k). pose proof (occ_pos is_destr k).
      assert (fr = 0%nat) by (destruct (Z.ltb_spec 0 ch); lia). subst fr.
      injection EC as <- <-. constructor; cbn [with_agents free use s_refs s_chunk s_freed s_ub s_agents].
      + reflexivity.
      + intro j. rewrite !tot_app. rewrite V2'. cbn [uses occ is_rel]. rewrite tot_todo_u. lia.
      + rewrite !tot_app, tot_todo_c. lia.
      + rewrite !tot_app, tot_todo_d. destruct (Z.ltb_spec 0 ch); lia.
  Qed.

  Lemma split_at {A} (l : list A) i a : nth_error l i = Some a -> l = firstn i l ++ a :: skipn (S i) l.
  Proof.
    revert i. induction l as [|b l IH]; intros [|i] H; cbn [nth_error] in H; try discriminate.
    - inversion H. reflexivity.
    - cbn [firstn skipn app]. f_equal. apply IH. exact H.
  Qed.
  Lemma step_inv st ix : inv st -> inv (step m st ix).
  Proof.
    intro V. unfold step. destruct (nth_error (s_agents st) (fst ix)) as [a|] eqn:E; [|exact V].
    destruct (act m a (snd ix) st) as [[st' w]|] eqn:AC; [|exact V]. exact (act_inv st _ a _ _ st' w V (split_at _ _ _ E) AC).
  Qed.
  Lemma run_inv h : forall st, inv st -> inv (run m st h).
  Proof. unfold run. induction h as [|ix h IH]; intros st V; [exact V|]. cbn [fold_left]. apply IH, step_inv, V. Qed.

  Lemma nth_repeat1 N k : nth k (repeat 1 N) 0 = if (k <? N)%nat then 1 else 0.
  Proof. revert k. induction N as [|N IH]; intros [|k]; cbn [repeat nth]; [reflexivity|reflexivity|reflexivity|]. rewrite IH. reflexivity. Qed.
  Lemma live_repeat N : live (repeat 1 N) = Z.of_nat N.
  Proof. induction N as [|N IH]; [reflexivity|]. cbn [repeat live]. rewrite IH. change (0 <? 1) with true. cbn [Z.of_nat]. lia. Qed.
  Lemma holds_init o : forall n b, tot (uses o) (map (fun i => Hold (m * i + (m - 1))) (seq b n)) =
    if (Nat.eqb (Nat.modulo (S o) m) 0 && (m * b <=? o)%nat && (o <? m * (b + n))%nat)%bool then 1 else 0.
  Proof.
    induction n as [|n IH]; intro b.
    - cbn [seq map tot]. rewrite Nat.add_0_r. destruct (Nat.leb_spec (m * b) o); destruct (Nat.ltb_spec o (m * b)); rewrite ?andb_false_r; try reflexivity. lia.
    - cbn [seq map tot uses]. rewrite IH. destruct (Nat.eqb_spec (m * b + (m - 1)) o) as [E|E].
      + assert (Q : Nat.modulo (S o) m = 0%nat) by (replace (S o) with ((b + 1) * m)%nat by nia; apply Nat.mod_mul; lia).
        rewrite Q. cbn [Nat.eqb andb]. rewrite (proj2 (Nat.leb_gt (m * S b) o)) by nia. cbn [andb].
        rewrite (proj2 (Nat.leb_le (m * b) o)) by nia. rewrite (proj2 (Nat.ltb_lt o (m * (b + S n)))) by nia. reflexivity.
      + destruct (Nat.eqb_spec (Nat.modulo (S o) m) 0) as [Q|Q]; cbn [andb]; [|lia].
        replace (m * (S b + n))%nat with (m * (b + S n))%nat by nia.
        assert (D : exists q, S o = (q * m)%nat) by (exists (S o / m)%nat; pose proof (Nat.div_mod (S o) m ltac:(lia)); nia).
        destruct D as [q D]. destruct (Nat.leb_spec (m * S b) o); destruct (Nat.leb_spec (m * b) o); cbn [andb]; try lia; try nia.
        exfalso. assert (q = S b)%nat by nia. subst q. apply E. nia.
  Qed.
  Lemma inv_init n : (1 <= n)%nat -> inv (init m n).
  Proof.
    intro N. constructor; cbn [init s_refs s_chunk s_freed s_ub s_agents].
    - reflexivity.
    - intro o. rewrite holds_init. unfold own. rewrite !nth_repeat1. rewrite Nat.add_0_l, Nat.mul_0_r. cbn [Nat.leb]. rewrite andb_true_r.
      destruct (Nat.eqb_spec (Nat.modulo (S o) m) 0) as [Q|Q]; cbn [andb]; [lia|].
      destruct (Nat.ltb_spec (S o) (m * n)) as [L|L]; [rewrite (proj2 (Nat.ltb_lt o (m * n))) by lia; reflexivity|].
      assert (NE : S o <> (m * n)%nat) by (intro E; apply Q; rewrite E, Nat.mul_comm; apply Nat.mod_mul; lia).
      rewrite (proj2 (Nat.ltb_ge o (m * n))) by lia. reflexivity.
    - rewrite live_repeat. assert (Z0 : forall l, tot chunks (map (fun i => Hold (m * i + (m - 1))) l) = 0) by (induction l as [|x l IH]; cbn [map tot chunks]; lia). rewrite Z0. lia.
    - assert (Z0 : forall l, tot destrs (map (fun i => Hold (m * i + (m - 1))) l) = 0) by (induction l as [|x l IH]; cbn [map tot destrs]; lia). rewrite Z0.
      rewrite (proj2 (Z.ltb_lt 0 (Z.of_nat (m * n)))) by nia. reflexivity.
  Qed.

  Lemma inv_held st o : inv st -> Held st o -> s_freed st = 0%nat.
  Proof.
    intros V H. pose proof (v_refs _ V o) as R. pose proof (v_chunk _ V) as C. pose proof (v_freed _ V) as F.
    assert (U : 1 <= tot (uses o) (s_agents st)).
    { unfold Held in H. clear - H. induction (s_agents st) as [|a l IH]; [destruct H|]. cbn [tot]. pose proof (tot_pos (uses o) l (uses_pos o)). destruct H as [->|H].
      - cbn [uses]. rewrite Nat.eqb_refl. lia.
      - specialize (IH H). pose proof (uses_pos o a). lia. }
    pose proof (own_pos (s_refs st) o). assert (P : 0 < nth o (s_refs st) 0) by lia. pose proof (live_nth _ _ P).
    pose proof (tot_pos chunks (s_agents st) chunks_pos). pose proof (tot_pos destrs (s_agents st) destrs_pos).
    destruct (Z.ltb_spec 0 (s_chunk st)); lia.
  Qed.
  Lemma inv_once st : inv st -> (s_freed st <= 1)%nat.
  Proof.
    intro V. pose proof (v_freed _ V). pose proof (tot_pos destrs (s_agents st) destrs_pos). destruct (0 <? s_chunk st); lia.
  Qed.
  Lemma mod_next o : Nat.modulo (S o) m <> 0%nat -> Nat.modulo (S o) m = S (Nat.modulo o m).
  Proof.
    intro N. pose proof (Nat.div_mod o m ltac:(lia)) as D. pose proof (Nat.mod_upper_bound o m ltac:(lia)) as B.
    destruct (Nat.eq_dec (S (Nat.modulo o m)) m) as [E|E].
    - exfalso. apply N. replace (S o) with ((o / m + 1) * m)%nat by nia. apply Nat.mod_mul. lia.
    - replace (S o) with (S (Nat.modulo o m) + o / m * m)%nat by nia. rewrite Nat.mod_add by lia. apply Nat.mod_small. lia.
  Qed.
  Lemma inv_done st : inv st -> s_agents st = [] -> s_freed st = 1%nat.
  Proof.
    intros V E. pose proof (v_refs _ V) as R. pose proof (v_chunk _ V) as C. pose proof (v_freed _ V) as F. rewrite E in *. cbn [tot] in *.
    assert (Z0 : forall d o, (m - Nat.modulo o m <= d)%nat -> nth o (s_refs st) 0 = 0).
    { induction d as [|d IH]; intros o L; [pose proof (Nat.mod_upper_bound o m ltac:(lia)); lia|].
      rewrite R. unfold own. destruct (Nat.eqb_spec (Nat.modulo (S o) m) 0) as [Q|Q]; [reflexivity|].
      rewrite (IH (S o)); [reflexivity|]. rewrite (mod_next o Q). pose proof (Nat.mod_upper_bound o m ltac:(lia)). lia. }
    assert (ZZ : forall o, nth o (s_refs st) 0 = 0) by (intro o; apply (Z0 m); lia).
    rewrite (live_zero _ ZZ) in C. rewrite C in F. cbn in F. lia.
  Qed.
End Life.
