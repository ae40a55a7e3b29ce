From Verif Require Import Base PBuf_Model PBuf_Spec.
From Coq Require Import Permutation.
Local Open Scope Z_scope.

(** Ghost description of the occupied part of the ring: consecutive blocks from the read to the
    write position, in virtual addresses (a block beyond the end of the buffer has address >= size). *)
Inductive bst := Live | Freed (key : Z).
Record blk := { bv : Z; bs : Z; st : bst }.

Fixpoint chain (S v : Z) (l : list blk) (e : Z) : Prop :=
  match l with
  | [] => v = e
  | b :: l' => bv b = v /\ 0 < bs b /\ (bv b + bs b <= S \/ S <= bv b) /\ chain S (v + bs b) l' e
  end.

Definition baddr (S : Z) (b : blk) : Z := if S <=? bv b then bv b - S else bv b.
Definition to_pk (S : Z) (b : blk) : pk := {| pk_addr := baddr S b; pk_size := bs b; pk_bytes := bs b |}.
Definition is_live (b : blk) : bool := match st b with Live => true | _ => false end.
Definition lives (S : Z) (l : list blk) : list pk := map (to_pk S) (filter is_live l).
Definition keys (l : list blk) : list (Z * Z) :=
  flat_map (fun b => match st b with Live => [] | Freed k => [(k, bs b)] end) l.
Definition key_ok (S : Z) (b : blk) : Prop :=
  match st b with Live => True | Freed k => k = bv b \/ (k = bv b + S /\ bv b < S) end.

Lemma lives_app : forall S a b, lives S (a ++ b) = lives S a ++ lives S b.
Proof. intros. unfold lives. rewrite filter_app, map_app. reflexivity. Qed.
Lemma keys_app : forall a b, keys (a ++ b) = keys a ++ keys b.
Proof. intros. unfold keys. apply flat_map_app. Qed.

Lemma chain_app : forall S a b v e, chain S v (a ++ b) e <-> exists m, chain S v a m /\ chain S m b e.
Proof.
  induction a as [|x a IH]; intros b v e; cbn [app chain].
  - split; [intros H; exists v; auto|intros (m & -> & H); exact H].
  - rewrite IH. split.
    + intros (A & B & C & m & D & E). exists m. auto.
    + intros (m & (A & B & C & D) & E). repeat split; try assumption. exists m; auto.
Qed.

Lemma chain_le : forall S l v e, chain S v l e -> v <= e.
Proof. induction l as [|x l IH]; intros v e; cbn [chain]; [lia|]. intros (A & B & C & D). apply IH in D. lia. Qed.

Lemma chain_in : forall S l v e b, chain S v l e -> In b l -> v <= bv b /\ bv b + bs b <= e /\ 0 < bs b /\ (bv b + bs b <= S \/ S <= bv b).
Proof.
  induction l as [|x l IH]; intros v e b; cbn [chain In]; [tauto|].
  intros (A & B & C & D) [<-|H].
  - pose proof (chain_le _ _ _ _ D). lia.
  - specialize (IH _ _ _ D H). lia.
Qed.

(** Main invariant. *)
Definition Tiled (s : sys) (l : list blk) (e : Z) : Prop :=
  let b := buf s in
  0 <= rd b < size b /\ chain (size b) (rd b) l e /\ e <= rd b + size b /\
  wr b = (if size b <=? e then e - size b else e) /\
  full b = Z.eqb e (rd b + size b) /\
  live s = lives (size b) l /\
  Permutation (oos b) (keys l) /\ Forall (key_ok (size b)) l.

Definition Inv (s : sys) : Prop :=
  (size (buf s) = 0 /\ rd (buf s) = 0 /\ wr (buf s) = 0 /\ full (buf s) = false /\ oos (buf s) = [] /\ live s = []) \/
  exists l e, Tiled s l e.

Lemma hpush_perm : forall x h, Permutation (hpush x h) (x :: h).
Proof.
  induction h as [|y h IH]; cbn [hpush]; [reflexivity|].
  destruct (_ || _); [reflexivity|]. rewrite IH. apply perm_swap.
Qed.

(** The clean loop drops a prefix of freed blocks. *)
Lemma in_keys : forall l k s, In (k, s) (keys l) -> exists b, In b l /\ st b = Freed k /\ bs b = s.
Proof.
  intros l k s H. unfold keys in H. apply in_flat_map in H. destruct H as (b & Hb & H).
  exists b. destruct (st b) as [|k'] eqn:E; cbn in H; [contradiction|]. destruct H as [H|[]]. injection H as -> ->. auto.
Qed.

Lemma cleanLoop_spec : forall S h r f l e,
  0 < S -> 0 <= r -> chain S r l e -> Permutation h (keys l) -> Forall (key_ok S) l ->
  forall r' f' h', cleanLoop r f h = (r', f', h') ->
  exists d l', l = d ++ l' /\ Forall (fun b => st b = Freed (bv b)) d /\ chain S r d r' /\ chain S r' l' e /\ Permutation h' (keys l') /\
    f' = (match d with [] => f | _ => false end).
Proof.
  intros S h. induction h as [|[a s] h IH]; intros r f l e HS Hr HC HP HK r' f' h' HL; cbn [cleanLoop] in HL.
  - injection HL as <- <- <-. exists [], l. repeat split; auto. 
  - destruct (Z.eqb_spec r a) as [<-|Hne].
    2: { injection HL as <- <- <-. exists [], l. repeat split; auto. }
    assert (Hin : In (r, s) (keys l)) by (eapply Permutation_in; [exact HP|left; reflexivity]).
    destruct (in_keys _ _ _ Hin) as (b & Hb & Hst & Hs).
    pose proof (chain_in _ _ _ _ _ HC Hb) as (B1 & B2 & B3 & B4).
    assert (Hv : bv b = r).
    { rewrite Forall_forall in HK. specialize (HK b Hb). unfold key_ok in HK. rewrite Hst in HK. lia. }
    destruct l as [|x l]; [contradiction|].
    assert (x = b).
    { destruct Hb as [Hb|Hb]; [exact Hb|]. cbn [chain] in HC. destruct HC as (C1 & C2 & C3 & C4).
      pose proof (chain_in _ _ _ _ _ C4 Hb). lia. }
    subst x. cbn [chain] in HC. destruct HC as (C1 & C2 & C3 & C4). rewrite Hs in *.
    assert (HP' : Permutation h (keys l)).
    { cbn [keys flat_map] in HP. rewrite Hst in HP. cbn [app] in HP. rewrite Hs in HP. apply Permutation_cons_inv in HP. exact HP. }
    inversion HK as [|? ? K1 K2]; subst.
    destruct (IH (bv b + bs b) false l e HS ltac:(lia) C4 HP' K2 _ _ _ HL) as (d & l' & -> & D1 & D2 & D3 & D4 & D5).
    exists (b :: d), l'. repeat split; auto.
    rewrite D5. destruct d; reflexivity.
Qed.

Lemma lives_freed : forall S d, Forall (fun b => st b = Freed (bv b)) d -> lives S d = [].
Proof.
  induction d as [|b d IH]; intros H; [reflexivity|]. inversion H as [|? ? A B]; subst.
  unfold lives. cbn [filter]. unfold is_live at 1. rewrite A. apply IH. exact B.
Qed.

Definition shift (S : Z) (b : blk) : blk := {| bv := bv b - S; bs := bs b; st := st b |}.

Lemma chain_shift : forall S l v e, S <= v -> e <= 2 * S -> 0 < S -> chain S v l e -> chain S (v - S) (map (shift S) l) (e - S).
Proof.
  induction l as [|b l IH]; intros v e Hv He HS; cbn [chain map]; [lia|].
  intros (A & B & C & D). pose proof (chain_le _ _ _ _ D). cbn [shift bv bs]. repeat split; try lia.
  replace (v - S + bs b) with (v + bs b - S) by lia. apply IH; try assumption; lia.
Qed.
Lemma lives_cons : forall S b l, lives S (b :: l) = (match st b with Live => [to_pk S b] | _ => [] end) ++ lives S l.
Proof. intros. unfold lives. cbn [filter]. unfold is_live at 1. destruct (st b); reflexivity. Qed.
Lemma lives_shift : forall S l v e, 0 < S -> S <= v -> e <= 2 * S -> chain S v l e -> lives S (map (shift S) l) = lives S l.
Proof.
  induction l as [|b l IH]; intros v e HS Hv He; [reflexivity|]. cbn [chain map].
  intros (A & B & C & D). pose proof (chain_le _ _ _ _ D).
  rewrite !lives_cons, (IH (v + bs b) e HS ltac:(lia) He D). f_equal. cbn [shift st].
  destruct (st b); [|reflexivity]. unfold to_pk, baddr. cbn [shift bv bs].
  replace (S <=? bv b - S) with false by lia. replace (S <=? bv b) with true by lia. reflexivity.
Qed.
Lemma keys_shift : forall S l, keys (map (shift S) l) = keys l.
Proof. induction l as [|b l IH]; [reflexivity|]. cbn [map]. unfold keys in *. cbn [flat_map shift st bs]. rewrite IH. reflexivity. Qed.

(** CleanOosPackets in terms of blocks: [r] is the virtual read position before normalisation. *)
Lemma clean_spec : forall b l e,
  0 <= rd b < size b -> chain (size b) (rd b) l e -> e <= rd b + size b ->
  Permutation (oos b) (keys l) -> Forall (key_ok (size b)) l ->
  full b = Z.eqb e (rd b + size b) ->
  exists d l0 r h, cleanLoop (rd b) (full b) (oos b) = (r, full (clean b), h) /\
    l = d ++ l0 /\ Forall (fun x => st x = Freed (bv x)) d /\ chain (size b) (rd b) d r /\ chain (size b) r l0 e /\
    rd b <= r /\
    let w := size b <=? r in
    let l' := if w then map (shift (size b)) l0 else l0 in
    let e' := if w then e - size b else e in
    rd (clean b) = (if w then r - size b else r) /\
    0 <= rd (clean b) < size b /\ size (clean b) = size b /\ wr (clean b) = wr b /\ underReset (clean b) = underReset b /\
    oos (clean b) = h /\
    chain (size b) (rd (clean b)) l' e' /\ e' <= rd (clean b) + size b /\
    Permutation (oos (clean b)) (keys l') /\ Forall (key_ok (size b)) l' /\ lives (size b) l = lives (size b) l' /\
    (full (clean b) = (Z.eqb e' (rd (clean b) + size b))).
Proof.
  intros b l e HR HC HE HP HK HF.
  unfold clean. destruct (cleanLoop (rd b) (full b) (oos b)) as [[r f] h] eqn:EL.
  destruct (cleanLoop_spec (size b) (oos b) (rd b) (full b) l e ltac:(lia) ltac:(lia) HC HP HK _ _ _ EL)
    as (d & l0 & -> & D1 & D2 & D3 & D4 & D5).
  cbn [rd size wr underReset oos full].
  pose proof (chain_le _ _ _ _ D2) as L1. pose proof (chain_le _ _ _ _ D3) as L2.
  assert (F0 : Forall (key_ok (size b)) l0) by (rewrite Forall_app in HK; tauto).
  assert (LV : lives (size b) (d ++ l0) = lives (size b) l0) by (rewrite lives_app, lives_freed by exact D1; reflexivity).
  assert (DR : d <> [] -> rd b < r).
  { intros Hd. destruct d as [|x d]; [contradiction|]. cbn [chain] in D2. destruct D2 as (A & B & C & D). apply chain_le in D. lia. }
  exists d, l0, r, h. split; [reflexivity|]. split; [reflexivity|]. split; [exact D1|].
  split; [exact D2|]. split; [exact D3|]. split; [exact L1|]. cbv zeta.
  destruct (Z.leb_spec (size b) r) as [Hge|Hlt].
  - assert (Hd : d <> []) by (intros ->; cbn [chain] in D2; lia). specialize (DR Hd).
    split; [reflexivity|]. split; [lia|]. split; [reflexivity|]. split; [reflexivity|]. split; [reflexivity|]. split; [reflexivity|].
    split. { apply chain_shift; try assumption; lia. }
    split; [lia|].
    split. { rewrite keys_shift. exact D4. }
    split. { rewrite Forall_forall in *. intros x Hx. apply in_map_iff in Hx. destruct Hx as (y & <- & Hy).
             specialize (F0 y Hy). pose proof (chain_in _ _ _ _ _ D3 Hy). unfold key_ok in *. cbn [shift st bv] in *.
             destruct (st y); [exact Logic.I|]. lia. }
    split. { rewrite LV. symmetry. eapply lives_shift; [| | |exact D3]; lia. }
    rewrite D5. destruct d; [contradiction|]. lia.
  - split; [reflexivity|]. split; [lia|]. split; [reflexivity|]. split; [reflexivity|]. split; [reflexivity|]. split; [reflexivity|].
    split; [exact D3|]. split; [lia|]. split; [exact D4|]. split; [exact F0|]. split; [exact LV|].
    rewrite D5. destruct d as [|x d]; [cbn [chain] in D2; subst r; exact HF|].
    specialize (DR ltac:(discriminate)). lia.
Qed.

(** Appending a live block at the end of the occupied region. *)
Lemma chain_snoc : forall S v l e b, chain S v l e -> bv b = e -> 0 < bs b -> (e + bs b <= S \/ S <= e) -> chain S v (l ++ [b]) (e + bs b).
Proof. intros. apply chain_app. exists e. split; [assumption|]. cbn [chain]. repeat split; try lia. Qed.

Ltac ifs := repeat match goal with |- context [if ?c then _ else _] => lazymatch c with context [if _ then _ else _] => fail | _ => destruct c eqn:? end end; try lia.

(** First-in first-out release. *)
Definition fifo_blk (S : Z) (b : blk) : Prop :=
  match st b with Live => True | Freed k => k = bv b /\ bv b + bs b <= S end.
Definition head_live (l : list blk) : Prop := match l with [] => True | b :: _ => st b = Live end.
Fixpoint sorted (h : list (Z * Z)) : Prop :=
  match h with [] => True | x :: h' => Forall (fun y => fst x <= fst y) h' /\ sorted h' end.

Lemma hpush_sorted : forall x h, sorted h -> sorted (hpush x h).
Proof.
  induction h as [|y h IH]; cbn [hpush]; [cbn; auto|]. intros (A & B).
  destruct ((fst x <? fst y) || ((fst x =? fst y) && (snd x <=? snd y))) eqn:E.
  - cbn [sorted]. split; [|auto]. constructor; [lia|]. eapply Forall_impl; [|exact A]. cbn. lia.
  - cbn [sorted]. split; [|auto]. eapply Permutation_Forall; [symmetry; apply hpush_perm|]. constructor; [lia|exact A].
Qed.

Lemma cleanLoop_max : forall h r f r' f' h', sorted h -> cleanLoop r f h = (r', f', h') ->
  sorted h' /\ match h' with [] => True | x :: _ => fst x <> r' end.
Proof.
  induction h as [|[a s] h IH]; intros r f r' f' h' HS HL; cbn [cleanLoop] in HL.
  - injection HL as <- <- <-. cbn. auto.
  - destruct (Z.eqb_spec r a) as [->|Hne].
    + destruct HS as [_ HS]. eapply IH; eauto.
    + injection HL as <- <- <-. split; [exact HS|]. cbn [fst]. lia.
Qed.

Definition FifoB (b : pbuf) (l : list blk) : Prop :=
  Forall (fifo_blk (size b)) l /\ head_live l /\ sorted (oos b).

Lemma clean_head : forall S h' r f h r' f' (l0 : list blk) e,
  cleanLoop r' f' h' = (r, f, h) -> sorted h' ->
  Permutation h (keys l0) -> chain S r l0 e -> Forall (fun b => match st b with Live => True | Freed k => k = bv b end) l0 ->
  head_live l0.
Proof.
  intros S h' r f h r' f' l0 e HL HS HP HC HF.
  destruct (cleanLoop_max _ _ _ _ _ _ HS HL) as [S1 S2].
  destruct l0 as [|x l0]; [exact Logic.I|]. cbn [head_live]. destruct (st x) as [|k] eqn:Ex; [reflexivity|exfalso].
    inversion HF as [|? ? F1 F2]; subst. rewrite Ex in F1. cbn [chain] in HC. destruct HC as (C1 & C2 & C3 & C4).
    assert (HI : In (k, bs x) h).
    { eapply Permutation_in; [symmetry; exact HP|]. cbn [keys flat_map]. rewrite Ex. left. reflexivity. }
    destruct h as [|[a q] h]; [contradiction|]. cbn [fst] in S2. cbn [sorted] in S1. destruct S1 as [S1 _].
    rewrite Forall_forall in S1.
    assert (A : a <= k) by (destruct HI as [HI|HI]; [injection HI; lia|apply S1 in HI; exact HI]).
    assert (B : In (a, q) (keys (x :: l0))) by (eapply Permutation_in; [exact HP|left; reflexivity]).
    destruct (in_keys _ _ _ B) as (y & Hy & Y1 & Y2).
    assert (r <= bv y). { destruct Hy as [<-|Hy]; [lia|]. pose proof (chain_in _ _ _ _ _ C4 Hy). lia. }
    rewrite Forall_forall in HF. specialize (HF y Hy). cbn beta in HF. rewrite Y1 in HF. lia.
Qed.

Lemma clean_fifo : forall b (l0 : list blk) r f h e,
  cleanLoop (rd b) (full b) (oos b) = (r, f, h) -> sorted (oos b) ->
  Permutation h (keys l0) -> chain (size b) r l0 e -> Forall (fifo_blk (size b)) l0 ->
  let l' := if size b <=? r then map (shift (size b)) l0 else l0 in
  Forall (fifo_blk (size b)) l' /\ head_live l' /\ sorted h.
Proof.
  intros b l0 r f h e HL HS HP HC HF l'.
  destruct (cleanLoop_max _ _ _ _ _ _ HS HL) as [S1 S2].
  assert (HD : head_live l0).
  { eapply clean_head; eauto. eapply Forall_impl; [|exact HF]. intros x. unfold fifo_blk. destruct (st x); tauto. }
  split; [|split; [|exact S1]].
  - unfold l'. destruct (Z.leb_spec (size b) r); [|exact HF].
    rewrite Forall_forall in *. intros x Hx. apply in_map_iff in Hx. destruct Hx as (y & <- & Hy).
    specialize (HF y Hy). pose proof (chain_in _ _ _ _ _ HC Hy). unfold fifo_blk in *. cbn [shift st bv bs].
    destruct (st y); [exact Logic.I|]. lia.
  - unfold l'. destruct (size b <=? r); [|exact HD]. destruct l0; [exact Logic.I|exact HD].
Qed.

Lemma head_live_snoc : forall l b, head_live l -> st b = Live -> head_live (l ++ [b]).
Proof. intros [|x l] b H1 H2; cbn; assumption. Qed.

Lemma lives_snoc : forall S l v n, lives S (l ++ [{| bv := v; bs := n; st := Live |}]) =
  lives S l ++ [{| pk_addr := if S <=? v then v - S else v; pk_size := n; pk_bytes := n |}].
Proof. intros. rewrite lives_app. reflexivity. Qed.

(** Creation. *)
Lemma write_inv : forall s l e n b a, Tiled s l e -> 0 < n -> write (buf s) n = inl (b, a) ->
  exists l' e', Tiled {| buf := b; live := live s ++ [{| pk_addr := a; pk_size := n; pk_bytes := n |}] |} l' e' /\
    underReset b = underReset (buf s) /\ size b = size (buf s) /\ (FifoB (buf s) l -> FifoB b l').
Proof.
  intros s l e n b a (HR & HC & HE & HW & HF & HL & HP & HK) Hn H. unfold write in H. cbv zeta in H.
  pose proof (chain_le _ _ _ _ HC) as L0.
  destruct ((wr (buf s) - rd (buf s) =? 0) && full (buf s)) eqn:E1; [discriminate|].
  assert (NF : e <> rd (buf s) + size (buf s)).
  { intros ->. rewrite Z.eqb_refl in HF. rewrite HF, andb_true_r in E1. destruct (Z.leb_spec (size (buf s)) (rd (buf s) + size (buf s))); lia. }
  destruct (Z.ltb_spec (if wr (buf s) - rd (buf s) <? 0 then Z.abs (wr (buf s) - rd (buf s)) else size (buf s) - wr (buf s)) n) as [Hlt|Hge].
  - destruct (Z.ltb_spec (wr (buf s) - rd (buf s)) 0) as [Hd|Hd]; [discriminate|].
    destruct (Z.ltb_spec (rd (buf s)) n) as [Hx|Hx]; [discriminate|].
    (* wrap-around with a dummy block *)
    assert (He : e < size (buf s)). { destruct (Z.leb_spec (size (buf s)) e); lia. }
    assert (Hwe : wr (buf s) = e) by (destruct (Z.leb_spec (size (buf s)) e); lia). rewrite Hwe in *.
    set (dum := {| bv := e; bs := size (buf s) - e; st := Freed e |}).
    set (b1 := {| size := size (buf s); rd := rd (buf s); wr := e; full := full (buf s); underReset := underReset (buf s);
                  oos := hpush (e, size (buf s) - e) (oos (buf s)) |}) in *.
    destruct (clean_spec b1 (l ++ [dum]) (size (buf s))) as (d & l0 & r & h & DL & Dl & Dd & Dc1 & Dc2 & Dr0 & Drest).
    + exact HR.
    + cbn [b1 size rd]. apply chain_app. exists e. split; [exact HC|]. cbn [chain dum bv bs]. repeat split; lia.
    + cbn [b1 rd size]. lia.
    + cbn [b1 oos]. rewrite hpush_perm, keys_app. cbn [keys flat_map dum st bs app]. rewrite HP. apply Permutation_cons_append.
    + apply Forall_app. split; [exact HK|]. constructor; [|constructor]. cbn [key_ok dum st bv]. left. reflexivity.
    + cbn [b1 full rd size]. rewrite HF. lia.
    + cbv zeta in Drest. destruct Drest as (Dr & Drr & Ds & Dw & Du & Do & Dch & Dle & Dp & Dk & Dlv & Df).
      injection H as <- <-.
      assert (SZ : size b1 = size (buf s)) by reflexivity. assert (RZ : rd b1 = rd (buf s)) by reflexivity.
      rewrite SZ, RZ in *.
      set (l' := if size (buf s) <=? r then map (shift (size (buf s))) l0 else l0) in *.
      set (e' := if size (buf s) <=? r then size (buf s) - size (buf s) else size (buf s)) in *.
      exists (l' ++ [{| bv := e'; bs := n; st := Live |}]), (e' + n).
      split; [|split; cbn [underReset size]; [exact Du|split; [exact Ds|]]].
      2: { intros (F1 & F2 & F3).
           destruct (clean_fifo b1 l0 r (full (clean b1)) h (size (buf s)) DL) as (G1 & G2 & G3).
           - cbn [b1 oos]. apply hpush_sorted. exact F3.
           - rewrite <- Do. unfold l' in Dp. destruct (size (buf s) <=? r); [rewrite keys_shift in Dp|]; exact Dp.
           - exact Dc2.
           - assert (F4 : Forall (fifo_blk (size (buf s))) (l ++ [dum])).
             { apply Forall_app. split; [exact F1|]. constructor; [|constructor]. cbn [fifo_blk dum st bv bs]. split; [reflexivity|lia]. }
             rewrite Dl in F4. apply Forall_app in F4. apply F4.
           - unfold FifoB. cbn [size oos]. rewrite Ds. split; [apply Forall_app; split; [exact G1|repeat constructor]|].
             split; [apply head_live_snoc; [exact G2|reflexivity]|]. rewrite Do. exact G3. }
      assert (LVS : lives (size (buf s)) l' = live s).
      { rewrite <- Dlv, lives_app. cbn [lives filter is_live dum st map]. rewrite app_nil_r. symmetry. exact HL. }
      pose proof (chain_le _ _ _ _ Dc2) as L2.
      unfold Tiled. cbn [buf live rd size wr full oos underReset]. rewrite Ds.
      destruct (Z.leb_spec (size (buf s)) r) as [Hw|Hw]; unfold e' in *; clear e'.
      * assert (r = size (buf s)) by lia. 
        split; [exact Drr|]. split; [apply (chain_snoc _ _ _ _ {| bv := size (buf s) - size (buf s); bs := n; st := Live |}); cbn [bv bs]; try lia; exact Dch|].
        split; [cbn [bs]; lia|]. split; [ifs|].
        split; [rewrite Df; ifs|].
        split; [rewrite lives_snoc, LVS; do 2 f_equal; f_equal; ifs|].
        split; [rewrite keys_app; cbn [keys flat_map st]; rewrite app_nil_r; exact Dp|].
        apply Forall_app. split; [exact Dk|]. repeat constructor.
      * split; [exact Drr|]. split; [apply (chain_snoc _ _ _ _ {| bv := size (buf s); bs := n; st := Live |}); cbn [bv bs]; try lia; exact Dch|].
        split; [lia|]. split; [ifs|].
        split; [rewrite Df; ifs|].
        split; [rewrite lives_snoc, LVS; do 2 f_equal; f_equal; ifs|].
        split; [rewrite keys_app; cbn [keys flat_map st]; rewrite app_nil_r; exact Dp|].
        apply Forall_app. split; [exact Dk|]. repeat constructor.
  - injection H as <- <-.
    exists (l ++ [{| bv := e; bs := n; st := Live |}]), (e + n).
    split; [|split; [reflexivity|split; [reflexivity|]]].
    2: { intros (F1 & F2 & F3). unfold FifoB. cbn [size oos]. split; [apply Forall_app; split; [exact F1|repeat constructor]|].
         split; [apply head_live_snoc; [exact F2|reflexivity]|exact F3]. }
    unfold Tiled. cbn [buf live rd size wr full oos underReset].
    assert (A : wr (buf s) = e /\ e + n <= size (buf s) \/ wr (buf s) = e - size (buf s) /\ size (buf s) <= e /\ e + n <= rd (buf s) + size (buf s)).
    { destruct (Z.leb_spec (size (buf s)) e); destruct (Z.ltb_spec (wr (buf s) - rd (buf s)) 0); lia. }
    clear Hge.
    split; [exact HR|]. split; [apply (chain_snoc _ _ _ _ {| bv := e; bs := n; st := Live |}); cbn [bv bs]; try lia; exact HC|].
    split; [lia|]. split; [ifs|]. split; [rewrite HF; ifs|].
    split; [rewrite HL, lives_snoc; do 2 f_equal; f_equal; ifs|].
    split; [rewrite keys_app; cbn [keys flat_map st]; rewrite app_nil_r; exact HP|].
    apply Forall_app. split; [exact HK|]. repeat constructor.
Qed.

(** Release. *)
Lemma lives_split : forall S l k p, nth_error (lives S l) k = Some p ->
  exists l1 b l2, l = l1 ++ b :: l2 /\ st b = Live /\ p = to_pk S b /\ length (lives S l1) = k.
Proof.
  induction l as [|b l IH]; intros k p; [destruct k; discriminate|].
  rewrite lives_cons. destruct (st b) eqn:Es; cbn [app].
  - destruct k as [|k]; cbn [nth_error].
    + intros H. injection H as <-. exists [], b, l. auto.
    + intros H. destruct (IH _ _ H) as (l1 & c & l2 & -> & A & B & C). exists (b :: l1), c, l2.
      repeat split; auto. rewrite lives_cons, Es. cbn [app length]. lia.
  - intros H. destruct (IH _ _ H) as (l1 & c & l2 & -> & A & B & C). exists (b :: l1), c, l2.
    repeat split; auto. rewrite lives_cons, Es. exact C.
Qed.

Lemma remove_nth_app : forall {A} (a : list A) x b, remove_nth (length a) (a ++ x :: b) = a ++ b.
Proof.
  intros. unfold remove_nth. rewrite firstn_app, firstn_all, Nat.sub_diag. cbn [firstn]. rewrite app_nil_r.
  f_equal. replace (S (length a)) with (length a + 1)%nat by lia. rewrite skipn_app.
  rewrite skipn_all2 by lia. replace (length a + 1 - length a)%nat with 1%nat by lia. reflexivity.
Qed.

Definition freed (b : blk) : blk := {| bv := bv b; bs := bs b; st := Freed (bv b) |}.

Lemma chain_freed : forall S l1 b l2 v e, chain S v (l1 ++ b :: l2) e -> chain S v (l1 ++ freed b :: l2) e.
Proof.
  intros S l1 b l2 v e H. apply chain_app in H. destruct H as (m & A & B). apply chain_app. exists m. split; [exact A|].
  cbn [chain] in *. cbn [freed bv bs]. exact B.
Qed.

Lemma read_inv : forall s l e k p, Tiled s l e -> nth_error (live s) k = Some p ->
  exists l' e', Tiled {| buf := read (buf s) (pk_addr p) (pk_size p); live := remove_nth k (live s) |} l' e' /\
   underReset (read (buf s) (pk_addr p) (pk_size p)) = underReset (buf s) /\
   size (read (buf s) (pk_addr p) (pk_size p)) = size (buf s) /\
   (k = 0%nat -> FifoB (buf s) l -> FifoB (read (buf s) (pk_addr p) (pk_size p)) l').
Proof.
  intros s l e k p (HR & HC & HE & HW & HF & HL & HP & HK) Hk.
  rewrite HL in Hk. destruct (lives_split _ _ _ _ Hk) as (l1 & b & l2 & -> & Hst & -> & Hlen).
  pose proof (chain_in _ _ _ _ b HC ltac:(apply in_or_app; right; left; reflexivity)) as (B1 & B2 & B3 & B4).
  unfold read. cbn [to_pk pk_addr pk_size].
  assert (KEY : (if baddr (size (buf s)) b <? rd (buf s) then baddr (size (buf s)) b + size (buf s) else baddr (size (buf s)) b) = bv b).
  { unfold baddr. ifs. }
  rewrite KEY.
  set (b1 := {| size := size (buf s); rd := rd (buf s); wr := wr (buf s); full := full (buf s);
                underReset := underReset (buf s); oos := hpush (bv b, bs b) (oos (buf s)) |}).
  destruct (clean_spec b1 (l1 ++ freed b :: l2) e) as (d & l0 & r & h & DL & Dl & Dd & Dc1 & Dc2 & Dr0 & Drest).
  - exact HR.
  - apply chain_freed. exact HC.
  - exact HE.
  - cbn [b1 oos]. rewrite hpush_perm, HP. rewrite !keys_app. cbn [keys flat_map freed st bs]. rewrite Hst. cbn [app].
    apply Permutation_middle.
  - rewrite Forall_app in *. destruct HK as [K1 K2]. split; [exact K1|]. inversion K2; subst. constructor; [|assumption].
    cbn [key_ok freed st bv]. left. reflexivity.
  - exact HF.
  - cbv zeta in Drest. destruct Drest as (Dr & Drr & Ds & Dw & Du & Do & Dch & Dle & Dp & Dk & Dlv & Df).
    change (size b1) with (size (buf s)) in *.
    exists (if size (buf s) <=? r then map (shift (size (buf s))) l0 else l0), (if size (buf s) <=? r then e - size (buf s) else e).
    split; [|split; [exact Du|split; [exact Ds|]]].
    2: { intros -> (F1 & F2 & F3).
         assert (HPm : Permutation (oos (clean b1)) (keys l0)) by (destruct (size (buf s) <=? r); [rewrite keys_shift in Dp|]; exact Dp).
         destruct (clean_fifo b1 l0 r (full (clean b1)) h e DL) as (G1 & G2 & G3).
         - cbn [b1 oos]. apply hpush_sorted. exact F3.
         - rewrite <- Do. exact HPm.
         - exact Dc2.
         - (* the released block is the first one, so it leaves the list *)
           assert (L1 : l1 = []).
           { destruct l1 as [|x l1]; [reflexivity|]. cbn [app head_live] in F2. exfalso.
             rewrite lives_cons, F2 in Hlen. cbn [app length] in Hlen. lia. }
           subst l1. cbn [app] in *. inversion F1 as [|? ? F1a F1b]; subst.
           destruct d as [|y d].
           + exfalso. cbn [app] in Dl. subst l0. cbn [chain] in Dc1. subst r.
             assert (HH : head_live (freed b :: l2)); [|discriminate HH].
             eapply clean_head; [exact DL|apply hpush_sorted; exact F3| |exact Dc2|].
             * exact HPm.
             * constructor; [reflexivity|]. eapply Forall_impl; [|exact F1b]. intros x. unfold fifo_blk. destruct (st x); tauto.
           + cbn [app] in Dl. injection Dl as <- ->. apply Forall_app in F1b. apply F1b.
         - unfold FifoB. rewrite Ds, Do. split; [exact G1|split; [exact G2|exact G3]]. }
    unfold Tiled. cbn [buf live]. rewrite Ds.
    split; [exact Drr|]. split; [exact Dch|]. split; [exact Dle|].
    split. { rewrite Dw. cbn [b1 wr]. rewrite HW. pose proof (chain_le _ _ _ _ Dc2). ifs. }
    split; [exact Df|].
    split. { rewrite <- Dlv, HL, !lives_app, !lives_cons. cbn [freed st]. rewrite Hst. cbn [app]. rewrite <- Hlen. apply remove_nth_app. }
    split; [exact Dp|exact Dk].
Qed.

Lemma tiled_empty : forall s l e, Tiled s l e -> rd (buf s) = wr (buf s) -> full (buf s) = false -> l = [] /\ e = rd (buf s).
Proof.
  intros s l e (HR & HC & HE & HW & HF & HL & HP & HK) Hrw Hf. pose proof (chain_le _ _ _ _ HC).
  rewrite Hf in HF. assert (e = rd (buf s)) by (destruct (Z.leb_spec (size (buf s)) e); lia). split; [|assumption]. subst e.
  destruct l as [|b l]; [reflexivity|]. cbn [chain] in HC. destruct HC as (A & B & C & D). apply chain_le in D. lia.
Qed.

Lemma tiled_reset : forall s n f, 0 <= n -> live s = [] -> full (buf s) = false -> oos (buf s) = [] ->
  Inv {| buf := {| size := n; rd := 0; wr := 0; full := full (buf s); underReset := f; oos := oos (buf s) |}; live := live s |}.
Proof.
  intros s n f Hn HL Hf Ho. destruct (Z.eq_dec n 0) as [->|Hz].
  - left. cbn. auto 10.
  - right. exists [], 0. unfold Tiled. cbn [buf size rd wr full oos live chain keys flat_map lives filter map].
    replace (n <=? 0) with false by lia. rewrite Hf, Ho, HL. repeat split; try lia; try reflexivity; constructor.
Qed.

Lemma Inv_flag : forall s f, Inv s ->
  Inv {| buf := {| size := size (buf s); rd := rd (buf s); wr := wr (buf s); full := full (buf s); underReset := f; oos := oos (buf s) |}; live := live s |}.
Proof. intros s f [H|(l & e & H)]; [left; exact H|right; exists l, e; exact H]. Qed.

Lemma w64_id : forall x, 0 < x < two64 -> w64 x = x.
Proof. intros. apply w64_small. lia. Qed.

Theorem step_inv : forall s o, proper o -> Inv s -> Inv (fst (step s o)).
Proof.
  intros s o Hp HI. destruct o as [x c r|k| |n]; cbn [step].
  - cbn [proper] in Hp. unfold createPacket. destruct (negb x); [exact HI|].
    destruct (underReset (buf s)); [exact HI|]. rewrite (w64_id _ Hp).
    destruct (write (buf s) (c * r)) as [[b a]|er] eqn:EW; [|exact HI]. cbn [fst].
    destruct HI as [(A & B & C & D & E & F)|(l & e & HT)].
    + unfold write in EW. rewrite A, B, C, D in EW. cbn [Z.sub Z.eqb andb Z.ltb] in EW. cbv zeta in EW.
      change (0 - 0) with 0 in EW. change (0 + 0) with 0 in EW. cbn [Z.eqb andb Z.ltb Z.compare] in EW.
      replace (0 <? c * r) with true in EW by lia. discriminate.
    + destruct (write_inv s l e (c * r) b a HT ltac:(lia) EW) as (l' & e' & HT' & _ & _ & _). right. exists l', e'. exact HT'.
  - unfold release. destruct (nth_error (live s) k) as [p|] eqn:Ek; [|exact HI]. cbn [fst].
    destruct HI as [(A & B & C & D & E & F)|(l & e & HT)]; [rewrite F in Ek; destruct k; discriminate|].
    destruct (read_inv s l e k p HT Ek) as (l' & e' & HT' & _ & _ & _). right. exists l', e'. exact HT'.
  - apply Inv_flag. exact HI.
  - unfold resizeEnd. destruct (underReset (buf s) && (rd (buf s) =? wr (buf s)) && negb (full (buf s))) eqn:Ec; [|exact HI].
    apply andb_prop in Ec. destruct Ec as [Ec E3]. apply andb_prop in Ec. destruct Ec as [E1 E2]. cbn [fst].
    apply negb_true_iff in E3. apply Z.eqb_eq in E2. cbn [proper] in Hp.
    apply tiled_reset; auto.
    + destruct HI as [(A & B & C & D & E & F)|(l & e & HT)]; [exact F|].
      destruct (tiled_empty _ _ _ HT E2 E3) as [-> ->]. destruct HT as (_ & _ & _ & _ & _ & HL & _). exact HL.
    + destruct HI as [(A & B & C & D & E & F)|(l & e & HT)]; [exact E|].
      destruct (tiled_empty _ _ _ HT E2 E3) as [-> ->]. destruct HT as (_ & _ & _ & _ & _ & _ & HP & _).
      apply Permutation_nil. symmetry. exact HP.
Qed.

Lemma Inv_init : forall n, 0 <= n -> Inv (sinit n).
Proof. intros n Hn. apply (tiled_reset (sinit n) n false Hn); reflexivity. Qed.

Lemma run_inv : forall ops s, Forall proper ops -> Inv s -> Inv (run s ops).
Proof.
  induction ops as [|o ops IH]; intros s HF HI; [exact HI|]. inversion HF; subst. cbn [run fold_left].
  apply IH; [assumption|]. apply step_inv; assumption.
Qed.

(** Consequences. *)
Lemma lives_disjoint : forall S l v e, 0 <= v < S -> e <= v + S -> chain S v l e ->
  Forall (in_bounds S) (lives S l) /\ all_disjoint (lives S l).
Proof.
  intros S l v e Hv He HC. split.
  - apply Forall_forall. intros p Hp. unfold lives in Hp. apply in_map_iff in Hp. destruct Hp as (b & <- & Hb).
    apply filter_In in Hb. destruct Hb as [Hb _]. pose proof (chain_in _ _ _ _ _ HC Hb).
    unfold in_bounds, to_pk, baddr. cbn [pk_addr pk_bytes]. destruct (Z.leb_spec S (bv b)); lia.
  - unfold all_disjoint.
    assert (G : forall l v', v <= v' -> chain S v' l e -> ForallOrdPairs disjoint (lives S l)).
    { clear l HC. induction l as [|b l IH]; intros v' Hv' HC; [constructor|]. cbn [chain] in HC. destruct HC as (A & B & C & D).
      rewrite lives_cons. specialize (IH (v' + bs b) ltac:(lia) D). destruct (st b); [|exact IH]. cbn [app]. constructor; [|exact IH].
      apply Forall_forall. intros p Hp. unfold lives in Hp. apply in_map_iff in Hp. destruct Hp as (c & <- & Hc).
      apply filter_In in Hc. destruct Hc as [Hc _]. pose proof (chain_in _ _ _ _ _ D Hc).
      unfold disjoint, to_pk, baddr. cbn [pk_addr pk_bytes].
      destruct (Z.leb_spec S (bv b)), (Z.leb_spec S (bv c)); lia. }
    apply (G l v); [lia|exact HC].
Qed.

Theorem pbuf_disjoint : forall n ops, 0 <= n -> Forall proper ops ->
  let s := run (sinit n) ops in Forall (in_bounds (size (buf s))) (live s) /\ all_disjoint (live s).
Proof.
  intros n ops Hn Hp. cbv zeta. generalize (run_inv ops (sinit n) Hp (Inv_init n Hn)). generalize (run (sinit n) ops).
  intros s [(A & B & C & D & E & F)|(l & e & HT)].
  - rewrite F. split; constructor.
  - destruct HT as (HR & HC & HE & HW & HF & HL & HP & HK). rewrite HL. eapply lives_disjoint; eauto.
Qed.

(** Creation succeeds exactly when the reported contiguous count suffices. *)
Lemma write_ok : forall b n, (exists r, write b n = inl r) <->
  ~ (wr b = rd b /\ full b = true) /\ (if wr b <? rd b then n <= rd b - wr b else n <= size b - wr b \/ n <= rd b).
Proof.
  intros b n. unfold write. cbv zeta.
  destruct (Z.ltb_spec (wr b) (rd b)) as [H|H].
  - replace (wr b - rd b =? 0) with false by lia. cbn [andb]. replace (wr b - rd b <? 0) with true by lia.
    destruct (Z.ltb_spec (Z.abs (wr b - rd b)) n); split.
    + intros [r Hr]; discriminate.
    + lia.
    + intros _. lia.
    + intros _. eexists. reflexivity.
  - replace (wr b - rd b <? 0) with false by lia.
    destruct ((wr b - rd b =? 0) && full b) eqn:E; split.
    + intros [r Hr]; discriminate.
    + intros [A B]. exfalso. apply A. lia.
    + intros [r Hr]. split; [lia|]. destruct (Z.ltb_spec (size b - wr b) n); [|lia].
      destruct (Z.ltb_spec (rd b) n); [discriminate|lia].
    + intros [A B]. destruct (Z.ltb_spec (size b - wr b) n); [|eexists; reflexivity].
      destruct (Z.ltb_spec (rd b) n); [lia|eexists; reflexivity].
Qed.

Theorem pbuf_reported : forall s cnt raw m,
  1 <= cnt -> 1 <= raw -> cnt * raw < two64 -> underReset (buf s) = false ->
  getMaxAvailableContinousSampleCount (buf s) raw = Some m ->
  (is_created (snd (createPacket s true cnt raw)) = true <-> cnt <= m).
Proof.
  intros s cnt raw m Hc Hr Ho Hu Hm. unfold createPacket. cbn [negb]. rewrite Hu.
  rewrite (w64_id (cnt * raw)) by nia.
  assert (E : is_created (snd (match write (buf s) (cnt * raw) with
     | inl (b, a) => ({| buf := b; live := live s ++ [{| pk_addr := a; pk_size := cnt * raw; pk_bytes := cnt * raw |}] |}, Created a)
     | inr e => (s, CreateFailed e) end)) = true <-> exists r, write (buf s) (cnt * raw) = inl r).
  { destruct (write (buf s) (cnt * raw)) as [[b a]|er]; cbn; split; try discriminate; eauto. intros [r Hx]; discriminate. }
  rewrite E, write_ok. clear E. unfold getMaxAvailableContinousSampleCount in Hm. replace (raw =? 0) with false in Hm by lia.
  injection Hm as <-.
  assert (DIV : forall x, cnt * raw <= x <-> cnt <= x / raw).
  { intros x. split; intros H; [apply Z.div_le_lower_bound; lia|]. pose proof (Z.mul_div_le x raw ltac:(lia)). nia. }
  destruct (Z.ltb_spec (wr (buf s)) (rd (buf s))).
  - rewrite DIV. split; [tauto|]. intros Hx; split; [lia|exact Hx].
  - destruct ((wr (buf s) =? rd (buf s)) && full (buf s)) eqn:Ef.
    + split; [|lia]. intros [A _]. exfalso. apply A. lia.
    + destruct (Z.leb_spec (rd (buf s)) (size (buf s) - wr (buf s))); rewrite <- DIV; lia.
Qed.

Definition InvF (s : sys) : Prop :=
  (size (buf s) = 0 /\ rd (buf s) = 0 /\ wr (buf s) = 0 /\ full (buf s) = false /\ oos (buf s) = [] /\ live s = []) \/
  exists l e, Tiled s l e /\ FifoB (buf s) l.

Lemma InvF_flag : forall s f, InvF s ->
  InvF {| buf := {| size := size (buf s); rd := rd (buf s); wr := wr (buf s); full := full (buf s); underReset := f; oos := oos (buf s) |}; live := live s |}.
Proof. intros s f [H|(l & e & H)]; [left; exact H|right; exists l, e; exact H]. Qed.

Lemma InvF_Inv : forall s, InvF s -> Inv s.
Proof. intros s [H|(l & e & H & _)]; [left; exact H|right; eauto]. Qed.

Lemma InvF_reset : forall s n f, 0 <= n -> live s = [] -> full (buf s) = false -> oos (buf s) = [] ->
  InvF {| buf := {| size := n; rd := 0; wr := 0; full := full (buf s); underReset := f; oos := oos (buf s) |}; live := live s |}.
Proof.
  intros s n f Hn HL Hf Ho. destruct (Z.eq_dec n 0) as [->|Hz].
  - left. cbn. auto 10.
  - right. exists [], 0. unfold Tiled, FifoB. cbn [buf size rd wr full oos live chain keys flat_map lives filter map head_live].
    replace (n <=? 0) with false by lia. rewrite Hf, Ho, HL. repeat split; try lia; try reflexivity; constructor.
Qed.

Lemma step_invF : forall s o, proper o -> fifo o -> InvF s -> InvF (fst (step s o)).
Proof.
  intros s o Hp Hq HI. destruct o as [x c r|k| |n]; cbn [step].
  - cbn [proper] in Hp. unfold createPacket. destruct (negb x); [exact HI|].
    destruct (underReset (buf s)); [exact HI|]. rewrite (w64_id _ Hp).
    destruct (write (buf s) (c * r)) as [[b a]|er] eqn:EW; [|exact HI]. cbn [fst].
    destruct HI as [(A & B & C & D & E & F)|(l & e & HT & HB)].
    + unfold write in EW. rewrite A, B, C, D in EW. cbv zeta in EW.
      change (0 - 0) with 0 in EW. change (0 + 0) with 0 in EW. cbn [Z.eqb andb Z.ltb Z.compare] in EW.
      replace (0 <? c * r) with true in EW by lia. discriminate.
    + destruct (write_inv s l e (c * r) b a HT ltac:(lia) EW) as (l' & e' & HT' & _ & _ & HF). right. exists l', e'. split; [exact HT'|]. apply HF, HB.
  - cbn [fifo] in Hq. subst k. unfold release. destruct (nth_error (live s) 0) as [p|] eqn:Ek; [|exact HI]. cbn [fst].
    destruct HI as [(A & B & C & D & E & F)|(l & e & HT & HB)]; [rewrite F in Ek; discriminate|].
    destruct (read_inv s l e 0 p HT Ek) as (l' & e' & HT' & _ & _ & HF). right. exists l', e'. split; [exact HT'|]. apply HF; auto.
  - apply InvF_flag. exact HI.
  - unfold resizeEnd. destruct (underReset (buf s) && (rd (buf s) =? wr (buf s)) && negb (full (buf s))) eqn:Ec; [|exact HI].
    apply andb_prop in Ec. destruct Ec as [Ec E3]. apply andb_prop in Ec. destruct Ec as [E1 E2]. cbn [fst].
    apply negb_true_iff in E3. apply Z.eqb_eq in E2. cbn [proper] in Hp.
    apply InvF_Inv in HI.
    apply InvF_reset; auto.
    + destruct HI as [(A & B & C & D & E & F)|(l & e & HT)]; [exact F|].
      destruct (tiled_empty _ _ _ HT E2 E3) as [-> ->]. destruct HT as (_ & _ & _ & _ & _ & HL & _). exact HL.
    + destruct HI as [(A & B & C & D & E & F)|(l & e & HT)]; [exact E|].
      destruct (tiled_empty _ _ _ HT E2 E3) as [-> ->]. destruct HT as (_ & _ & _ & _ & _ & _ & HP & _).
      apply Permutation_nil. symmetry. exact HP.
Qed.

Lemma run_invF : forall ops s, Forall proper ops -> Forall fifo ops -> InvF s -> InvF (run s ops).
Proof.
  induction ops as [|o ops IH]; intros s HF HG HI; [exact HI|]. inversion HF; inversion HG; subst. cbn [run fold_left].
  apply IH; try assumption. apply step_invF; assumption.
Qed.

Lemma fifo_reclaimed : forall n ops, 0 <= n -> Forall proper ops -> Forall fifo ops -> live (run (sinit n) ops) = [] ->
  let b := buf (run (sinit n) ops) in rd b = wr b /\ full b = false /\ 0 <= rd b <= size b.
Proof.
  intros n ops Hn Hp Hq. cbv zeta.
  generalize (run_invF ops (sinit n) Hp Hq (InvF_reset (sinit n) n false Hn eq_refl eq_refl eq_refl)). generalize (run (sinit n) ops).
  intros s [(A & B & C & D & E & F)|(l & e & HT & HB)] HL; [repeat split; try congruence; lia|].
  destruct HT as (HR & HC & HE & HW & HF & HLv & HP & HK). destruct HB as (_ & HH & _).
  destruct l as [|b l].
  - cbn [chain] in HC. subst e. replace (size (buf s) <=? rd (buf s)) with false in HW by lia. repeat split; try lia.
  - cbn [head_live] in HH. rewrite HL, lives_cons, HH in HLv. discriminate.
Qed.

Theorem pbuf_fifo_half : forall n ops cnt raw, 0 <= n -> Forall proper ops -> Forall fifo ops ->
  let s := run (sinit n) ops in
  live s = [] -> underReset (buf s) = false -> 0 < cnt * raw < two64 -> 2 * (cnt * raw) <= size (buf s) ->
  is_created (snd (createPacket s true cnt raw)) = true.
Proof.
  intros n ops cnt raw Hn Hp Hq s HL Hu Hc H2. subst s.
  destruct (fifo_reclaimed n ops Hn Hp Hq HL) as (A & B & C). revert A B C HL Hu H2. cbv zeta. generalize (run (sinit n) ops). intros s A B C HL Hu H2.
  unfold createPacket. cbn [negb]. rewrite Hu, (w64_id _ Hc).
  destruct (write (buf s) (cnt * raw)) as [[b a]|er] eqn:EW; [reflexivity|].
  assert (X : exists r, write (buf s) (cnt * raw) = inl r).
  { apply write_ok. rewrite B. split; [intros [_ X]; discriminate|]. replace (wr (buf s) <? rd (buf s)) with false by lia. lia. }
  destruct X as [r X]. congruence.
Qed.

Theorem pbuf_fifo_resize : forall n ops m, 0 <= n -> Forall proper ops -> Forall fifo ops ->
  let s := run (sinit n) ops in
  live s = [] -> underReset (buf s) = true -> snd (resizeEnd s m) = Resized.
Proof.
  intros n ops m Hn Hp Hq s HL Hu. subst s.
  destruct (fifo_reclaimed n ops Hn Hp Hq HL) as (A & B & C). unfold resizeEnd. rewrite Hu, A, B, Z.eqb_refl. reflexivity.
Qed.

(** A resize never takes memory from a live packet. *)
Theorem pbuf_resize_safe : forall n ops m, 0 <= n -> Forall proper ops ->
  let s := run (sinit n) ops in snd (resizeEnd s m) = Resized -> live s = [].
Proof.
  intros n ops m Hn Hp. cbv zeta. generalize (run_inv ops (sinit n) Hp (Inv_init n Hn)). generalize (run (sinit n) ops).
  intros s HI HR. unfold resizeEnd in HR.
  destruct (underReset (buf s) && (rd (buf s) =? wr (buf s)) && negb (full (buf s))) eqn:Ec; [|discriminate].
  apply andb_prop in Ec. destruct Ec as [Ec E3]. apply andb_prop in Ec. destruct Ec as [E1 E2].
  apply negb_true_iff in E3. apply Z.eqb_eq in E2.
  destruct HI as [(A & B & C & D & E & F)|(l & e & HT)]; [exact F|].
  destruct (tiled_empty _ _ _ HT E2 E3) as [-> ->]. destruct HT as (_ & _ & _ & _ & _ & HL & _). exact HL.
Qed.

(** The leaked state: no live packet, but the buffer stays full for ever. *)
Definition stuck (s : sys) : Prop := live s = [] /\ rd (buf s) = wr (buf s) /\ full (buf s) = true.

Lemma stuck_step : forall s o, stuck s -> stuck (fst (step s o)) /\ is_created (snd (step s o)) = false.
Proof.
  intros s o (A & B & C). unfold stuck. destruct o as [x c r|k| |n]; cbn [step].
  - unfold createPacket. destruct (negb x); [auto|]. destruct (underReset (buf s)); [auto|].
    unfold write. cbv zeta. rewrite B, Z.sub_diag, C. cbn [Z.eqb andb fst snd is_created]. rewrite C. auto.
  - unfold release. rewrite A. destruct k; cbn [nth_error fst snd is_created]; auto.
  - cbn. auto.
  - unfold resizeEnd. rewrite B, C, andb_false_r. cbn [fst snd is_created]. auto.
Qed.

Lemma run_cons : forall s o ops, run s (o :: ops) = run (fst (step s o)) ops.
Proof. reflexivity. Qed.

Lemma stuck_run : forall ops s o, stuck s -> is_created (snd (step (run s ops) o)) = false.
Proof.
  induction ops as [|x ops IH]; intros s o HS; [apply stuck_step; exact HS|]. rewrite run_cons. apply IH. apply stuck_step. exact HS.
Qed.

Definition leak_trace : list op :=
  [Create true 1 1; Create true 1 1; Create true 1 1; Release 0; Release 0; Create true 1 1; Create true 1 1;
   Release 2; Release 0; Release 0; Create true 1 1; Create true 1 1; Release 0; Release 0].

Lemma pbuf_leak : live (run (sinit 3) leak_trace) = [] /\
  forall ops o, is_created (snd (step (run (run (sinit 3) leak_trace) ops) o)) = false.
Proof.
  split; [reflexivity|]. intros ops o. apply stuck_run. repeat split; reflexivity.
Qed.
