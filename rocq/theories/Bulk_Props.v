(** C47: packets created in bulk. *)
From Coq Require Import List Bool ZArith Lia.
From Verif Require Import Bulk_Model Bulk_Spec Bulk_Proofs.
Import ListNotations.
Open Scope Z_scope.

(** The counters, the objects and the data of all packets lie inside the
    allocation and do not overlap, for all sizes, counts and alignments, when the
    sizes fit into size_t and a domain sample has at most 8 bytes. *)
Theorem c47_layout_partial : forall c dom ps, 0 <= dom <= 8 -> Sensible c ps -> Fits c ps ->
  Pairwise apart (all_used c dom ps) /\ forall r, In r (all_used c dom ps) -> within r (allocated c ps).
Proof.
  intros c dom ps D S0 F. pose proof (all_chain c (c_align c) eq_refl (proj1 (proj2 (proj2 S0))) dom ps D S0 F) as C.
  split; [exact (chain_apart _ _ _ C)|]. intros r H. destruct (chain_in _ _ _ _ C H) as (A & B & E). split; lia.
Qed.

(** All data begin at multiples of the alignment, counted from the allocation. *)
Theorem c47_aligned_partial : forall c ps, Sensible c ps -> Fits c ps ->
  forall l, In l (layout c ps) -> snd l mod c_align c = 0 /\ (forall x, fst l = Some x -> x mod c_align c = 0).
Proof. intros c ps S0 F. exact (layout_aligned c (c_align c) eq_refl (proj1 (proj2 (proj2 S0))) ps S0 F). Qed.

(** Whatever references are taken and released, by whatever threads: nothing is
    used after its end, and while anybody holds any of the objects the memory is
    there. *)
Theorem c47_safe : forall m n h, (2 <= m)%nat -> (1 <= n)%nat -> s_ub (run m (init m n) h) = false.
Proof. intros m n h M N. exact (v_ub m _ (run_inv m M h _ (inv_init m M n N))). Qed.
Theorem c47_alive : forall m n h o, (2 <= m)%nat -> (1 <= n)%nat -> Held (run m (init m n) h) o -> s_freed (run m (init m n) h) = 0%nat.
Proof. intros m n h o M N H. exact (inv_held m M _ o (run_inv m M h _ (inv_init m M n N)) H). Qed.
(** It is given back at most once, and it is given back when nobody holds
    anything and all calls have returned. *)
Theorem c47_once : forall m n h, (2 <= m)%nat -> (1 <= n)%nat -> (s_freed (run m (init m n) h) <= 1)%nat.
Proof. intros m n h M N. exact (inv_once m M _ (run_inv m M h _ (inv_init m M n N))). Qed.
Theorem c47_given_back : forall m n h, (2 <= m)%nat -> (1 <= n)%nat -> s_agents (run m (init m n) h) = [] -> s_freed (run m (init m n) h) = 1%nat.
Proof. intros m n h M N E. exact (inv_done m M _ (run_inv m M h _ (inv_init m M n N)) E). Qed.

(* ---------- what does not hold ---------- *)
(** Without debug assertions the type of the domain samples is not checked: with
    samples of 16 bytes the data of the domain packet run into other data and
    beyond the allocation. *)
Theorem c47_domain_type_refuted : exists c dom ps, Sensible c ps /\ Fits c ps /\ dom = 16 /\
  ~ Pairwise apart (all_used c dom ps) /\ exists r, In r (all_used c dom ps) /\ ~ within r (allocated c ps).
Proof.
  exists (mkC 32 200 1 false true), 16, [mkP 1000 4]. split; [|split; [|split; [reflexivity|]]].
  - repeat split; try (cbn; lia); intros; cbn in *; intuition subst; cbn; lia.
  - vm_compute. reflexivity.
  - split.
    + cbn. intros (_ & _ & _ & _ & _ & H & _). specialize (H _ (or_introl eq_refl)). unfold apart in H. cbn in H. lia.
    + exists (420, 16000). split; [vm_compute; tauto|]. unfold within. cbn. lia.
Qed.

(** The sizes are multiplied without a check: for a large number of samples less
    is allocated than the packet has. *)
Theorem c47_overflow_refuted : exists c ps, Sensible c ps /\
  exists r, In r (all_used c 8 ps) /\ ~ within r (allocated c ps).
Proof.
  exists (mkC 32 200 1 false false), [mkP (2 ^ 61) 8]. split.
  - repeat split; try (cbn; lia); intros; cbn in *; intuition subst; cbn; lia.
  - exists (420, 2 ^ 64). split; [vm_compute; tauto|]. unfold within. cbn. lia.
Qed.

(** A packet nobody holds any more is destroyed, and those who asked to be told
    are told, only when all packets created with it are released. *)
Theorem c47_destroyed_refuted : exists h, let st := run 3 (init 3 2) h in
  s_agents st = [Hold 5] /\ nth 2 (s_refs st) 0 = 0 /\ s_freed st = 0%nat.
Proof. exists [(0, Drop); (0, Tick); (0, Tick); (0, Tick); (0, Tick); (0, Tick); (0, Tick)]%nat. vm_compute. auto. Qed.

(* ---------- the hypotheses are met ---------- *)
Definition conf1 := mkC 48 216 64 true false.
Definition conf2 := mkC 48 216 64 false true.
Definition pkts := [mkP 100 8; mkP 3 4; mkP 0 8].
Example pkts_ok : Sensible conf1 pkts /\ Fits conf1 pkts /\ Sensible conf2 pkts /\ Fits conf2 pkts.
Proof.
  split; [|split; [vm_compute; reflexivity|split; [|vm_compute; reflexivity]]];
    (split; [cbn; lia|split; [cbn; lia|split; [cbn; lia|]]]); intros p H; cbn in H; intuition subst; cbn; lia.
Qed.
Example pkts_layout : layout conf1 pkts = [(None, 1472); (None, 2304); (None, 2368)] /\ allocated conf1 pkts = 2368 /\
  layout conf2 pkts = [(Some 1344, 2176); (Some 3008, 3072); (Some 3136, 3136)] /\ allocated conf2 pkts = 3136.
Proof. vm_compute. auto. Qed.
(** Two packets with offsets; the domain packet of the first one outlives it, and
    its offset outlives both. *)
Definition story : list (nat * action) :=
  [(0, Get); (0, Drop); (0, Tick); (0, Tick); (2, Drop); (0, Tick); (1, Tick)]%nat.
Example story_state : let st := run 3 (init 3 2) story in
  s_refs st = [1; 1; 0; 1; 1; 0] /\ s_chunk st = 5 /\ s_freed st = 0%nat /\ s_agents st = [Hold 1; Run [Release 4; Chunk]]%nat.
Proof. vm_compute. auto. Qed.
Example story_end : let st := run 3 (init 3 2) (story ++ [(0, Get); (0, Drop); (2, Tick); (2, Tick); (2, Tick); (2, Tick); (2, Tick); (0, Tick); (0, Tick); (0, Tick); (0, Drop); (0, Tick); (0, Tick); (0, Tick)]%nat) in
  s_agents st = [] /\ s_freed st = 1%nat.
Proof. vm_compute. auto. Qed.

Print Assumptions c47_layout_partial.
Print Assumptions c47_aligned_partial.
Print Assumptions c47_safe.
Print Assumptions c47_alive.
Print Assumptions c47_once.
Print Assumptions c47_given_back.
Print Assumptions c47_domain_type_refuted.
Print Assumptions c47_overflow_refuted.
Print Assumptions c47_destroyed_refuted.
