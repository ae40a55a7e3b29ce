(** Packets created in bulk: several packets, their domain packets and offsets,
    and their data, share one allocation.
    Models core/opendaq/signal/src/bulk_data_packet.cpp.

    Simplifications: creation succeeds (malloc returns memory, no constructor
    throws); the objects are only used through their reference counts, so
    explicit dispose() and reuse() are left out; memory is sequentially
    consistent. *)
From Coq Require Import List Bool ZArith.
Import ListNotations.
Open Scope Z_scope.

(* ---------- layout ---------- *)
Definition W : Z := 2 ^ 64.
(** bulk_data_packet.cpp 82-85: alignTo, in size_t. *)
Definition align_to (v a : Z) : Z := ((v + a - 1) mod W / a * a) mod W.

(** One packet: number of samples and size of a raw sample of the value. *)
Record pkt := mkP { p_count : Z; p_raw : Z }.

(** Sizes of BulkIntegerImpl and BulkDataPacketImpl, alignment, rule of the domain. *)
Record conf := mkC { c_int : Z; c_obj : Z; c_align : Z; c_offsets : bool; c_explicit : bool }.

(** 122-126: sizeof(std::atomic<int>) + 2 * sizeof(size_t) + the objects. *)
Definition header (c : conf) (ps : list pkt) : Z :=
  align_to ((4 + 8 + 8 + ((if c_offsets c then c_int c else 0) + c_obj c * 2) * Z.of_nat (length ps)) mod W) (c_align c).

(** 128-141: the first loop; the sum of the data sizes. *)
Definition data_size (c : conf) (p : pkt) : Z :=
  let d := if c_explicit c then align_to ((p_count p * 8) mod W) (c_align c) else 0 in
  align_to ((d + (p_count p * p_raw p) mod W) mod W) (c_align c).
Fixpoint mem_size (c : conf) (m : Z) (ps : list pkt) : Z :=
  match ps with [] => m | p :: ps => mem_size c ((m + data_size c p) mod W) ps end.
(** 143: what is asked from malloc. *)
Definition allocated (c : conf) (ps : list pkt) : Z := mem_size c (header c ps) ps.

(** 155-221: the second loop; where the data of each packet begins, relative to
    the allocation: domain data (explicit rule only) and value data. *)
Fixpoint places (c : conf) (d : Z) (ps : list pkt) : list (option Z * Z) :=
  match ps with
  | [] => []
  | p :: ps =>
      let dom := if c_explicit c then Some d else None in
      let d1 := if c_explicit c then d + align_to ((8 * p_count p) mod W) (c_align c) else d in
      let d2 := d1 + align_to ((p_raw p * p_count p) mod W) (c_align c) in
      (dom, d1) :: places c d2 ps
  end.
Definition layout (c : conf) (ps : list pkt) : list (option Z * Z) := places c (header c ps) ps.
(** 155-219: where the objects are. *)
Fixpoint objects (c : conf) (d : Z) (n : nat) : list (Z * Z) :=
  match n with
  | O => []
  | S n =>
      let i := if c_offsets c then c_int c else 0 in
      (if c_offsets c then [(d, c_int c)] else []) ++ [(d + i, c_obj c); (d + i + c_obj c, c_obj c)] ++ objects c (d + i + c_obj c + c_obj c) n
  end.

(* ---------- lifetime ---------- *)
(** The objects are numbered as they lie in memory: with offsets 3i, 3i+1, 3i+2
    are the offset, the domain packet and packet i; without, 2i and 2i+1 are the
    domain packet and packet i.  [m] is 3 or 2.  Every object but the first of a
    group owns the one before it. *)
Definition child (m o : nat) : option nat := if Nat.eqb (Nat.modulo o m) 0 then None else Some (pred o).

Inductive op := Release (o : nat) | Chunk | Destruct.
Inductive agent :=
| Hold (o : nat)                 (* somebody's reference to object [o] *)
| Run (l : list op).             (* a thread inside releaseRef: what is still to be done *)

Record state := mkS {
  s_refs : list Z;               (* reference count of each object *)
  s_chunk : Z;                   (* the count at the start of the memory *)
  s_freed : nat;                 (* how many times the memory was given back *)
  s_ub : bool;                   (* it was used after that, or an object after its last release *)
  s_agents : list agent
}.

(** After 87-224: the caller has a reference to each of the [n] packets. *)
Definition init (m n : nat) : state :=
  mkS (repeat 1 (m * n)) (Z.of_nat (m * n)) 0 false (map (fun i => Hold (m * i + (m - 1))) (seq 0 n)).

Inductive action := Add | Drop | Get | Tick.

Definition use (st : state) : state :=
  mkS (s_refs st) (s_chunk st) (s_freed st) (s_ub st || Nat.ltb 0 (s_freed st)) (s_agents st).
Definition use_obj (o : nat) (st : state) : state :=
  mkS (s_refs st) (s_chunk st) (s_freed st) (s_ub st || Nat.ltb 0 (s_freed st) || (nth o (s_refs st) 0 <=? 0)) (s_agents st).
Fixpoint add_at (k : nat) (d : Z) (l : list Z) : list Z :=
  match l, k with
  | [], _ => []
  | c :: l, O => (c + d) :: l
  | c :: l, S k => c :: add_at k d l
  end.
Definition add_ref (st : state) (o : nat) (d : Z) : state :=
  mkS (add_at o d (s_refs st)) (s_chunk st) (s_freed st) (s_ub st) (s_agents st).
Definition add_chunk (st : state) (d : Z) : state :=
  mkS (s_refs st) (s_chunk st + d) (s_freed st) (s_ub st) (s_agents st).
Definition free (st : state) : state :=
  mkS (s_refs st) (s_chunk st) (S (s_freed st)) (s_ub st) (s_agents st).

Definition todo (l : list op) : list agent := match l with [] => [] | _ => [Run l] end.

Definition act (m : nat) (a : agent) (x : action) (st : state) : option (state * list agent) :=
  match a, x with
  | Hold o, Add => Some (add_ref (use_obj o st) o 1, [Hold o; Hold o])
  | Hold o, Drop => Some (st, [Run [Release o]])
  (* getDomainPacket of a packet, getOffset of a domain packet *)
  | Hold o, Get => match child m o with Some c => Some (add_ref (use_obj c (use_obj o st)) c 1, [Hold o; Hold c]) | None => None end
  (* 15-27: releaseRef; dispose releases what the object owns, then the chunk *)
  | Run (Release o :: k), Tick =>
      let st := add_ref (use_obj o st) o (-1) in
      if nth o (s_refs st) 0 =? 0 then
        Some (st, [Run (match child m o with Some c => [Release c] | None => [] end ++ Chunk :: k)])
      else Some (st, todo k)
  (* 48-56: operator() *)
  | Run (Chunk :: k), Tick =>
      let st := add_chunk (use st) (-1) in
      Some (st, if s_chunk st =? 0 then [Run (Destruct :: k)] else todo k)
  (* 58-79: destructors of all objects, free *)
  | Run (Destruct :: k), Tick => Some (free (use st), todo k)
  | _, _ => None
  end.

Definition with_agents (st : state) (l : list agent) : state :=
  mkS (s_refs st) (s_chunk st) (s_freed st) (s_ub st) l.
(** Agent number [i] does [x]. *)
Definition step (m : nat) (st : state) (ix : nat * action) : state :=
  match nth_error (s_agents st) (fst ix) with
  | None => st
  | Some a =>
      match act m a (snd ix) st with
      | None => st
      | Some (st', w) => with_agents st' (firstn (fst ix) (s_agents st) ++ w ++ skipn (S (fst ix)) (s_agents st))
      end
  end.
Definition run (m : nat) (st : state) (h : list (nat * action)) : state := fold_left (step m) h st.
