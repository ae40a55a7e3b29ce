(** What is expected of packets created in bulk. *)
From Coq Require Import List Bool ZArith.
From Verif Require Import Bulk_Model.
Import ListNotations.
Open Scope Z_scope.

(** Bytes from [fst r] on, [snd r] of them. *)
Definition region := (Z * Z)%type.
Definition within (r : region) (n : Z) : Prop := 0 <= fst r /\ fst r + snd r <= n.
Definition apart (r s : region) : Prop := fst r + snd r <= fst s \/ fst s + snd s <= fst r.

(** The bytes packet [p] reads and writes: its values, and, when the domain is
    explicit, the data of its domain packet, whose samples have [dom] bytes. *)
Definition used (dom : Z) (p : pkt) (l : option Z * Z) : list region :=
  match fst l with Some d => [(d, p_count p * dom)] | None => [] end ++ [(snd l, p_count p * p_raw p)].

(** All memory in use: the three counters, the objects, the data. *)
Definition all_used (c : conf) (dom : Z) (ps : list pkt) : list region :=
  [(0, 4); (4, 8); (12, 8)] ++ objects c 20 (length ps) ++ concat (map (fun x => used dom (fst x) (snd x)) (combine ps (layout c ps))).

Definition Sensible (c : conf) (ps : list pkt) : Prop :=
  0 <= c_int c /\ 0 <= c_obj c /\ 1 <= c_align c /\ forall p, In p ps -> 0 <= p_count p /\ 0 <= p_raw p.

(** Rounding up, without overflow. *)
Definition up (v a : Z) : Z := (v + a - 1) / a * a.
(** The request fits into size_t. *)
Fixpoint sum (l : list Z) : Z := match l with [] => 0 | x :: l => x + sum l end.
Definition Fits (c : conf) (ps : list pkt) : Prop :=
  20 + (c_int c + 2 * c_obj c) * Z.of_nat (length ps) + c_align c
  + sum (map (fun p => p_count p * 8 + p_count p * p_raw p + 2 * c_align c) ps) < 2 ^ 64.

Fixpoint Pairwise {A} (R : A -> A -> Prop) (l : list A) : Prop :=
  match l with [] => True | a :: l => (forall b, In b l -> R a b) /\ Pairwise R l end.

(** Somebody holds a reference to object [o]. *)
Definition Held (st : state) (o : nat) : Prop := In (Hold o) (s_agents st).
