(** Specification vocabulary for data rules (C07, C08). *)
From Verif Require Import Base Rule_Model.
Local Open Scope Z_scope.

(** The range of an integer type. *)
Definition in_range (sgn : bool) (bits x : Z) : Prop :=
  if sgn then - 2 ^ (bits - 1) <= x < 2 ^ (bits - 1) else 0 <= x < 2 ^ bits.
Definition congruent (bits x y : Z) : Prop := exists k, x = y + k * 2 ^ bits.

(** The value a constant rule describes at index [i]: that of the last change at a position not
    after [i], the initial value if there is none. *)
Definition value_at (init : Z) (es : list entry) (i : nat) : Z :=
  match rev (filter (fun e => (fst e <=? i)%nat) es) with
  | [] => init
  | e :: _ => snd e
  end.
(** Changes are listed in order and lie inside the packet. *)
Fixpoint ordered (es : list entry) : Prop :=
  match es with
  | [] => True
  | e :: es' => Forall (fun e' => (fst e <= fst e')%nat) es' /\ ordered es'
  end.
Definition inside (n : nat) (es : list entry) : Prop := Forall (fun e => (fst e <= n)%nat) es.

(** Reading one value gives the element of the full array. *)
Definition value_agrees (p : packet) (l : list Z) (i : nat) : Prop :=
  exists v, nth_error l i = Some v /\ getValueByIndex p i = Ok v.
Definition linear_packet (T : arith) (isInt : bool) (n : nat) (d s o : Z) (ref : option Z) : packet :=
  {| p_T := T; p_isInt := isInt; p_count := n; p_raw := []; p_rule := Some (Linear d s o); p_scaling := None; p_refOff := ref |}.
Definition constant_packet (T : arith) (n : nat) (init : Z) (es : list entry) : packet :=
  {| p_T := T; p_isInt := true; p_count := n; p_raw := []; p_rule := Some (Constant init es); p_scaling := None; p_refOff := None |}.

(** Packets with explicit data: no reference offset, or a post-scaled type with a non-zero one. *)
Definition explicit_ok (p : packet) : Prop :=
  p_rule p = None /\ length (p_raw p) = p_count p /\
  (p_refOff p = None \/ (exists f, p_scaling p = Some f) /\ hasReferenceDomainOffset p = true).
