(** Specification vocabulary for the packet buffer (C05, C06). *)
From Verif Require Import Base PBuf_Model.
Local Open Scope Z_scope.

(** The bytes a packet's samples occupy: [pk_addr, pk_addr + pk_bytes). *)
Definition in_bounds (n : Z) (p : pk) : Prop := 0 <= pk_addr p /\ pk_addr p + pk_bytes p <= n.
Definition disjoint (p q : pk) : Prop :=
  pk_addr p + pk_bytes p <= pk_addr q \/ pk_addr q + pk_bytes q <= pk_addr p.
(** Pairwise, for different positions in the list. *)
Definition all_disjoint (l : list pk) : Prop := ForallOrdPairs disjoint l.

(** A creation request for a positive number of bytes that fits a size_t. *)
Definition proper (o : op) : Prop :=
  match o with
  | Create _ c r => 0 < c * r < two64
  | ResizeEnd n => 0 <= n
  | _ => True
  end.
(** Packets are destroyed oldest first. *)
Definition fifo (o : op) : Prop := match o with Release k => k = 0%nat | _ => True end.

Definition is_created (u : out) : bool := match u with Created _ => true | _ => false end.
