(** Specification vocabulary for the connection (properties C01-C04). It only speaks
    about calls, what they returned, and packet lists. *)
From Verif Require Import Base Conn_Model.
Local Open Scope Z_scope.

(** Packets the connection accepted, in call order. *)
Definition accepted_by (e : op * out) : list packet :=
  match e with
  | (Enq _ _ p, {| o_res := Success |}) => [p]
  | (EnqMultiple _ ps, {| o_res := Success |}) => ps
  | _ => []
  end.
Definition accepted (t : list (op * out)) : list packet := flat_map accepted_by t.

(** Packets handed out to the consumer, in call order. *)
Definition delivered_by (e : op * out) : list packet :=
  match e with
  | (Deq, u) | (DeqAll, u) | (DeqUpTo _, u) => o_packets u
  | _ => []
  end.
Definition delivered (t : list (op * out)) : list packet := flat_map delivered_by t.

Definition trace (gapChecking : bool) (ops : list op) : list (op * out) := snd (run (init gapChecking) ops).
Definition final (gapChecking : bool) (ops : list op) : conn := fst (run (init gapChecking) ops).

(** Everything the consumer gets if, after [ops], it takes the rest of the queue. *)
Definition stream (gapChecking : bool) (ops : list op) : list packet :=
  delivered (trace gapChecking (ops ++ [DeqAll])).

Definition isGap (p : packet) : bool := match p with GapEv _ => true | _ => false end.
Definition isData (p : packet) : bool := match p with Data _ _ _ => true | _ => false end.
Definition isDesc (p : packet) : bool := match p with DescEv _ _ => true | _ => false end.
Definition isEventPacket (p : packet) : bool :=
  match p with DescEv _ _ | GapEv _ | OtherEv _ => true | _ => false end.

Definition isLastDescOp (o : op) : bool := match o with EnqLastDescriptor => true | _ => false end.
Definition isMultiOp (o : op) : bool := match o with EnqMultiple _ _ => true | _ => false end.

(** Samples of a packet, of a list, and of the packets in front of the first one of a kind. *)
Definition samples_of (p : packet) : Z := match p with Data _ n _ => Z.of_nat n | _ => 0 end.
Definition total_samples (l : list packet) : Z := fold_right (fun p a => samples_of p + a) 0 l.
Fixpoint before_first (kind : packet -> bool) (l : list packet) : list packet :=
  match l with
  | [] => []
  | p :: l' => if kind p then [] else p :: before_first kind l'
  end.

(** Packets offered by a call. *)
Definition offered (o : op) : list packet :=
  match o with Enq _ _ p => [p] | EnqMultiple _ ps => ps | _ => [] end.
(** Data packets, typeless packets and descriptor events: no custom or externally made gap events. *)
Definition ordinary (p : packet) : bool := match p with Data _ _ _ | DescEv _ _ | NoneP _ => true | _ => false end.
Definition bulk_removal (o : op) : bool := match o with DeqAll | DeqUpTo _ => true | _ => false end.

(** The calls under which the counters are exact: ordinary packets only, and with gap checking on
    no bulk removal. *)
Definition op_ok (g : bool) (o : op) : Prop :=
  forallb ordinary (offered o) = true /\ (g = true -> bulk_removal o = false).

(** Wake-ups. [woken_by drained w e]: was the listener of a port using the
    "scheduler, queue was empty" method notified since it last learnt from the
    connection that there is nothing left?  [drained] says which answers mean that. *)
Definition is_wakeup (n : option notif) : bool :=
  match n with
  | Some (Notify true) | Some NotifyOnThisThread | Some NotifyWithScheduler => true
  | _ => false
  end.
Definition woken_by (drained : op * out -> bool) (w : bool) (e : op * out) : bool :=
  if is_wakeup (o_notif (snd e)) then true else if drained e then false else w.
Definition woken (drained : op * out -> bool) (t : list (op * out)) : bool :=
  fold_left (woken_by drained) t false.

(** A consumer that treats only a failed single dequeue as "empty" ... *)
Definition drained_by_dequeue (e : op * out) : bool :=
  match e with (Deq, {| o_res := NoMoreItems |}) => true | _ => false end.
(** ... and one that also relies on the NO_MORE_ITEMS answer of dequeueAll. *)
Definition drained_by_any (e : op * out) : bool :=
  match e with
  | (Deq, {| o_res := NoMoreItems |}) | (DeqAll, {| o_res := NoMoreItems |}) => true
  | _ => false
  end.

(** Gaps. The domain descriptor in force after a packet list. *)
Definition domain_after (l : list packet) : dparam :=
  fold_left (fun d p => match p with DescEv _ PUnchanged => d | DescEv _ d' => d' | _ => d end) l PUnchanged.
Definition changes_domain (p : packet) : bool :=
  match p with DescEv _ PNull | DescEv _ (PDesc _) => true | _ => false end.
(** Gap checking applies to a linear domain of a 64-bit integer type. *)
Definition checkable (d : dparam) : option Z :=
  match d with
  | PDesc {| dd_linear := true; dd_delta := dl; dd_type := DSInt64 |}
  | PDesc {| dd_linear := true; dd_delta := dl; dd_type := DSUInt64 |} => Some dl
  | _ => None
  end.
Definition no_ub (t : list (op * out)) : Prop := forall o u, In (o, u) t -> o_res u <> UB.
Definition pure_ops (ops : list op) : Prop :=
  forall o, In o ops -> isMultiOp o = false /\ isLastDescOp o = false.
