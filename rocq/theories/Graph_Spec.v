(** Vocabulary of C24. *)
From Verif Require Import Base Graph_Model.
Local Open Scope nat_scope.

(** data flows from block f to block f': f has an output signal connected to a
    port that f' listens to *)
Definition feeds (g : graph) (f f' : nat) : Prop :=
  exists s p, In (f, s) (outs g) /\ In (p, s) (conns g) /\ listener g p = Some f'.

(** ... in one or more steps *)
Inductive flows (g : graph) : nat -> nat -> Prop :=
| one : forall f f', feeds g f f' -> flows g f f'
| more : forall f f' f'', feeds g f f' -> flows g f' f'' -> flows g f f''.

Definition cyclic (g : graph) : Prop := exists f, flows g f f.

(** port p connected to signal s instead of whatever it was connected to *)
Definition connected (g : graph) (s p : nat) : graph :=
  {| blocks := blocks g; outs := outs g; lsn := lsn g; conns := filter (fun e => negb (fst e =? p)) (conns g) ++ [(p, s)];
     gone_signals := gone_signals g; gone_ports := gone_ports g |}.

(** listeners are set while the port is unconnected *)
Definition polite (g : graph) (o : op) : Prop :=
  match o with SetListener p f => forall s, ~ In (p, s) (conns g) | _ => True end.
Fixpoint polite_history (h : list op) : Prop :=
  match h with [] => True | o :: r => polite (after r) o /\ polite_history r end.
