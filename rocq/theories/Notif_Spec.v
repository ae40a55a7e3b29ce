(** What the client should get, from the history alone. *)
From Coq Require Import List Bool Arith.
From Verif Require Import Notif_Model.
Import ListNotations.

(** The events a client of protocol version [v] is told about. *)
Definition Forwarded (v : nat) (e : event) : Prop :=
  ev_own e = false /\ ev_params e = true /\
  ev_kind e <> ConnectionStatus false /\
  (ev_kind e = ClientInfoAdded -> 11 <= v) /\
  (ev_kind e = ActiveChanged false -> v <= 21) /\
  (ev_kind e = ActiveChanged true -> v <= 23).

(** The version in force after a history that starts with version [v]. *)
Fixpoint version_after (v : nat) (h : list label) : nat :=
  match h with
  | [] => v
  | Upgrade w :: h => version_after w h
  | _ :: h => version_after v h
  end.

(** [RaisedBy v h t l]: the forwarded events thread [t] raised in [h], oldest
    first. *)
Inductive RaisedBy (v : nat) : list label -> nat -> list event -> Prop :=
| RB_nil : forall t, RaisedBy v [] t []
| RB_yes : forall h t l e, RaisedBy v h t l -> Forwarded (version_after v h) e ->
    RaisedBy v (h ++ [Raise t e]) t (l ++ [e])
| RB_no : forall h t l e, RaisedBy v h t l -> ~ Forwarded (version_after v h) e ->
    RaisedBy v (h ++ [Raise t e]) t l
| RB_other : forall h t l x, RaisedBy v h t l -> (forall e, x <> Raise t e) ->
    RaisedBy v (h ++ [x]) t l.

(** Everything handed to the transport, in order, and what arrives of it. *)
Definition sent (st : state) : list (nat * event) :=
  flat_map (fun i => match i with Batch l => l | Reply _ _ => [] end) (s_wire st).
Definition received (st : state) : list (nat * event) := flat_map arrives (s_wire st).

Definition by_thread (t : nat) (l : list (nat * event)) : list event :=
  map snd (filter (fun x => Nat.eqb (fst x) t) l).

(** No thread is in a call or in the callback. *)
Definition quiet (st : state) : Prop :=
  forall th, In th (s_threads st) -> t_pc th = Idle /\ t_calls th = [].

Definition no_upgrade (h : list label) : Prop := forall v, ~ In (Upgrade v) h.

(** The thread of an event is in the middle of the callback for it. *)
Definition pending (st : state) (t : nat) : list event :=
  match nth_error (s_threads st) t with
  | Some th => match t_pc th with Raised e => [e] | _ => [] end
  | None => []
  end.

(** [l] is [m] with some elements left out. *)
Inductive Sublist {A} : list A -> list A -> Prop :=
| SL_nil : Sublist [] []
| SL_keep : forall x l m, Sublist l m -> Sublist (x :: l) (x :: m)
| SL_skip : forall x l m, Sublist l m -> Sublist l (x :: m).
