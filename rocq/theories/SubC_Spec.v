(** What the server thinks is subscribed, and how many consumers a signal has. *)
From Coq Require Import List Bool Arith.
From Verif Require Import SubC_Model.
Import ListNotations.

(** The server has the signal subscribed after the notes [w] (latest last). *)
Inductive Subscribed : list note -> id -> Prop :=
| Su_yes : forall w x, Subscribed (w ++ [RSub x]) x
| Su_other : forall w x n, Subscribed w x -> n <> RUnsub x -> n <> Gone x -> n <> Fresh ->
    Subscribed (w ++ [n]) x.

(** No request is superfluous: one subscribes only what is not subscribed and
    cancels only what is. *)
Inductive Proper : list note -> Prop :=
| Pr_nil : Proper []
| Pr_sub : forall w x, Proper w -> ~ Subscribed w x -> Proper (w ++ [RSub x])
| Pr_unsub : forall w x, Proper w -> Subscribed w x -> Proper (w ++ [RUnsub x])
| Pr_gone : forall w x, Proper w -> Proper (w ++ [Gone x])
| Pr_fresh : forall w, Proper w -> Proper (w ++ [Fresh]).

(** A signal is announced: the server told about it and it has neither gone
    nor has the session been restarted since. *)
Inductive Announced : list op -> id -> Prop :=
| An_yes : forall h x, Announced (h ++ [Available x]) x
| An_other : forall h x o, Announced h x -> o <> Unavailable x -> o <> Reconnecting ->
    Announced (h ++ [o]) x.

(** A signal is added to the streaming. *)
Inductive Added : list op -> id -> Prop :=
| Ad_yes : forall h r, Added (h ++ [Add r]) r
| Ad_other : forall h r o, Added h r -> o <> Drop r -> Added (h ++ [o]) r.

(** A call that subscribes (unsubscribes) the signal [r], itself or as the
    domain signal. *)
Definition mentions (skipd : bool) (r v : id) (d : option id) : Prop :=
  r = v \/ (skipd = false /\ d = Some r).

(** [Consumers skipd h r n]: [n] consumers of [r]: subscriptions less
    cancellations since it was added. *)
Inductive Consumers (skipd : bool) : list op -> id -> nat -> Prop :=
| Co_nil : forall r, Consumers skipd [] r 0
| Co_add : forall h r, ~ Added h r -> Consumers skipd (h ++ [Add r]) r 0
| Co_sub : forall h r n v d f, Consumers skipd h r n -> Added h r -> mentions skipd r v d -> d <> Some v ->
    Consumers skipd (h ++ [Subscribe v d f]) r (S n)
| Co_unsub : forall h r n v d f, Consumers skipd h r (S n) -> Added h r -> mentions skipd r v d -> d <> Some v ->
    Consumers skipd (h ++ [Unsubscribe v d f]) r n
| Co_other : forall h r n o, Consumers skipd h r n ->
    (o = Add r -> Added h r) ->
    (forall v d f, o = Subscribe v d f -> ~ (Added h r /\ mentions skipd r v d /\ d <> Some v)) ->
    (forall v d f, o = Unsubscribe v d f -> ~ (Added h r /\ mentions skipd r v d /\ d <> Some v)) ->
    Consumers skipd (h ++ [o]) r n.

(** The ids in use are unambiguous: [Rs] are the remote ids, [Xs] the ids the
    server announces. *)
Record Unambiguous (Rs Xs : id -> Prop) : Prop := {
  un_one : forall r x y, Rs r -> Xs x -> Xs y -> ends_with r x = true -> ends_with r y = true -> x = y;
  un_whose : forall r q x, Rs r -> Rs q -> Xs x -> ends_with r x = true -> ends_with q x = true -> r = q;
  un_flat : forall x y, Xs x -> Xs y -> ends_with x y = true -> x = y
}.
Definition uses (Rs Xs : id -> Prop) (o : op) : Prop :=
  match o with
  | Add r | Drop r => Rs r
  | Subscribe r d _ | Unsubscribe r d _ => Rs r /\ (forall q, d = Some q -> Rs q)
  | Available x | Unavailable x => Xs x
  | _ => True
  end.

(** A disciplined call: no request fails to be sent, a signal is dropped only
    when it has no consumers, a signal is subscribed along with its domain
    signal only when both are added, and cancelled only when both have
    consumers. *)
Definition disciplined (skipd : bool) (h : list op) (o : op) : Prop :=
  match o with
  | Drop r => Added h r -> Consumers skipd h r 0
  | Subscribe r d f => f = false /\ Added h r /\ (forall q, d = Some q -> Added h q)
  | Unsubscribe r d f => f = false /\
      (forall q, mentions skipd q r d -> Added h q /\ exists n, Consumers skipd h q (S n))
  | _ => True
  end.
Inductive Disciplined (skipd : bool) (Rs Xs : id -> Prop) : list op -> Prop :=
| Di_nil : Disciplined skipd Rs Xs []
| Di_step : forall h o, Disciplined skipd Rs Xs h -> uses Rs Xs o -> disciplined skipd h o ->
    Disciplined skipd Rs Xs (h ++ [o]).
