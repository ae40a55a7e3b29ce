(** What is expected of references, and when constructors behave. *)
From Coq Require Import List Bool ZArith.
From Verif Require Import RefC_Model.
Import ListNotations.

(** Somebody holds a reference to the object. *)
Definition Held (st : state) : Prop := In Ref (s_agents st).

(** The object is under construction, referenced, or on its way out: a release
    is still in progress. *)
Definition keeps (a : agent) : Prop :=
  match a with Building _ | Ref | Dec | Del _ | Undo _ => True | _ => False end.

(** A constructor that behaves: it adds its own reference before it hands out
    references to itself, weak or strong; when it throws after that, it takes the
    reference back with releaseWeakRefOnException, and nobody holds the object;
    a constructor that has handed out nothing may simply throw. *)
Definition quiet (a : agent) : Prop := match a with Ref | Undo _ => False | _ => True end.
Definition behaves (st : state) (ix : nat * action) : Prop :=
  match snd ix with
  | CSelf | CWeak => nth_error (s_agents st) (fst ix) = Some (Building true)
  | CThrow => forall b, nth_error (s_agents st) (fst ix) = Some (Building b) -> s_agents st = [Building b]
  | CThrowGuard => nth_error (s_agents st) (fst ix) = Some (Building true) /\ Forall quiet (s_agents st)
  | _ => True
  end.
Inductive Behaved : state -> list (nat * action) -> Prop :=
| Be_nil : forall st, Behaved st []
| Be_cons : forall st ix h, behaves st ix -> Behaved (fst (step st ix)) h -> Behaved st (ix :: h).

Fixpoint times (e : event -> bool) (l : list event) : nat :=
  match l with [] => 0 | x :: l => (if e x then 1 else 0) + times e l end%nat.
Definition is_destroyed (e : event) : bool := match e with Destroyed => true | _ => false end.
Definition is_freed (e : event) : bool := match e with Freed => true | _ => false end.
