(** Vocabulary of C34.  Traces have the newest event first. *)
From Verif Require Import Base Loop_Model.
From Coq Require Import Sorting.Permutation Sorting.Sorted.
Local Open Scope nat_scope.

(** works scheduled and not finished for good: one-shot works and stop requests
    finish when they return, repetitive ones when they return without asking
    to be repeated *)
Fixpoint pending (t : list ev) : list item :=
  match t with
  | [] => []
  | Scheduled i :: r => i :: pending r
  | Done _ i false :: r => filter (fun j => negb (num j =? num i)) (pending r)
  | _ :: r => pending r
  end.

(** works started, newest first *)
Fixpoint started (t : list ev) : list item :=
  match t with [] => [] | Exec _ i :: r => i :: started r | _ :: r => started r end.

(** works that run once *)
Definition one_shot (i : item) : bool := match ikind i with Repetitive => false | _ => true end.

(** works scheduled *)
Fixpoint scheduled (t : list ev) : list item :=
  match t with [] => [] | Scheduled i :: r => i :: scheduled r | _ :: r => scheduled r end.

(** a call of run or runIteration that has begun and not returned *)
Definition active (t : list ev) (l : nat) : Prop := (exists b, In (Began l b) t) /\ ~ In (Returned l) t.

(** no call begins while another one is active (calls that are refused do not begin) *)
Fixpoint orderly (t : list ev) : Prop :=
  match t with
  | [] => True
  | Began l _ :: r => (forall k, ~ active r k) /\ orderly r
  | _ :: r => orderly r
  end.

(** the events of one iteration of call l *)
Definition within (l : nat) (t : list ev) : Prop := ~ In (IterEnds l) t /\ ~ In (IterBegins l) t.

Definition stop_done (t : list ev) : Prop := exists l i, In (Done l i false) t /\ ikind i = StopRequest.
