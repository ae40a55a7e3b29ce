(** * Logg_Spec: vocabulary of property C69 *)
From Coq Require Import String List Bool Arith ZArith.
From Verif Require Import Logg_Model.
Import ListNotations.
Open Scope nat_scope.
Open Scope list_scope.

(** The level and the name of component [i]. *)
Definition levelIs (i lv : nat) (s : lg) : Prop := exists c, nth_error (comps s) i = Some c /\ clevel c = lv.
Definition flushIs (i lv : nat) (s : lg) : Prop := exists c, nth_error (comps s) i = Some c /\ cflush c = lv.
Definition nameIs (i : nat) (n : string) (s : lg) : Prop := exists c, nth_error (comps s) i = Some c /\ cname c = n.

(** States of a logger after any calls. *)
Definition made (e : env) (s : lg) : Prop := exists lv ss l, s = run e l (new lv ss).

(** The messages logged by a history whose component had, when they were
    logged, at most their level. *)
Fixpoint accepted (e : env) (l : list op) (s : lg) : list entry :=
  match l with
  | [] => []
  | p :: r =>
      match p with
      | Log i m lv => match nth_error (comps s) i with
                      | Some c => if clevel c <=? lv then [(i, m, lv)] else []
                      | None => []
                      end
      | _ => []
      end ++ accepted e r (step e p s)
  end.

(** Those of at least a level. *)
Definition atLeast (lv : nat) : list entry -> list entry := filter (fun x => lv <=? snd x).

(** Those that wait for the thread. *)
Definition waiting (s : lg) : list entry := flat_map (fun t => match t with Msg x => [x] | FlushT => [] end) (queue s).

(** The first list is left if entries are taken out of the second. *)
Inductive sub {A} : list A -> list A -> Prop :=
| sub_nil : forall l, sub [] l
| sub_take : forall x a b, sub a b -> sub (x :: a) (x :: b)
| sub_skip : forall x a b, sub a b -> sub a (x :: b).

Definition sinkOf (k : nat) (s : lg) : option sink := nth_error (sinks s) k.

Definition keepsSinks (p : op) : Prop := match p with SinkLevel _ _ => False | _ => True end.

(** Calls that do not remove the name. *)
Definition keepsName (n : string) (p : op) : Prop := match p with Remove m => m <> n | _ => True end.

(** Calls that do not set the level of component [i]. *)
Definition keepsLevel (i : nat) (p : op) : Prop := match p with CompLevel j _ => j <> i | _ => True end.

(** How often the thread of the pool worked. *)
Definition works (l : list op) : nat := length (filter (fun p => match p with Work => true | _ => false end) l).

(** Levels a program can name. *)
Definition sane (p : op) : Prop :=
  match p with SetLevel lv | FlushOn lv | CompLevel _ lv | CompFlushOn _ lv | Log _ _ lv | SinkLevel _ lv => lv <= Default | _ => True end.

(** The second name is the first in capitals. *)
Open Scope string_scope.
Definition letters : list (string * string) :=
  [("A","a");("B","b");("C","c");("D","d");("E","e");("F","f");("G","g");("H","h");("I","i");("J","j");("K","k");("L","l");("M","m");
   ("N","n");("O","o");("P","p");("Q","q");("R","r");("S","s");("T","t");("U","u");("V","v");("W","w");("X","x");("Y","y");("Z","z")].

Fixpoint capitals (a b : string) : Prop :=
  match a, b with
  | EmptyString, EmptyString => True
  | String x r, String y t =>
      (In (String y "", String x "") letters \/ (~ In (String x "") (map snd letters) /\ x = y)) /\ capitals r t
  | _, _ => False
  end.
Close Scope string_scope.

(** Calls that ask for messages to be written out. *)
Definition flushes (p : op) (s : lg) : Prop :=
  match p with
  | Flush => names s <> []
  | CompFlush i => exists c, nth_error (comps s) i = Some c
  | Remove n => exists i, find n (names s) = Some i
  | _ => False
  end.
