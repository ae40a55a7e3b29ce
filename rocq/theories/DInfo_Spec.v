(** * DInfo_Spec: vocabulary of property C68 *)
From Coq Require Import String List Bool Arith.
From Verif Require Import DInfo_Model.
Import ListNotations.
Open Scope string_scope.
Open Scope nat_scope.
Open Scope list_scope.

Definition readOnly (n : string) (s : st) : Prop := exists v, find n (inf s) = Some (P true v).
Definition writable (n : string) (s : st) : Prop := exists v, find n (inf s) = Some (P false v).

(** The device has a property of this name. *)
Definition deviceHas (n : string) (s : st) : Prop := exists v, find n (dprops s) = Some v.

(** The two values a device and its info have in common. *)
Definition common (n : string) : Prop := n = "userName" \/ n = "location".

(** States of a device and its info after any calls. *)
Definition made (s : st) : Prop := exists d dp ch name conn sdk l, s = run l (device d dp ch name conn sdk).

(** Calls that do not lock the name. *)
Definition unlocking (p : op) : Prop := match p with LockName b => b = false | _ => True end.

(** Names that are the same but for the case of letters. *)
Definition letters : list (string * string) :=
  [("A","a");("B","b");("C","c");("D","d");("E","e");("F","f");("G","g");("H","h");("I","i");("J","j");("K","k");("L","l");("M","m");
   ("N","n");("O","o");("P","p");("Q","q");("R","r");("S","s");("T","t");("U","u");("V","v");("W","w");("X","x");("Y","y");("Z","z")].

Fixpoint sameName (a b : string) : Prop :=
  match a, b with
  | EmptyString, EmptyString => True
  | String x r, String y t =>
      (x = y \/ In (String x "", String y "") letters \/ In (String y "", String x "") letters) /\ sameName r t
  | _, _ => False
  end.
