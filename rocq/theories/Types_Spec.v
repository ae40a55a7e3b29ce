(** Vocabulary of C33 and C41. *)
From Verif Require Import Base Types_Model.
From Coq Require Import String Ascii.
Local Open Scope Z_scope.

(** built-in names *)
Definition builtin : list string :=
  ["ArgumentInfo"; "CallableInfo"; "Unit"; "ComplexNumber"; "Ratio"; "DeviceType"; "FunctionBlockType";
   "ServerType"; "DataDescriptor"; "DataRule"; "Dimension"; "DimensionRule"; "Range"; "Scaling"]%string.
(** the same letters, upper or lower case *)
Definition same_letter (a b : Z) : Prop :=
  a = b \/ (65 <= a <= 90 /\ b = a + 32) \/ (65 <= b <= 90 /\ a = b + 32).
Definition reserved (n : name) : Prop := exists b, In b builtin /\ Forall2 same_letter (bytes b) n.

(** identifiers: letters, digits and _, not starting with a digit *)
Definition letter (c : Z) : Prop := 65 <= c <= 90 \/ 97 <= c <= 122.
Definition identifier (n : name) : Prop :=
  exists c r, n = c :: r /\ (letter c \/ c = 95) /\ Forall (fun c => letter c \/ 48 <= c <= 57 \/ c = 95) r.

(** the name may be used for a type *)
Definition admissible (n : name) : Prop := identifier n /\ ~ reserved n.

(** [holds h n t]: after history h (newest first) the type t is known as n. *)
Fixpoint holds (h : list op) (n : name) (t : ty) : Prop :=
  match h with
  | [] => False
  | AddType x :: r => holds r n t \/ (n = tname x /\ t = x /\ admissible n /\ forall t', ~ holds r n t')
  | RemoveType k :: r => k <> n /\ holds r n t
  end.

(** ** Property object classes *)

(** [c'] is the registered parent class of [c] *)
Definition parent_class (m : manager) (c c' : cls) : Prop :=
  exists q t, parent c = Some q /\ getType q m = Some t /\ tbody t = Class c'.

(** [c] offers property [n] as [p]: its own definition, or that of the nearest
    ancestor that has one. *)
Inductive offers (m : manager) : cls -> name -> Z -> Prop :=
| Own : forall c n p, In (n, p) (props c) -> offers m c n p
| Inherited : forall c c' n p, (forall q, ~ In (n, q) (props c)) -> parent_class m c c' -> offers m c' n p -> offers m c n p.

(** Every class on the chain of ancestors has its parent registered as a class,
    and the chain ends. *)
Inductive complete (m : manager) : cls -> Prop :=
| Root : forall c, parent c = None -> complete m c
| Child : forall c c', parent_class m c c' -> complete m c' -> complete m c.

(** own property names are distinct (they are the keys of a map), all classes *)
Definition distinct_props (c : cls) : Prop := NoDup (map fst (props c)).
Definition well_formed (m : manager) : Prop := forall n t c, getType n m = Some t -> tbody t = Class c -> distinct_props c.

(** Registering children after parents and never removing a class that is
    still named as parent. *)
Definition careful (o : op) (m : manager) : Prop :=
  match o with
  | AddType t => match tbody t with
                 | Class c => match parent c with
                              | Some q => exists t' c', getType q m = Some t' /\ tbody t' = Class c'
                              | None => True
                              end
                 | Plain _ => True
                 end
  | RemoveType n => forall k t c, getType k m = Some t -> tbody t = Class c -> parent c <> Some n
  end.
Fixpoint careful_history (h : list op) : Prop :=
  match h with [] => True | o :: r => careful o (after r) /\ careful_history r end.

(** [t] and [t'] count as the same type: equal content, or the same class object *)
Definition same_type (t t' : ty) : Prop :=
  match tbody t, tbody t' with
  | Plain x, Plain y => x = y /\ tname t = tname t'
  | Class c, Class d => obj c = obj d
  | _, _ => False
  end.

(** answers that hold from some recursion depth on *)
Definition eventually {A} (f : nat -> answer A) (a : answer A) : Prop := exists d, forall d', (d <= d')%nat -> f d' = a.

(** [subseq a b]: a is b with some elements left out *)
Inductive subseq {A} : list A -> list A -> Prop :=
| sub_nil : forall b, subseq [] b
| sub_take : forall x a b, subseq a b -> subseq (x :: a) (x :: b)
| sub_skip : forall x a b, subseq a b -> subseq a (x :: b).
