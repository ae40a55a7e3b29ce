(** What the statements about the property object mean.  Nothing here uses the
    functions of the model: only its data types. *)
From Coq Require Import ZArith List Bool Lia.
From Verif Require Import Prop_Model.
Import ListNotations.
Local Open Scope Z_scope.

(** ** Which writes a property takes, and what it then holds *)

Definition reads_as (x : value) : option Z :=
  match x with VInt z => Some z | VText o => o end.

Definition selectable (pr : prop) (z : Z) : Prop :=
  match p_items pr with None => True | Some n => 0 <= z < Z.of_nat n end.

Definition coerced (pr : prop) (z : Z) : option Z :=
  match p_coerce pr with None => Some z | Some f => f z end.

Definition satisfies (pr : prop) (z : Z) : Prop :=
  match p_valid pr with None => True | Some f => f z = true end.

(** The value moved into the limits. *)
Definition limited (pr : prop) (z : Z) : Z :=
  let low := match p_min pr with Some m => Z.max m z | None => z end in
  match p_max pr with Some m => Z.min m low | None => low end.

(** [takes pr x v]: the property accepts the value [x] and then holds [v]. *)
Definition takes (pr : prop) (x : value) (v : Z) : Prop :=
  exists z w, reads_as x = Some z /\ selectable pr z /\ coerced pr z = Some w /\
              satisfies pr w /\ v = limited pr w.

Definition within (pr : prop) (z : Z) : Prop :=
  match p_min pr with Some m => m <= z | None => True end /\
  match p_max pr with Some m => z <= m | None => True end.

Definition sound_limits (pr : prop) : Prop :=
  match p_min pr, p_max pr with Some a, Some b => a <= b | _, _ => True end.

(** Who may write it. *)
Definition writable (pr : prop) (prot : bool) : Prop := prot = true \/ p_readonly pr = false.

(** ** The value a history of calls leaves, newest call first *)

Inductive Frozen : list op -> Prop :=
| Frozen_here : forall h, Frozen (Freeze :: h)
| Frozen_there : forall o h, Frozen h -> Frozen (o :: h).

Inductive Holds (pr : prop) (p : name) : list op -> Z -> Prop :=
| H_start : Holds pr p [] (p_default pr)
| H_set : forall prot x v h,
    ~ Frozen h -> writable pr prot -> takes pr x v ->
    Holds pr p (Set_ prot p x :: h) v
| H_set_refused : forall prot x u h,
    (Frozen h \/ ~ writable pr prot \/ ~ exists v, takes pr x v) ->
    Holds pr p h u -> Holds pr p (Set_ prot p x :: h) u
| H_set_other : forall prot q x u h,
    q <> p -> Holds pr p h u -> Holds pr p (Set_ prot q x :: h) u
| H_clear : forall prot h,
    ~ Frozen h -> writable pr prot -> Holds pr p (Clear prot p :: h) (p_default pr)
| H_clear_refused : forall prot u h,
    (Frozen h \/ ~ writable pr prot) ->
    Holds pr p h u -> Holds pr p (Clear prot p :: h) u
| H_clear_other : forall prot q u h,
    q <> p -> Holds pr p h u -> Holds pr p (Clear prot q :: h) u
| H_all : forall prot h,
    ~ Frozen h -> writable pr prot -> p_local pr = true ->
    Holds pr p (ClearAll prot :: h) (p_default pr)
| H_all_not : forall prot u h,
    (Frozen h \/ ~ writable pr prot \/ p_local pr = false) ->
    Holds pr p h u -> Holds pr p (ClearAll prot :: h) u
| H_get : forall q u h, Holds pr p h u -> Holds pr p (Get q :: h) u
| H_end : forall u h, Holds pr p h u -> Holds pr p (End_ :: h) u
| H_freeze : forall u h, Holds pr p h u -> Holds pr p (Freeze :: h) u.

(** No batch is begun in the history. *)
Definition no_batches (h : list op) : Prop := ~ In Begin h.

(** The list of names is the list of the properties. *)
Definition listed (c : cfg) : Prop :=
  NoDup (c_names c) /\ forall p, In p (c_names c) <-> c_prop c p <> None.

(** ** Listeners *)

Definition no_listeners (c : cfg) : Prop :=
  forall p, c_class c p = None /\ c_named c p = None /\ c_any c p = None.

(** The program never throws; it never replaces the value in its arguments. *)
Fixpoint never_throws (g : prog) : Prop :=
  match g with
  | PDone => True
  | PFail => False
  | PArg _ k => never_throws k
  | PGet _ k => forall v, never_throws (k v)
  | PSet _ _ _ k => forall o, never_throws (k o)
  | PClear _ _ k => forall o, never_throws (k o)
  end.

Fixpoint never_replaces (g : prog) : Prop :=
  match g with
  | PDone => True
  | PFail => True
  | PArg _ _ => False
  | PGet _ k => forall v, never_replaces (k v)
  | PSet _ _ _ k => forall o, never_replaces (k o)
  | PClear _ _ k => forall o, never_replaces (k o)
  end.

Definition every (P : prog -> Prop) (l : name -> listener) : Prop :=
  forall p f e, l p = Some f -> P (f e).

(** Listeners of the class and of "any property" do not throw; those of a
    named property may. *)
Definition outer_never_throw (c : cfg) : Prop :=
  every never_throws (c_class c) /\ every never_throws (c_any c).

(** No listener throws or replaces; all of them may read, set and clear. *)
Definition plain (g : prog) : Prop := never_throws g /\ never_replaces g.
Definition all_plain (c : cfg) : Prop :=
  every plain (c_class c) /\ every plain (c_named c) /\ every plain (c_any c).

(** No listener replaces the value in its arguments; they may throw. *)
Definition all_keep_args (c : cfg) : Prop :=
  every never_replaces (c_class c) /\ every never_replaces (c_named c) /\ every never_replaces (c_any c).

(** What was announced about one property, newest first: [Some v] for a write
    of v, [None] for a clear. *)
Fixpoint announced (p : name) (l : list note) : list (option Z) :=
  match l with
  | NEvent q v :: l => if Nat.eqb q p then v :: announced p l else announced p l
  | _ :: l => announced p l
  | [] => []
  end.

(** The value the newest announcement stands for. *)
Definition latest (pr : prop) (l : list (option Z)) : Z :=
  match l with Some v :: _ => v | _ => p_default pr end.

Fixpoint changing (l : list (option Z)) : Prop :=
  match l with
  | a :: l' => match l' with b :: _ => a <> b | [] => True end /\ changing l'
  | [] => True
  end.

(** No write is in progress. *)
Definition idle (st : state) : Prop := forall p, s_stk st p = None.

(** A reply that is an error code. *)
Definition is_err (r : reply) : Prop := exists e, r = Rout (OErr e).

(** ** Batches *)

(** The number of inner batches open after the calls [l], oldest first, when
    [d] are open before; [None] when the outermost one was ended. *)
Fixpoint depth_after (d : nat) (l : list op) : option nat :=
  match l with
  | [] => Some d
  | Begin :: l => depth_after (S d) l
  | End_ :: l => match d with O => None | S d => depth_after d l end
  | _ :: l => depth_after d l
  end.

(** Every call in the batch is one the object would accept by itself. *)
Definition acceptable (c : cfg) (o : op) : Prop :=
  match o with
  | Set_ prot p x => exists pr v, c_prop c p = Some pr /\ writable pr prot /\ takes pr x v
  | Clear prot p => exists pr, c_prop c p = Some pr /\ writable pr prot
  | Freeze => False
  | _ => True
  end.

(** The value of a property after the calls of a batch, oldest first, when it
    was [u] before. *)
Inductive Writes (pr : prop) (p : name) : list op -> Z -> Z -> Prop :=
| W_nil : forall u, Writes pr p [] u u
| W_set : forall prot x v l u w,
    takes pr x v -> Writes pr p l v w -> Writes pr p (Set_ prot p x :: l) u w
| W_clear : forall prot l u w,
    Writes pr p l (p_default pr) w -> Writes pr p (Clear prot p :: l) u w
| W_all : forall prot l u w,
    writable pr prot -> p_local pr = true ->
    Writes pr p l (p_default pr) w -> Writes pr p (ClearAll prot :: l) u w
| W_all_not : forall prot l u w,
    ~ writable pr prot \/ p_local pr = false ->
    Writes pr p l u w -> Writes pr p (ClearAll prot :: l) u w
| W_other : forall o l u w,
    (forall prot x, o <> Set_ prot p x) -> (forall prot, o <> Clear prot p) ->
    (forall prot, o <> ClearAll prot) ->
    Writes pr p l u w -> Writes pr p (o :: l) u w.

(** ** A client that follows the object's notifications *)

(** What it knows: its copy of the value, from the core events, newest first;
    a cleared property shows its default. *)
Fixpoint in_update (p : name) (l : list (name * option Z)) : option Z :=
  match l with
  | [] => None
  | (q, v) :: l =>
      match in_update p l with
      | Some z => Some z
      | None => if Nat.eqb q p then v else None
      end
  end.

Fixpoint mirrored (pr : prop) (p : name) (l : list note) : Z :=
  match l with
  | [] => p_default pr
  | NChanged q (Some (VInt z)) :: l => if Nat.eqb q p then z else mirrored pr p l
  | NChanged q (Some (VText (Some z))) :: l => if Nat.eqb q p then z else mirrored pr p l
  | NChanged q None :: l => if Nat.eqb q p then p_default pr else mirrored pr p l
  | NUpdateEnd u :: l =>
      match in_update p u with Some z => z | None => mirrored pr p l end
  | _ :: l => mirrored pr p l
  end.

(** ** A listener that corrects the value *)

(** It writes [f v] whenever [v] is announced. *)
Definition corrector (p : name) (f : Z -> Z) : evt -> prog :=
  fun e => PSet false p (VInt (f (e_new e))) (fun _ => PDone).

Fixpoint times (k : nat) (f : Z -> Z) (z : Z) : Z :=
  match k with O => z | S k => times k f (f z) end.
