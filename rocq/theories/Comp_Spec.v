(** Vocabulary of C26 and C27, in terms of what the getters return. *)
From Coq Require Import String.
From Verif Require Import Base Comp_Model.
Local Open Scope nat_scope.

(** ** Observations *)
Definition local_active (h : heap) (c : nat) : Prop := snd (step h (GetLocalActive c)) = Flag true.
Definition is_active (h : heap) (c : nat) : Prop := snd (step h (GetActive c)) = Flag true.
Definition is_removed (h : heap) (c : nat) : Prop := snd (step h (IsRemoved c)) = Flag true.
Definition exists_ (h : heap) (c : nat) : Prop := get h c <> None.
Definition parent_of (h : heap) (c : nat) : option nat := match get h c with Some x => parent x | None => None end.
Definition id_of (h : heap) (c : nat) : string := match get h c with Some x => lid x | None => EmptyString end.
(** the items of a folder, visible or not *)
Definition content (h : heap) (f : nat) : list nat := match get h f with Some x => items x | None => [] end.

(** ** C26 *)
(** in the tree: added to its parent, which is in the tree, or without a parent *)
Inductive in_tree (h : heap) : nat -> Prop :=
| in_root : forall c, exists_ h c -> parent_of h c = None -> in_tree h c
| in_item : forall c p, exists_ h c -> parent_of h c = Some p -> In c (content h p) -> in_tree h p -> in_tree h c.
Inductive ancestor_or_self (h : heap) : nat -> nat -> Prop :=
| self : forall c, ancestor_or_self h c c
| above : forall a c p, parent_of h c = Some p -> ancestor_or_self h a p -> ancestor_or_self h a c.

(** ** Usage without surprises: a component is added to its parent, while its idea of
    the parent's activity is still right, and only once; an item is removed through
    its folder; a removed component is not updated *)
Definition tidy_op (h : heap) (o : op) : Prop :=
  match o with
  | AddItem f c => parent_of h c = Some f /\ ~ is_removed h c /\ snd (step h (GetParentActive c)) = snd (step h (GetActive f))
  | Remove c => forall f, ~ In c (content h f)
  | Update c _ => ~ is_removed h c
  | _ => True
  end.
Fixpoint tidy (l : list op) : Prop := match l with [] => True | o :: r => tidy_op (after r) o /\ tidy r end.

(** ** C27 *)
(** [inside h k c]: k is c, or an item of a folder inside c *)
Inductive inside (h : heap) : nat -> nat -> Prop :=
| inside_self : forall c, inside h c c
| inside_item : forall k p c, In k (content h p) -> inside h p c -> inside h k c.
(** the components a call takes out of their folders *)
Definition taken (h : heap) (o : op) (k : nat) : Prop :=
  match o with
  | RemoveById f s => In k (content h f) /\ id_of h k = s
  | RemoveItem f c => In k (content h f) /\ id_of h k = id_of h c /\ exists_ h c
  | Clear f => In k (content h f)
  | Remove c => k = c /\ exists_ h c /\ ~ is_removed h c
  | _ => False
  end.
(** the component or one it is inside of is taken *)
Definition gone (h : heap) (o : op) (k : nat) : Prop := exists t, taken h o t /\ inside h k t.
Definition changeable (h : heap) (c : nat) : Prop := exists x, get h c = Some x /\ frozen x = false /\ removed x = false /\ lockedActive x = false.
Definition parent_active (h : heap) (c : nat) : Prop := snd (step h (GetParentActive c)) = Flag true.
