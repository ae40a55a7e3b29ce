(** Specification vocabulary for permissions (C09, C10). *)
From Verif Require Import Base Perm_Model.
Local Open Scope Z_scope.

(** What a configuration says about one group and one permission bit. *)
Inductive tri := Unset | Allowed | Denied.

(** Meaning of one builder call for group [g] and bit [k], applied to what held before. *)
Definition call_means (g : group) (k : Z) (x : tri) (c : bcall) : tri :=
  match c with
  | BAssign h f => if (g =? h)%nat then (if Z.testbit f k then Allowed else Unset) else x
  | BAllow h f => if (g =? h)%nat && Z.testbit f k then Allowed else x
  | BDeny h f => if (g =? h)%nat && Z.testbit f k then Denied else x
  end.
(** Later calls override earlier ones. *)
Definition calls_mean (g : group) (k : Z) (calls : list bcall) (x : tri) : tri := fold_left (call_means g k) calls x.

(** The chain of managers from a root down to manager [id]: (inherit flag, builder calls) of each. *)
Fixpoint chain_in (id : nat) (t : mtree) : option (list (bool * list bcall)) :=
  match t with
  | Node i inh calls _ ch =>
      if (i =? id)%nat then Some [(inh, calls)]
      else match fold_right (fun c r => match chain_in id c with Some x => Some x | None => r end) None ch with
           | Some l => Some ((inh, calls) :: l)
           | None => None
           end
  end.
Definition chain_of (id : nat) (f : forest) : option (list (bool * list bcall)) :=
  fold_right (fun c r => match chain_in id c with Some x => Some x | None => r end) None f.

(** Inheritance: a manager that inherits starts from its parent's result, any other from nothing. *)
Definition chain_means (g : group) (k : Z) (l : list (bool * list bcall)) : tri :=
  fold_left (fun (x : tri) (m : bool * list bcall) => calls_mean g k (snd m) (if fst m then x else Unset)) l Unset.

(** What permissions [p] say about a group and bit. *)
Definition says (p : perms) (g : group) (k : Z) : tri :=
  if Z.testbit (tval (denied p) g) k then Denied
  else if Z.testbit (tval (allowed p) g) k then Allowed else Unset.

(** Access is granted when no group of the user is denied and some group is allowed. *)
Definition access (what : group -> tri) (groups : list group) : Prop :=
  (forall g, In g groups -> what g <> Denied) /\ exists g, In g groups /\ what g = Allowed.

(** The managers of a forest: (id, (parent, inherit flag, builder calls)). *)
Definition entry := (nat * (option nat * bool * list bcall))%type.
Fixpoint entries (parent : option nat) (t : mtree) : list entry :=
  match t with Node i inh calls _ ch => (i, (parent, inh, calls)) :: flat_map (entries (Some i)) ch end.
Definition managers (f : forest) : list entry := flat_map (entries None) f.
(** The ids of a manager and everything below it. *)
Definition subtree_ids (t : mtree) : list nat := map fst (entries None t).

Definition with_local (id : nat) (inh : bool) (calls : list bcall) (e : entry) : entry :=
  if (fst e =? id)%nat then (fst e, (fst (fst (snd e)), inh, calls)) else e.
Definition with_parent (id : nat) (parent : option nat) (e : entry) : entry :=
  if (fst e =? id)%nat then (fst e, (parent, snd (fst (snd e)), snd (snd e))) else e.
