(** Model of permissions, their builder and the permission manager tree.
    Sources: /repo/core/coreobjects/src/permissions_builder_impl.cpp, permissions_impl.cpp,
             permission_mask_builder_impl.cpp, permission_manager_impl.cpp
    Masks are integers (Int); groups are numbered. *)
From Verif Require Import Base.
Local Open Scope Z_scope.

Definition group := nat.
(** std::unordered_map<StringPtr, Int>: association list with one entry per key *)
Definition table := list (group * Z).
Fixpoint tget (t : table) (g : group) : option Z :=
  match t with [] => None | (h, v) :: t' => if (g =? h)%nat then Some v else tget t' g end.
Fixpoint tset (t : table) (g : group) (v : Z) : table :=
  match t with [] => [(g, v)] | (h, w) :: t' => if (g =? h)%nat then (h, v) :: t' else (h, w) :: tset t' g v end.
(** operator[] default-constructs 0; DictPtr::getOrDefault(group, 0) *)
Definition tval (t : table) (g : group) : Z := match tget t g with Some v => v | None => 0 end.

(** permissions_builder_impl.h / permissions_impl.h fields *)
Record perms := { inherited : bool; allowed : table; denied : table; assigned : table }.
Definition pempty : perms := {| inherited := false; allowed := []; denied := []; assigned := [] |}.

(** permissions_builder_impl.cpp:85-92 *)
Definition assign (p : perms) (g : group) (f : Z) : perms :=
  {| inherited := inherited p; assigned := tset (assigned p) g f; allowed := tset (allowed p) g f; denied := tset (denied p) g 0 |}.
(** permissions_builder_impl.cpp:94-102 *)
Definition allow (p : perms) (g : group) (f : Z) : perms :=
  {| inherited := inherited p; assigned := assigned p; allowed := tset (allowed p) g (Z.lor (tval (allowed p) g) f);
     denied := tset (denied p) g (Z.land (tval (denied p) g) (Z.lnot f)) |}.
(** permissions_builder_impl.cpp:104-112 *)
Definition deny (p : perms) (g : group) (f : Z) : perms :=
  {| inherited := inherited p; assigned := assigned p; allowed := tset (allowed p) g (Z.land (tval (allowed p) g) (Z.lnot f));
     denied := tset (denied p) g (Z.lor (tval (denied p) g) f) |}.
(** permissions_builder_impl.cpp:14-18 *)
Definition inherit (p : perms) (b : bool) : perms :=
  {| inherited := b; assigned := assigned p; allowed := allowed p; denied := denied p |}.
(** permissions_builder_impl.cpp:59-74 *)
Definition extend (p q : perms) : perms :=
  let p1 := fold_left (fun p e => assign p (fst e) (snd e)) (assigned q) p in
  let p2 := fold_left (fun p e => allow p (fst e) (snd e)) (allowed q) p1 in
  fold_left (fun p e => deny p (fst e) (snd e)) (denied q) p2.

(** Calls a user makes on a builder before build(). *)
Inductive bcall := BAssign (g : group) (f : Z) | BAllow (g : group) (f : Z) | BDeny (g : group) (f : Z).
Definition bstep (p : perms) (c : bcall) : perms :=
  match c with BAssign g f => assign p g f | BAllow g f => allow p g f | BDeny g f => deny p g f end.
(** The permissions object built by inherit(inh) and the calls. *)
Definition build (inh : bool) (calls : list bcall) : perms := fold_left bstep calls (inherit pempty inh).

(** A permission manager: its local permissions (given by the builder calls they were made with), the
    effective permissions, and the managers it is the parent of. The weak parent reference and the
    parent's children set always mirror each other (setParent, 126-140), which the tree shape expresses.
    Destruction of a manager that still has children is not modelled. *)
Inductive mtree := Node (id : nat) (inh : bool) (calls : list bcall) (eff : perms) (ch : list mtree).
Definition m_inh (t : mtree) : bool := match t with Node _ inh _ _ _ => inh end.
Definition m_id (t : mtree) : nat := match t with Node id _ _ _ _ => id end.

(** permission_manager_impl.cpp:54-80, the computation of [this->permissions] *)
Definition effective (parent : option perms) (inh : bool) (calls : list bcall) : perms :=
  let local := build inh calls in
  if inh then
    let b := match parent with Some pp => extend (inherit pempty true) pp | None => pempty end in
    extend b local
  else local.

(** permission_manager_impl.cpp:54-80 with updateChildPermissions (170-177) and
    updateInheritedPermissions (162-168) *)
Fixpoint refresh (parent : option perms) (t : mtree) : mtree :=
  match t with
  | Node id inh calls _ ch =>
      let e := effective parent inh calls in
      Node id inh calls e (map (fun c => if m_inh c then refresh (Some e) c else c) ch)
  end.

Definition forest := list mtree.

(** Apply [f], given the parent's effective permissions, to the manager [id]. *)
Fixpoint at_id (id : nat) (f : option perms -> mtree -> mtree) (parent : option perms) (t : mtree) : mtree :=
  match t with
  | Node i inh calls e ch =>
      if (i =? id)%nat then f parent t else Node i inh calls e (map (at_id id f (Some e)) ch)
  end.

(** setPermissions *)
Definition set_local (inh : bool) (calls : list bcall) (parent : option perms) (t : mtree) : mtree :=
  match t with Node i _ _ e ch => refresh parent (Node i inh calls e ch) end.

(** Detaching a subtree: the first half of setParent *)
Fixpoint find_tree (id : nat) (t : mtree) : option mtree :=
  match t with
  | Node i inh calls e ch =>
      if (i =? id)%nat then Some t
      else fold_right (fun c r => match find_tree id c with Some x => Some x | None => r end) None ch
  end.
Fixpoint prune (id : nat) (t : mtree) : option mtree :=
  match t with
  | Node i inh calls e ch =>
      if (i =? id)%nat then None
      else Some (Node i inh calls e (fold_right (fun c r => match prune id c with Some x => x :: r | None => r end) [] ch))
  end.
Definition ffind (id : nat) (f : forest) : option mtree :=
  fold_right (fun c r => match find_tree id c with Some x => Some x | None => r end) None f.
Definition fprune (id : nat) (f : forest) : forest :=
  fold_right (fun c r => match prune id c with Some x => x :: r | None => r end) [] f.
(** addChildManager followed by the child's setPermissions(localPermissions) *)
Definition add_child (c : mtree) (parent : option perms) (t : mtree) : mtree :=
  match t with Node i inh calls e ch => Node i inh calls e (refresh (Some e) c :: ch) end.

Inductive op :=
| NewManager (id : nat) (parent : option nat)        (* constructor, 37-43 *)
| SetPermissions (id : nat) (inh : bool) (calls : list bcall)
| SetParent (id : nat) (parent : option nat).

(** Attach a detached subtree; an unknown parent (or one inside the subtree itself, which in the code
    recurses without end) is not a valid call: [None]. *)
Definition attach (f : forest) (c : mtree) (parent : option nat) : option forest :=
  match parent with
  | None => Some (refresh None c :: f)
  | Some p => match ffind p f with
              | Some _ => Some (map (at_id p (add_child c) None) f)
              | None => None
              end
  end.

Definition step (f : forest) (o : op) : forest :=
  match o with
  | NewManager id parent =>
      match ffind id f with
      | Some _ => f
      | None => match attach f (Node id true [] (build true []) []) parent with Some f' => f' | None => f end
      end
  | SetPermissions id inh calls => map (at_id id (set_local inh calls) None) f
  | SetParent id parent =>
      match ffind id f with
      | None => f
      | Some c => match attach (fprune id f) c parent with Some f' => f' | None => f end
      end
  end.
Definition run (ops : list op) : forest := fold_left step ops [].

(** permission_manager_impl.cpp:82-115 *)
Definition isAuthorized (p : perms) (groups : list group) (perm : Z) : bool :=
  if existsb (fun g => negb (Z.land (tval (denied p) g) perm =? 0)) groups then false
  else existsb (fun g => negb (Z.land (tval (allowed p) g) perm =? 0)) groups.

(** The effective permissions of manager [id]. *)
Definition getPermissions (f : forest) (id : nat) : option perms :=
  match ffind id f with Some (Node _ _ _ e _) => Some e | None => None end.
