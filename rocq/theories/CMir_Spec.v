(** * What is claimed of the client's mirror of the component tree *)

From Coq Require Import List Arith.
From Verif Require Import CMir_Model.
Import ListNotations.

(** The device has the component [n] at [q]. *)
Definition has (t : tree) (q : path) (n : node) : Prop :=
  exists o, t q = Some (o, n).

Definition private (n : node) : Prop := n APublic = Some 0.

(** [r] is [q] or one of the components [q] is inside of. *)
Definition leads_to (r q : path) : Prop := exists s, q = r ++ s.

(** [q] is a private signal or port (or something inside one). *)
Definition hidden (t : tree) (q : path) : Prop :=
  exists r n, r <> [] /\ leads_to r q /\ has t r n /\ private n.

(** The client shows at [q] a component with just the state [n]. *)
Definition shows (c : mirror) (q : path) (n : node) : Prop :=
  exists m, c q = Some m /\ forall k, m k = n k.

(** The client shows the device: every component that is not hidden, with its
    state, and nothing else. *)
Definition mirrors (c : mirror) (t : tree) : Prop :=
  forall q,
    (forall n, has t q n -> ~ hidden t q -> shows c q n) /\
    (t q = None \/ hidden t q -> c q = None).

(** A device: there is a root, what is inside something is inside a component
    that exists, the objects are numbered below [s_next], and no component
    has an empty name. *)
Definition device (s : srv) : Prop :=
  s_tree s [] <> None /\
  (forall r q, leads_to r q -> s_tree s q <> None -> s_tree s r <> None) /\
  (forall q o n, s_tree s q = Some (o, n) -> o < s_next s) /\
  (forall q n, has (s_tree s) q n -> n AName <> Some 0).

(** Operations the client can follow.
    - Nothing is made public or private, nothing gets an empty name, and no
      status is added to a component that exists already.
    - A component that is added is not itself private.
    - Loading a configuration replaces no component by another one under the
      same local id, and there are no private components below the one it is
      loaded into. *)
Definition tame (s : srv) (o : op) : Prop :=
  match o with
  | OSet p a v => a <> SPublic /\ (a = SName -> v <> 0)
  | OTags _ _ => True
  | OStatus _ _ _ => True
  | OAddStatus _ _ _ => False
  | OAdd p i c =>
      (forall r n, comp_at c r = Some n -> n AName <> Some 0) /\
      (forall n, comp_at c [] = Some n -> ~ private n)
  | ORemove _ _ => True
  | OUpdate p c keep =>
      (forall r n, comp_at c r = Some n -> n AName <> Some 0) /\
      (forall r n, r <> [] -> comp_at c r = Some n -> ~ private n) /\
      (forall r n, r <> [] -> has (s_tree s) (p ++ r) n ->
                   comp_at c r <> None -> keep r = true /\ ~ private n)
  end.

Fixpoint tame_all (s : srv) (os : list op) : Prop :=
  match os with
  | [] => True
  | o :: r => tame s o /\ tame_all (fst (op_step s o)) r
  end.

(** A history of notifications, each with the events of some operations. *)
Fixpoint tame_hist (s : srv) (bs : list (list op)) : Prop :=
  match bs with
  | [] => True
  | os :: r => tame_all s os /\ tame_hist (fst (op_run s os)) r
  end.

Definition batches (bs : list (list op)) : list hist := map HBatch bs.

(** A client that has just connected and hears of everything that follows. *)
Definition connected (s : srv) : world :=
  mkWorld s (Some (cl_connect (s_tree s))) true None.

(** After a time without notifications, the client still shows something of
    the device that an update cannot get wrong: what both have under one path
    is of the same kind, with the same tags, and with no status the device
    does not have; and the device has no private components. *)
Definition updatable (c : mirror) (t : tree) : Prop :=
  c [] <> None /\
  (forall q n, has t q n -> q <> [] -> ~ private n) /\
  (forall q n m, has t q n -> c q = Some m ->
     m ATags = n ATags /\ m AKind = n AKind /\ m APublic = n APublic /\
     forall k, n (AStatus k) = None -> m (AStatus k) = None).

(** The name the last notification carried. *)
Definition heard (s : nstate) : nat := last (n_log s) 0.

(** What the client shows, and what the device has, of the attribute [k] of
    the component at [q] ([None]: no such component, or no such status). *)
Definition seen (w : world) (q : path) (k : attr) : option nat :=
  match w_cl w with
  | Some c => match c q with Some m => m k | None => None end
  | None => None
  end.

Definition real (w : world) (q : path) (k : attr) : option nat :=
  match s_tree (w_srv w) q with Some (_, n) => n k | None => None end.

(** Two clients show the same. *)
Definition agree (c c' : mirror) : Prop :=
  forall q, match c q, c' q with
            | Some m, Some m' => forall k, m k = m' k
            | None, None => True
            | _, _ => False
            end.

(** A device that consists of the component [c] and what is inside it. *)
Definition consists_of (c : comp) : srv :=
  mkSrv (graft (fun _ => None) [] 0 c) 1.

(** Component states of the examples. *)
Definition state (name tags kind : nat) (pub st : option nat) : node :=
  fun k => match k with
           | AName => Some name
           | ADesc => Some 0
           | AVisible => Some 1
           | AActive => Some 1
           | ATags => Some tags
           | AKind => Some kind
           | APublic => pub
           | AStatus 0 => st
           | AStatus _ => None
           end.

(** What the device [s] has. *)
Definition held (s : srv) (q : path) (k : attr) : option nat :=
  match s_tree s q with Some (_, n) => n k | None => None end.

(** [s'] differs from [s] in the attribute [k] of the component [p] only,
    which is now [v]. *)
Definition only_set (s s' : srv) (p : path) (k : attr) (v : nat) : Prop :=
  held s' p k = Some v /\
  (forall q k', q <> p \/ k' <> k -> held s' q k' = held s q k') /\
  (forall q, s_tree s' q = None <-> s_tree s q = None).
