(** What a user expects of saving and loading a configuration. *)
From Coq Require Import List Bool Arith.
From Verif Require Import Conf_Model.
Import ListNotations.

(** [at_ t p m]: the component of the tree [t] with the path [p] is [m]. *)
Inductive at_ : node -> path -> node -> Prop :=
| at_here n : at_ n [] n
| at_below n k p m : In k (nsubs n) -> at_ k p m -> at_ n (nid k :: p) m.

(** No two children of a component have the same id. *)
Definition tidy (t : node) : Prop := forall p m, at_ t p m -> NoDup (map nid (nsubs m)).

(** The same connections, each port once, in any order. *)
Definition listing (c c' : conns) : Prop := NoDup (map fst c) /\ (forall x, In x c <-> In x c').

(** A state that the modules allow: ports are connected once, connected ports and
    the signals they are connected to are there (which signals there are does not
    depend on the order in which the ports were connected), and the function
    blocks that can be added and removed can be added again. *)
Record sound (w : world) (t : node) : Prop := {
  ports_once : forall p m, at_ t p m -> NoDup (map fst (ncn m)) /\ NoDup (w_ports w (nty m) (ncn m));
  ports_there : forall p m port s, at_ t p m -> In (port, s) (ncn m) -> In port (w_ports w (nty m) (ncn m));
  signals_there : forall p m port q n, at_ t p m -> In (port, (q, n)) (ncn m) ->
    exists m', at_ t q m' /\ forall c, listing c (ncn m') -> In n (w_sigs w (nty m') c);
  creatable : forall p m k, at_ t p m -> In k (nsubs m) -> w_avail w (nty m) (nty k) = true ->
    w_ok w (p ++ [nid k]) (nty k) = true }.

(** The input ports can be connected in their order: with the ports before it
    connected, and whichever others, a port is there and takes its signal. *)
Definition regrows (w : world) (t : node) : Prop :=
  forall p m before port after s c, at_ t p m ->
    w_ports w (nty m) (ncn m) = before ++ port :: after -> In (port, s) (ncn m) ->
    NoDup (map fst c) -> (forall x, In x c -> In x (ncn m)) ->
    (forall q r, In q before -> In (q, r) (ncn m) -> In (q, r) c) ->
    In port (w_ports w (nty m) c)
    /\ (~ In port (map fst c) -> w_takes w (nty m) c port s = true).

(** The connections do not run in circles. *)
Definition acyclic (t : node) : Prop :=
  exists rank : path -> nat, forall p m port s, at_ t p m -> In (port, s) (ncn m) -> rank (fst s) < rank p.

(** The components of [x] that are not function blocks one can add or remove. *)
Inductive fixed (w : world) : node -> path -> node -> Prop :=
| fixed_here n : fixed w n [] n
| fixed_below n k p m : In k (nsubs n) -> w_avail w (nty n) (nty k) = false ->
    fixed w k p m -> fixed w n (nid k :: p) m.

(** The fixed components of [x] are components of [t]. *)
Definition fits (w : world) (x t : node) : Prop :=
  forall p m, fixed w x p m -> exists m', fixed w t p m' /\ nty m' = nty m.
(** The components of [t] that there can be on [x]: the fixed ones that [x] has, and
    below them the function blocks of types that can be added. *)
Inductive kept (w : world) : node -> node -> path -> node -> Prop :=
| kept_here x t : kept w x t [] t
| kept_new x t k p m : In k (nsubs t) -> w_avail w (nty t) (nty k) = true ->
    kept w (Node (nid k) (nty k) [] []) k p m -> kept w x t (nid k :: p) m
| kept_old x t k k' p m : In k (nsubs t) -> w_avail w (nty t) (nty k) = false ->
    In k' (nsubs x) -> nid k' = nid k -> w_avail w (nty x) (nty k') = false ->
    kept w k' k p m -> kept w x t (nid k :: p) m.
(** [x] has all that is needed to restore [t]. *)
Definition provided (w : world) (x t : node) : Prop :=
  forall p m, at_ t p m -> kept w x t p m.

(** The signal belongs to a function block that loading replaces. *)
Definition replaced (w : world) (x : node) (s : sig) : Prop :=
  exists p m k rest, fixed w x p m /\ In k (nsubs m) /\ w_avail w (nty m) (nty k) = true
    /\ fst s = p ++ nid k :: rest.
(** The ports of the fixed components of [x] are free, or connected as they were
    when [t] was saved, or connected to a function block that is replaced. *)
Definition ports_free (w : world) (x t : node) : Prop :=
  forall p m m', fixed w x p m -> at_ t p m' ->
    NoDup (map fst (ncn m)) /\ (forall port s, In (port, s) (ncn m) -> In (port, s) (ncn m') \/ replaced w x s).

(** The ports of [x] are connected to signals of components of [x]. *)
Definition rooted (x : node) : Prop :=
  forall p m port s, at_ x p m -> In (port, s) (ncn m) -> exists m', at_ x (fst s) m'.

(** [r] is the same as [t]: the same components, connected in the same way. *)
Definition same (r t : node) : Prop :=
  (forall p m, at_ t p m -> exists m', at_ r p m' /\ nty m' = nty m /\ listing (ncn m') (ncn m))
  /\ (forall p m', at_ r p m' -> exists m, at_ t p m).

(** Function blocks whose ports and signals do not depend on what is connected,
    and that take every signal. *)
Definition plain (w : world) : Prop :=
  (forall ty c, w_ports w ty c = w_ports w ty []) /\ (forall ty c, w_sigs w ty c = w_sigs w ty [])
  /\ (forall ty c port s, w_takes w ty c port s = true).

(** [r] is what can be had of [t] on [x]: the components that there can be, and of
    their connections those whose source is among them. *)
Definition reduced (w : world) (x t r : node) : Prop :=
  (forall p m, kept w x t p m -> exists m', at_ r p m' /\ nty m' = nty m /\ NoDup (map fst (ncn m'))
     /\ forall port s, In (port, s) (ncn m') <-> In (port, s) (ncn m) /\ exists ms, kept w x t (fst s) ms)
  /\ (forall p m', at_ r p m' -> exists m, kept w x t p m).

(** [listed c p ty po]: the configuration [c], whatever its origin, has a component of
    the type [ty] with the ports [po] at the path [p]. *)
Inductive listed : cfg -> path -> nat -> list (nat * option sig) -> Prop :=
| listed_here i ty po sigs subs : listed (Cfg i ty po sigs subs) [] ty po
| listed_below i0 ty0 po0 sigs0 subs0 i ty' po' sigs subs p ty po :
    In (Cfg i ty' po' sigs subs) subs0 -> listed (Cfg i ty' po' sigs subs) p ty po ->
    listed (Cfg i0 ty0 po0 sigs0 subs0) (i :: p) ty po.
