(** What it means that a part of the device changed, and which rights a client
    has. *)
From Coq Require Import List Bool ZArith.
From Verif Require Import Rpc_Model.
Import ListNotations.

(** The parts of a component another client can see. *)
Inductive part :=
| Body                          (* attributes, connected signal, recording, discovery *)
| Mode | Lock | Source
| Values (i : bool) (s : path)  (* the values of a property object, and its batches *)
| Calls (i : bool) (s : path).  (* the functions of a property object that were called *)

Definition field {A} (st : state) (p : path) (f : node -> A) : option A := option_map f (lookup st p).
Definition ofield {A} (st : state) (p : path) (i : bool) (s : path) (f : obj -> A) : option (option A) :=
  field st p (fun nd => option_map f (n_objs nd i s)).

Definition same (st st' : state) (p : path) (x : part) : Prop :=
  match x with
  | Body => field st p n_attr = field st' p n_attr /\ field st p n_conn = field st' p n_conn /\
            field st p n_rec = field st' p n_rec /\ field st p n_disc = field st' p n_disc
  | Mode => field st p n_mode = field st' p n_mode
  | Lock => field st p n_lock = field st' p n_lock
  | Source => field st p n_src = field st' p n_src
  | Values i s => ofield st p i s ob_vals = ofield st' p i s ob_vals /\ ofield st p i s ob_upd = ofield st' p i s ob_upd
  | Calls i s => ofield st p i s ob_calls = ofield st' p i s ob_calls
  end.

Definition present (st : state) (p : path) : Prop := lookup st p <> None.

(** The user has all the permissions [l] on the property object. *)
Definition allowed (st : state) (u : user) (p : path) (i : bool) (s : path) (l : list perm) : Prop :=
  exists nd o, lookup st p = Some nd /\ n_objs nd i s = Some o /\ forall x, In x l -> ob_perm o u x = true.

(** The object a part belongs to, and what changing it takes. *)
Definition rights (st : state) (u : user) (p : path) (x : part) : Prop :=
  match x with
  | Values i s => allowed st u p i s [Read; Write]
  | Calls i s => allowed st u p i s [Read; Execute]
  | _ => allowed st u p false [] [Read; Write]
  end.

Definition is_device (st : state) (p : path) : Prop := exists nd, lookup st p = Some nd /\ n_kind nd = KDevice.

(** The device a component belongs to: the nearest one at or above it. *)
Definition device_of (st : state) (p d : path) : Prop :=
  (exists t, p = d ++ t) /\ is_device st d /\
  forall d' t', p = d' ++ t' -> is_device st d' -> length d' <= length d.

Definition device_locked (st : state) (p : path) : Prop :=
  exists d nd, device_of st p d /\ lookup st d = Some nd /\ n_lock nd <> None.

(** Calls whose effect is on the addressed component itself, not on nested
    objects or sub-components, and the two exceptions without checks. *)
Definition direct (r : rpc) : Prop :=
  match r with
  | RMode _ | RModeRecursive _ | RSource _ | RUpdate _ => False
  | RClearAll s | RBegin s => s = []
  | REnd s l => s = [] /\ Forall (fun w => q_sub (w_name w) = []) l
  | _ => True
  end.

Definition is_err (o : out) : Prop := match o with OErr _ => True | _ => False end.

(** The user can neither write nor execute anything. *)
Definition powerless (st : state) (u : user) : Prop :=
  forall p nd i s o, lookup st p = Some nd -> n_objs nd i s = Some o ->
    ob_perm o u Write = false /\ ob_perm o u Execute = false.

(** Everything belongs to a locked device. *)
Definition all_locked (st : state) : Prop :=
  is_device st [] /\ forall p nd, In (p, nd) (s_nodes st) -> n_kind nd = KDevice -> n_lock nd <> None.

(** Why a client was entitled to change a part of a component. A lock may be
    changed by whoever may write the device or one above it. *)
Definition justified (st : state) (c : client) (q : path) (x : part) : Prop :=
  c_conn c <> ViewOnly /\
  match x with
  | Lock => exists d t, q = d ++ t /\ allowed st (c_user c) d false [] [Read; Write]
  | _ => ~ device_locked st q /\ rights st (c_user c) q x
  end.

(** Why a client was entitled to add or remove a component: some component
    above it. *)
Definition justified_presence (st : state) (c : client) (q : path) : Prop :=
  c_conn c <> ViewOnly /\
  exists d t, q = d ++ t /\ t <> [] /\ ~ device_locked st d /\ allowed st (c_user c) d false [] [Read; Write].

(** At or below a device that is itself the mirror of a remote one. *)
Definition in_mirror (st : state) (q : path) : Prop :=
  exists d t nd, q = d ++ t /\ lookup st d = Some nd /\ n_mirrored nd = true.

(** The calls that do not look at the connection type and the lock. *)
Definition unguarded (r : rpc) : Prop :=
  match r with RMode _ | RModeRecursive _ | RSource _ => True | _ => False end.

(** The calls that give a locked device free. *)
Definition unlocks (r : rpc) : Prop := match r with RUnlock | RForceUnlock => True | _ => False end.

(** The calls that may leave a part of their work behind when they fail. *)
Definition partial_effects (r : rpc) : Prop :=
  match r with REnd _ _ | RModeRecursive _ | RConnectExternal _ _ => True | _ => False end.

(** Nothing but operation modes differs, and only on devices the user may write
    or at or below a mirrored one. *)
Definition mode_rel (u : user) (m : Z) (st st' : state) : Prop :=
  forall q, lookup st' q = lookup st q \/
    exists nd, lookup st q = Some nd /\ lookup st' q = Some (set_mode m nd) /\
      (allowed st u q false [] [Write] \/ in_mirror st q).

(** The caller may write the addressed component. *)
Definition may_change (st : state) (c : client) (p : path) : Prop :=
  c_conn c <> ViewOnly /\ ~ device_locked st p /\ allowed st (c_user c) p false [] [Read; Write].

Definition refusal (o : out) : Prop := o = OErr EDenied \/ o = OErr ELocked.
