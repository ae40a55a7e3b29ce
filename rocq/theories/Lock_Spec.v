(** Specification vocabulary for device locks (C11). *)
From Verif Require Import Base Lock_Model.

(** Two users are the same user when name, password hash and groups agree. *)
Section Users.
Variable val : user -> uvalue.
Definition same_user (a b : user) : Prop := val a = val b.
(** The anonymous user has an empty name and hash. *)
Definition anonymous (u : user) : Prop := u_name (val u) = 0 /\ u_hash (val u) = 0.

(** The device reached by a path of sub-device indices. *)
Fixpoint device_at (p : list nat) (t : dev) : option dev :=
  match p with [] => Some t | i :: p' => match nth_error (d_ch t) i with Some c => device_at p' c | None => None end end.
(** The named user [u] holds the lock of the device at [p]. *)
Definition held (u : user) (p : list nat) (t : dev) : Prop :=
  exists d h, device_at p t = Some d /\ d_lk d = Some (Some h) /\ same_user h u.
(** The device at [p] is locked without a user. *)
Definition held_anonymously (p : list nat) (t : dev) : Prop := exists d, device_at p t = Some d /\ d_lk d = Some None.
Definition unlocked (p : list nat) (t : dev) : Prop := exists d, device_at p t = Some d /\ d_lk d = None.

(** What a caller holds a lock as: themselves, or nobody in particular when anonymous. *)
Definition holds_as (c : option user) (p : list nat) (t : dev) : Prop :=
  match c with
  | Some u => (anonymous u /\ held_anonymously p t) \/ (~ anonymous u /\ held u p t)
  | None => held_anonymously p t
  end.

(** The caller of a call is not the user [u]. *)
Definition not_by (u : user) (c : call) : Prop :=
  match c with
  | CLock (Some v) | CUnlock (Some v) => ~ same_user v u
  | CForce => False
  | _ => True
  end.

(** [p] names a device of the tree. *)
Definition is_device (p : list nat) (t : dev) : Prop := device_at p t <> None.

(** User objects are canonical: the same user is always represented by the same object, as when all of
    them come from one authentication provider. *)
Definition canonical : Prop := forall a b, same_user a b -> a = b.
End Users.

(** No device is locked in [t'] that was not locked by the same holder in [t]. *)
Definition nothing_newly_locked (val : user -> uvalue) (t t' : dev) : Prop :=
  (forall v p, held val v p t' -> held val v p t) /\ (forall p, held_anonymously p t' -> held_anonymously p t).
(** All devices are unlocked. *)
Definition all_unlocked (t : dev) : Prop := forall p, is_device p t -> unlocked p t.
Definition fixed_tree (ops : list (list nat * call)) : Prop := forall o, In o ops -> match snd o with CAdd _ => False | _ => True end.
