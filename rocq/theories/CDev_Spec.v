(** What a user expects of the update modes of devices. *)
From Coq Require Import List Bool Arith.
From Verif Require Import CDev_Model.
Import ListNotations.

(** All local ids of devices in a saved configuration, but for the root. *)
Fixpoint ids_below (c : dcfg) : list id :=
  match c with DCfg _ _ _ cs => flat_map (fun e => cid e :: ids_below e) cs end.

(** The id of the device that the saved device [e] is to be found under afterwards. *)
Definition lands (w : world) (o : id -> mode) (e : dcfg) (i : id) : Prop :=
  match o (cid e) with
  | Remap k => exists y, w k = Some y /\ did y = i
  | _ => i = cid e
  end.

(** Nothing is in the way at one device [d] and its saved configuration [c]. *)
Record clear (w : world) (o : id -> mode) (d : dev) (c : dcfg) : Prop := {
  (** local ids are distinct *)
  one_id : NoDup (map did (dsubs d));
  (** a connected device has the id that it gets when it is added *)
  own_id : forall x y, In x (dsubs d) -> w (dkey x) = Some y -> did y = did x;
  (** a device that is added again comes back under its id *)
  comes_back : forall e y, In e (csubs c) -> o (cid e) = Load -> w (ckey e) = Some y -> did y = cid e;
  (** a new device can be reached; what has its id is that device *)
  reachable : forall e k, In e (csubs c) -> o (cid e) = Remap k ->
    exists y, w k = Some y /\ forall x, In x (dsubs d) -> did x = did y -> dkey x = k;
  (** no two saved devices land on the same one *)
  no_clash : forall e e' i, In e (csubs c) -> In e' (csubs c) -> lands w o e i -> lands w o e' i -> e = e';
  (** no device is replaced by one whose own replacement comes later *)
  in_order : forall before e after k y, csubs c = before ++ e :: after -> o (cid e) = Remap k -> w k = Some y ->
    ~ In (did y) (map cid after);
  (** what is replaced can be removed *)
  removable : forall e k x, In e (csubs c) -> o (cid e) = Remap k -> In x (dsubs d) -> did x = cid e -> dstat x = false }.

(** The devices and saved configurations that meet below [d] and [c]. *)
Inductive meets (w : world) : dev -> dcfg -> dev -> dcfg -> Prop :=
| meets_here d c : meets w d c d c
| meets_sub d c x e x' e' : In x (dsubs d) -> In e (csubs c) -> meets w x e x' e' -> meets w d c x' e'
| meets_new d c k x e x' e' : w k = Some x -> In e (csubs c) -> meets w x e x' e' -> meets w d c x' e'.

(** [outcome w o un M d c r]: loading [c] into [d] gives [r], as the documentation of
    DeviceUpdateMode and removeUnusedDevices has it; [M] are the remappings. *)
Inductive outcome (w : world) (o : id -> mode) (un : bool) (M : list (id * id)) : dev -> dcfg -> dev -> Prop :=
| Outcome d c r :
    did r = did d -> dkey r = dkey d -> dstat r = dstat d -> dset r = cset c ->
    NoDup (map did (dsubs r)) ->
    (* Skip: as it was, there or not *)
    (forall e x, In e (csubs c) -> o (cid e) = Skip -> did x = cid e -> (In x (dsubs r) <-> In x (dsubs d))) ->
    (* Load and UpdateOnly: updated if there *)
    (forall e x, In e (csubs c) -> o (cid e) = Load \/ o (cid e) = UpdateOnly -> In x (dsubs d) -> did x = cid e ->
       exists x', In x' (dsubs r) /\ outcome w o un M x e x') ->
    (* Load: added if missing *)
    (forall e y, In e (csubs c) -> o (cid e) = Load -> ~ In (cid e) (map did (dsubs d)) -> w (ckey e) = Some y ->
       exists x', In x' (dsubs r) /\ outcome w o un M y e x') ->
    (* UpdateOnly: not added *)
    (forall e, In e (csubs c) -> o (cid e) = UpdateOnly -> ~ In (cid e) (map did (dsubs d)) -> ~ In (cid e) (map did (dsubs r))) ->
    (* Remove: gone, unless it cannot be removed *)
    (forall e x, In e (csubs c) -> o (cid e) = Remove -> did x = cid e -> (In x (dsubs r) <-> In x (dsubs d) /\ dstat x = true)) ->
    (* Remap: the new device is there, connected before or added, updated, and known *)
    (forall e k, In e (csubs c) -> o (cid e) = Remap k ->
       exists x x', dkey x = k /\ (In x (dsubs d) \/ w k = Some x) /\ In x' (dsubs r) /\ outcome w o un M x e x' /\ In (cid e, did x') M) ->
    (* Remap: the old device is gone, unless it is in turn the new one for another *)
    (forall e k, In e (csubs c) -> o (cid e) = Remap k -> In (cid e) (map did (dsubs r)) ->
       exists e' k' y, In e' (csubs c) /\ o (cid e') = Remap k' /\ w k' = Some y /\ did y = cid e) ->
    (* the others stay, or are removed if this is wanted and they can be *)
    (forall x, (forall e, In e (csubs c) -> cid e <> did x /\ ~ lands w o e (did x)) ->
       (In x (dsubs r) <-> In x (dsubs d) /\ (un = false \/ dstat x = true))) ->
    outcome w o un M d c r.

(** The segments of the id of a signal: the devices and what is below the last of them. *)
Definition renamed (M : list (id * id)) (i j : id) : Prop :=
  In (i, j) M \/ (j = i /\ forall t, ~ In (i, t) M).

(** [set_for o p m]: the user set the mode [m] for the device with the path [p]. *)
Definition oid (o : opts) := match o with Opts i _ _ => i end.
Inductive set_for : opts -> list id -> mode -> Prop :=
| set_here i m l : set_for (Opts i m l) [i] m
| set_below i m l o p m' : In o l -> set_for o p m' -> set_for (Opts i m l) (i :: p) m'.
Fixpoint option_ids (o : opts) : list id :=
  match o with Opts i _ l => i :: flat_map option_ids l end.
