(** Loading a configuration: the devices, their update modes, and remapping.

    core/opendaq/device/include/opendaq/device_impl.h (updateDevice,
    findConnectedDeviceForRemap, removeRemappedDevices, updateObject)
    core/opendaq/component/include/opendaq/component_update_context_impl.h *)
From Coq Require Import List Bool Arith.
Import ListNotations.

(** A local id, and what identifies a device to connect to. Simplified: manufacturer
    and serial number identify the device that the connection string connects to. *)
Definition id := nat.
Definition key := nat.

(** A device: local id, key, whether it cannot be removed (its type is not
    registered, device_impl.h 1761-1775), its settings, and its sub-devices. The
    settings stand for all that updateInternal restores besides the devices (see
    Conf_Model.v for the function blocks). *)
Inductive dev := Dev (i : id) (k : key) (st : bool) (s : nat) (subs : list dev).
Definition did (d : dev) := let (i, _, _, _, _) := d in i.
Definition dkey (d : dev) := let (_, k, _, _, _) := d in k.
Definition dstat (d : dev) := let (_, _, st, _, _) := d in st.
Definition dset (d : dev) := let (_, _, _, s, _) := d in s.
Definition dsubs (d : dev) := let (_, _, _, _, l) := d in l.

(** The saved configuration of a device. *)
Inductive dcfg := DCfg (i : id) (k : key) (s : nat) (subs : list dcfg).
Definition cid (c : dcfg) := let (i, _, _, _) := c in i.
Definition ckey (c : dcfg) := let (_, k, _, _) := c in k.
Definition cset (c : dcfg) := let (_, _, s, _) := c in s.
Definition csubs (c : dcfg) := let (_, _, _, l) := c in l.

(** DeviceUpdateMode (device_update_options.h 32-39) *)
Inductive mode := Load | UpdateOnly | Skip | Remove | Remap (k : key).

(** DeviceUpdateOptions: a tree like the devices. *)
Inductive opts := Opts (i : id) (m : mode) (subs : list opts).
(** populateDeviceUpdateOptionsMapping (component_update_context_impl.h 104-131): all in
    one dictionary with the local id as the key; a later one replaces an earlier. *)
Fixpoint flat (o : opts) : list (id * mode) :=
  match o with Opts i m subs => (i, m) :: flat_map flat subs end.
Fixpoint assoc {V} (i : id) (l : list (id * V)) : option V :=
  match l with
  | [] => None
  | (j, v) :: r => if Nat.eqb j i then Some v else assoc i r
  end.
(** getDeviceUpdateOptionsWithLocalIdOrNull; without options the mode is Load *)
Definition mode_of (o : opts) (i : id) : mode :=
  match assoc i (rev (flat o)) with Some m => m | None => Load end.

Fixpoint child (i : id) (l : list dev) : option dev :=
  match l with
  | [] => None
  | d :: r => if Nat.eqb (did d) i then Some d else child i r
  end.
Fixpoint replace (d : dev) (l : list dev) : list dev :=
  match l with
  | [] => []
  | k :: r => if Nat.eqb (did k) (did d) then d :: r else k :: replace d r
  end.
(** removeDeviceIfNotStatic (device_impl.h 1761-1775) *)
Definition drop (i : id) (l : list dev) : list dev :=
  filter (fun d => negb (Nat.eqb (did d) i) || dstat d) l.
(** findConnectedDeviceForRemap (device_impl.h 2220-2271) *)
Fixpoint with_key (k : key) (l : list dev) : option dev :=
  match l with
  | [] => None
  | d :: r => if Nat.eqb (dkey d) k then Some d else with_key k r
  end.
Definition has_id (i : id) (l : list id) : bool := existsb (Nat.eqb i) l.
Definition is_remap (m : mode) : bool := match m with Remap _ => true | _ => false end.

(** What onAddDevice gives for a key: a device with its local id and its own
    sub-devices, or nothing when it cannot be reached. *)
Definition world := key -> option dev.

(** The children, the ids without a reference, and the remappings so far. *)
Record acc := Acc { a_subs : list dev; a_unref : list id; a_map : list (id * id) }.

(** In the following [upd] is updateInternal of a device with the saved configuration
    [c'] (the recursion of [update] below), [o] the mode by local id. *)
Section Steps.
Variables (w : world) (o : id -> mode) (upd : dev -> dcfg -> list (id * id) -> dev * list (id * id)).

(** onAddDevice, addDeviceRemapping and updateInternal (device_impl.h 2188-2211). An
    exception when a device is added (it cannot be reached, or its local id is taken)
    is caught and leaves everything as it was. *)
Definition adds (c' : dcfg) (k' : key) (subs : list dev) (mp : list (id * id)) :=
  match w k' with
  | None => (subs, mp)
  | Some y =>
      match child (did y) subs with
      | Some _ => (subs, mp)
      | None =>
          let mp := if is_remap (o (cid c')) then (cid c', did y) :: mp else mp in
          let (y', mp') := upd y c' mp in (subs ++ [y'], mp')
      end
  end.
(** updateDevice (device_impl.h 2073-2218) *)
Definition stepped (a : acc) (c' : dcfg) : list dev * list (id * id) :=
  match o (cid c') with
  | Skip => (a_subs a, a_map a)
  | Remove => (drop (cid c') (a_subs a), a_map a)
  | UpdateOnly =>
      match child (cid c') (a_subs a) with
      | Some x => let (x', mp') := upd x c' (a_map a) in (replace x' (a_subs a), mp')
      | None => (a_subs a, a_map a)
      end
  | Load =>
      match child (cid c') (a_subs a) with
      | Some x => let (x', mp') := upd x c' (a_map a) in (replace x' (a_subs a), mp')
      | None => adds c' (ckey c') (a_subs a) (a_map a)
      end
  | Remap k' =>
      let l := drop (cid c') (a_subs a) in
      match with_key k' l with
      | Some x => let (x', mp') := upd x c' ((cid c', did x) :: a_map a) in (replace x' l, mp')
      | None => adds c' k' l (a_map a)
      end
  end.
(** devicesWithoutReference.erase (device_impl.h 2463-2470) *)
Definition unrefd (i' : id) (mp' : list (id * id)) (l : list id) :=
  filter (fun j => negb (Nat.eqb j i') && negb (match assoc i' mp' with Some t => Nat.eqb j t | None => false end)) l.
Definition step (a : acc) (c' : dcfg) : acc :=
  let '(subs', mp') := stepped a c' in Acc subs' (unrefd (cid c') mp' (a_unref a)) mp'.
End Steps.
(** removeRemappedDevices (device_impl.h 2418-2440) *)
Definition pre (o : id -> mode) (cs : list dcfg) (l : list dev) :=
  filter (fun x => dstat x || negb (is_remap (o (did x)) && has_id (did x) (map cid cs))) l.
(** the removal of devices without a reference (device_impl.h 2472-2480) *)
Definition cleaned (un : bool) (unref : list id) (l : list dev) :=
  if un then filter (fun x => dstat x || negb (has_id (did x) unref)) l else l.

(** updateObject (device_impl.h 2442-2480) for the device [d] with the saved
    configuration [c]; [un] the parameter removeUnusedDevices. *)
Fixpoint update (w : world) (o : id -> mode) (un : bool) (d : dev) (c : dcfg) (mp : list (id * id)) {struct c}
  : dev * list (id * id) :=
  match c with
  | DCfg _ _ s' cs =>
      let subs0 := pre o cs (dsubs d) in
      let a := fold_left (fun a c' => step w o (fun x _ mp => update w o un x c' mp) a c') cs (Acc subs0 (map did subs0) mp) in
      (Dev (did d) (dkey d) (dstat d) s' (cleaned un (a_unref a) (a_subs a)), a_map a)
  end.

(** remapDeviceLocalIds (component_update_context_impl.h 476-505): every segment of the
    id of a signal that is a key of the mapping is replaced. *)
Definition remap_path (mp : list (id * id)) (p : list id) : list id :=
  map (fun seg => match assoc seg mp with Some j => j | None => seg end) p.
