(** * DInfo_Model: the information of a device and its owner

    Models core/opendaq/device/include/opendaq/device_info_impl.h:204-288,
    526-536, 719-756, 1023-1049, 1063-1203 and
    core/opendaq/device/include/opendaq/device_impl.h:326-347, 1568-1578,
    2523-2533 (getInfo, setName, updating).

    Simplifications: only the String properties are modelled; a device has
    its info from the start, and [Attach] is the first getInfo; the device is
    not a mirrored one; String properties of the device are writable; frozen
    or removed devices are left out; the writes of a loaded configuration are
    applied at once instead of at the end of the update, which is the same as
    its keys are distinct. *)
From Coq Require Import String Ascii List Bool Arith.
Import ListNotations.
Open Scope string_scope.
Open Scope nat_scope.
Open Scope list_scope.

Inductive res := Ok | Ignored | NotFound | AccessDenied.

(** coretype_utils::toLowerCase *)
Definition lowerChar (c : ascii) : ascii :=
  let k := nat_of_ascii c in if (65 <=? k) && (k <=? 90) then ascii_of_nat (k + 32) else c.

Fixpoint lower (s : string) : string :=
  match s with EmptyString => EmptyString | String c r => String (lowerChar c) (lower r) end.

(** A String property: whether it is read only, and its value if it was set;
    the default is the empty string. *)
Record prop := P { ro : bool; val : option string }.

Fixpoint find {A} (n : string) (l : list (string * A)) : option A :=
  match l with
  | [] => None
  | (k, a) :: r => if String.eqb k n then Some a else find n r
  end.

Fixpoint put {A} (n : string) (a : A) (l : list (string * A)) : list (string * A) :=
  match l with
  | [] => []
  | (k, b) :: r => if String.eqb k n then (k, a) :: r else (k, b) :: put n a r
  end.

(** [dprops]: the String properties of the device with their values;
    [locked]: its attribute Name is locked; [owned]: the info has its owner. *)
Record st := St { dname : string; locked : bool; dprops : list (string * string); inf : list (string * prop); owned : bool }.

(** device_info_impl.h:204-222: these exist before the list of changeable
    names is read. *)
Definition early : list string := ["name"; "connectionString"; "sdkVersion"].

(** device_info_impl.h:238-258, the String ones *)
Definition late : list string :=
  ["manufacturer"; "manufacturerUri"; "model"; "productCode"; "deviceRevision"; "hardwareRevision"; "softwareRevision";
   "deviceManual"; "deviceClass"; "serialNumber"; "productInstanceUri"; "assetId"; "macAddress"; "parentMacAddress";
   "platform"; "systemType"; "systemUuid"; "location"; "userName"].

(** device_info_impl.h:719-740 isPropertyChangeable, createAndSetStringProperty *)
Definition changeable (ch : list string) (n : string) : bool := existsb (String.eqb (lower n)) (map lower ch).

(** device_info_impl.h:224-270 the constructor *)
Definition create (ch : list string) (name conn sdk : string) : list (string * prop) :=
  [("name", P true (Some name)); ("connectionString", P true (Some conn)); ("sdkVersion", P true (Some sdk))]
  ++ map (fun n => (n, P (negb (changeable ch n)) None)) late.

Definition withInf (l : list (string * prop)) (s : st) : st := St (dname s) (locked s) (dprops s) l (owned s).
Definition withDev (l : list (string * string)) (s : st) : st := St (dname s) (locked s) l (inf s) (owned s).

(** The values the info holds itself (property_object_impl.h:1078-1201). *)
Definition localSet (protected : bool) (n v : string) (s : st) : st * res :=
  match find n (inf s) with
  | None => (s, NotFound)
  | Some p => if ro p && negb protected then (s, AccessDenied) else (withInf (put n (P (ro p) (Some v)) (inf s)) s, Ok)
  end.

Definition localGet (n : string) (s : st) : option string :=
  match find n (inf s) with
  | None => None
  | Some p => Some (match val p with Some v => v | None => EmptyString end)
  end.

Definition devSet (n v : string) (s : st) : st * res :=
  match find n (dprops s) with None => (s, NotFound) | Some _ => (withDev (put n v (dprops s)) s, Ok) end.

(** device_info_impl.h:1100-1107 getOwnerOfProperty *)
Definition ofOwner (n : string) (s : st) : bool :=
  owned s && (String.eqb n "userName" || String.eqb n "location") &&
  match find n (inf s) with Some p => negb (ro p) | None => false end.

(** device_info_impl.h:1109-1118 getPropertyValueNoLock *)
Definition get (n : string) (s : st) : option string := if ofOwner n s then find n (dprops s) else localGet n s.

(** device_info_impl.h:1120-1129 setPropertyValueNoLock *)
Definition set (n v : string) (s : st) : st * res := if ofOwner n s then devSet n v s else localSet false n v s.

(** device_info_impl.h:1131-1140 setProtectedPropertyValue *)
Definition setProtected (n v : string) (s : st) : st * res := if ofOwner n s then devSet n v s else localSet true n v s.

(** device_info_impl.h:1023-1031 setValueInternal: setManufacturer and the
    others *)
Definition setter (n v : string) (s : st) : st * res := if owned s then set n v s else localSet true n v s.

(** device_impl.h:1568-1578 with component_impl.h:526-568: setName of the
    device *)
Definition devSetName (v : string) (s : st) : st * res :=
  match setProtected "name" v s with
  | (s1, Ok) =>
      if String.eqb (dname s1) v then (s1, Ignored)
      else if locked s1 then (s1, Ignored)
      else (St v (locked s1) (dprops s1) (inf s1) (owned s1), Ok)
  | (s1, e) => (s1, e)
  end.

(** device_info_impl.h:278-287 setName of the info *)
Definition setName (v : string) (s : st) : st * res := if owned s then devSetName v s else localSet true "name" v s.

(** The loop of device_info_impl.h:1176-1199 *)
Definition share (n : string) (s : st) : st :=
  match find n (inf s) with
  | Some p =>
      if ro p then s
      else match find n (dprops s) with
           | Some _ => s
           | None => withDev (dprops s ++ [(n, match val p with Some v => v | None => EmptyString end)]) s
           end
  | None => s
  end.

(** device_info_impl.h:1142-1203 setOwner *)
Definition attach (s : st) : st * res :=
  if owned s then (s, Ignored)
  else
    let s1 := St (dname s) (locked s) (dprops s) (inf s) true in
    (share "location" (share "userName" (fst (setProtected "name" (dname s1) s1))), Ok).

(** device_info_impl.h:1063-1097 updateInternal *)
Fixpoint load (l : list (string * string)) (s : st) : st :=
  match l with
  | [] => s
  | (n, v) :: r =>
      load r (match find n (inf s) with Some p => if ro p then s else fst (setProtected n v s) | None => s end)
  end.

(** device_info_impl.h:1034-1049 with property_object_impl.h:3185-3231: the
    values held by the info itself, without read only ones *)
Definition save (s : st) : list (string * string) :=
  flat_map (fun p => if ro (snd p) then [] else match val (snd p) with Some v => [(fst p, v)] | None => [] end) (inf s).

(** A configuration of the device: its own properties, then the info
    (component_impl.h:965-978, device_impl.h:2523-2533). *)
Definition saveAll (s : st) : list (string * string) * list (string * string) := (dprops s, save s).

Fixpoint loadDev (l : list (string * string)) (s : st) : st :=
  match l with [] => s | (n, v) :: r => loadDev r (fst (devSet n v s)) end.

Definition loadAll (c : list (string * string) * list (string * string)) (s : st) : st := load (snd c) (loadDev (fst c) s).

Inductive op :=
| Setter (n v : string)
| Set_ (n v : string)
| SetName (v : string)
| DevSetName (v : string)
| DevSet (n v : string)
| LockName (b : bool)
| Attach
| Load (l : list (string * string)).

Definition step (p : op) (s : st) : st * res :=
  match p with
  | Setter n v => setter n v s
  | Set_ n v => set n v s
  | SetName v => setName v s
  | DevSetName v => devSetName v s
  | DevSet n v => devSet n v s
  | LockName b => (St (dname s) b (dprops s) (inf s) (owned s), Ok)
  | Attach => attach s
  | Load l => (load l s, Ok)
  end.

Fixpoint run (l : list op) (s : st) : st := match l with [] => s | p :: r => run r (fst (step p s)) end.

(** A device with a new info. *)
Definition device (d : string) (dp : list (string * string)) (ch : list string) (name conn sdk : string) : st :=
  St d false dp (create ch name conn sdk) false.
