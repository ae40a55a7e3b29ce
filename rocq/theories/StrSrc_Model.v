(** Model of the streaming sources of a mirrored device: the list of sources, the connection
    statuses of the device and the owner each source knows.

    Sources (under /repo/core/opendaq/):
    - streaming/include/opendaq/mirrored_device_impl.h 133-215: addStreamingSource,
      removeStreamingSource; 253-268: removed; 290-325: onAddStreaming
    - device/include/opendaq/connection_status_container_impl.h 145-250: adding and removing statuses
    - streaming/include/opendaq/streaming_impl.h 688-699: setOwnerDevice

    Simplified: calls hold the device's lock and are atomic; streamings are numbers with a fixed
    connection string; of a status only its presence is kept (values, aliases and events are in
    CStat_Model); the status enumeration knows "Removed"; null arguments are left out. *)
From Coq Require Import String List Bool Arith.
Import ListNotations.
Open Scope string_scope.

(** The answers of the calls. *)
Inductive code : Type := Success | DuplicateItem | NotFound | AlreadyExists | InvalidParameter.

(** mirrored_device_impl.h 73, connection_status_container_impl.h 62-65, and which streamings have
    this device as owner (streaming_impl.h 697). *)
Record dev : Type := Dev {
  sources : list nat;
  statuses : list string;
  confAdded : bool;
  owned : nat -> bool
}.

(** A device before its first connection. *)
Definition fresh : dev := Dev [] [] false (fun _ => false).

(** statuses.hasKey (connection_status_container_impl.h 192, 224). *)
Definition hasStatus (c : string) (s : dev) : bool := existsb (String.eqb c) (statuses s).

(** connection_status_container_impl.h 181-216: addStreamingConnectionStatus. *)
Definition addStatus (c : string) (s : dev) : dev * code :=
  if String.eqb c "" then (s, InvalidParameter)
  else if hasStatus c s then (s, AlreadyExists)
  else (Dev (sources s) (statuses s ++ [c])%list (confAdded s) (owned s), Success).

(** connection_status_container_impl.h 145-179: addConfigurationConnectionStatus. *)
Definition addConfig (c : string) (s : dev) : dev * code :=
  if String.eqb c "" then (s, InvalidParameter)
  else if confAdded s || hasStatus c s then (s, AlreadyExists)
  else (Dev (sources s) (statuses s ++ [c])%list true (owned s), Success).

(** connection_status_container_impl.h 218-250: removeStreamingConnectionStatus. *)
Definition removeStatus (c : string) (s : dev) : dev * code :=
  if hasStatus c s
  then (Dev (sources s) (filter (fun x => negb (String.eqb c x)) (statuses s)) (confAdded s) (owned s), Success)
  else (s, NotFound).

(** streaming_impl.h 688-699: setOwnerDevice, to this device or to none. *)
Definition setOwner (k : nat) (b : bool) (s : dev) : dev :=
  Dev (sources s) (statuses s) (confAdded s) (fun x => if Nat.eqb x k then b else owned s x).

(** streamingSources.push_back (mirrored_device_impl.h 162). *)
Definition push (k : nat) (s : dev) : dev :=
  Dev (sources s ++ [k])%list (statuses s) (confAdded s) (owned s).

(** The first source of a connection string (mirrored_device_impl.h 142-147, 189-194). *)
Definition findSource (cs : nat -> string) (c : string) (s : dev) : option nat :=
  find (fun k => String.eqb c (cs k)) (sources s).

(** streamingSources.erase of the first source of a connection string (mirrored_device_impl.h 214). *)
Fixpoint eraseFirst (cs : nat -> string) (c : string) (l : list nat) : list nat :=
  match l with
  | [] => []
  | k :: r => if String.eqb c (cs k) then r else k :: eraseFirst cs c r
  end.

(** What follows the check for duplicates (mirrored_device_impl.h 162-181, 313-321): the source
    is in the list before its status is added. *)
Definition attach (cs : nat -> string) (k : nat) (s : dev) : dev * code :=
  match addStatus (cs k) (push k s) with
  | (s', Success) => (setOwner k true s', Success)
  | (s', e) => (s', e)
  end.

(** mirrored_device_impl.h 133-181: addStreamingSource. *)
Definition addSource (cs : nat -> string) (k : nat) (s : dev) : dev * code :=
  match findSource cs (cs k) s with
  | Some _ => (s, DuplicateItem)
  | None => attach cs k s
  end.

(** mirrored_device_impl.h 290-325: onAddStreaming; [k] is the streaming the module manager made
    for the requested connection string, after the check. *)
Definition addStreaming (cs : nat -> string) (req : string) (k : nat) (s : dev) : dev * code :=
  match findSource cs req s with
  | Some _ => (s, DuplicateItem)
  | None => attach cs k s
  end.

(** mirrored_device_impl.h 183-219: removeStreamingSource. *)
Definition removeSource (cs : nat -> string) (c : string) (s : dev) : dev * code :=
  match findSource cs c s with
  | None => (s, NotFound)
  | Some k =>
      match removeStatus c s with
      | (s', Success) =>
          let s'' := setOwner k false s' in
          (Dev (eraseFirst cs c (sources s'')) (statuses s'') (confAdded s'') (owned s''), Success)
      | (s', e) => (s', e)
      end
  end.

(** The loop of mirrored_device_impl.h 255-259; a status that is not there throws. *)
Fixpoint detachAll (cs : nat -> string) (l : list nat) (s : dev) : dev * code :=
  match l with
  | [] => (s, Success)
  | k :: r =>
      match removeStatus (cs k) s with
      | (s', Success) => detachAll cs r (setOwner k false s')
      | (s', e) => (s', e)
      end
  end.

(** mirrored_device_impl.h 253-268: removed. *)
Definition removed (cs : nat -> string) (s : dev) : dev * code :=
  match detachAll cs (sources s) s with
  | (s', Success) => (Dev [] (statuses s') (confAdded s') (owned s'), Success)
  | (s', e) => (s', e)
  end.

(** What may happen to a device. *)
Inductive op : Type :=
| AddConfig (c : string)
| AddSource (k : nat)
| AddStreaming (req : string) (k : nat)
| RemoveSource (c : string)
| Removed.

Definition step (cs : nat -> string) (s : dev) (o : op) : dev :=
  match o with
  | AddConfig c => fst (addConfig c s)
  | AddSource k => fst (addSource cs k s)
  | AddStreaming req k => fst (addStreaming cs req k s)
  | RemoveSource c => fst (removeSource cs c s)
  | Removed => fst (removed cs s)
  end.

Definition run (cs : nat -> string) (ops : list op) : dev := fold_left (step cs) ops fresh.
