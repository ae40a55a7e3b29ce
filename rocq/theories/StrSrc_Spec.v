(** What it means that the sources of a device, their statuses and their owner are in step. *)
From Coq Require Import String List Bool.
From Verif Require Import StrSrc_Model.
Import ListNotations.
Open Scope string_scope.

(** No two sources of one connection string; the device owns just its sources; and, the string of
    the configuration connection aside, just the strings of the sources have a status. *)
Definition inStep (cs : nat -> string) (conf : string) (s : dev) : Prop :=
  NoDup (map cs (sources s)) /\
  (forall k, owned s k = true <-> In k (sources s)) /\
  (forall c, c <> conf -> (In c (statuses s) <-> exists k, In k (sources s) /\ cs k = c)).

(** A use of a device without surprises: streamings have a string, which is not that of the
    configuration connection, and the streaming made for a string has that string. *)
Definition clean (cs : nat -> string) (conf : string) (o : op) : Prop :=
  match o with
  | AddConfig c => c = conf
  | AddSource k => cs k <> "" /\ cs k <> conf
  | AddStreaming req k => cs k <> "" /\ cs k <> conf /\ req = cs k
  | RemoveSource _ => True
  | Removed => True
  end.
