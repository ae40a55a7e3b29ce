(** * CStat_Spec: what users of statuses rely on *)
From Coq Require Import String List Bool Arith.
From Verif Require Import CStat_Model.
Import ListNotations.

(** ** Component statuses *)

Fixpoint run (l : list op) (s : cont) : cont :=
  match l with
  | [] => s
  | o :: r => run r (fst (fst (step o s)))
  end.

(** The container after the calls [l], and what a further call answers. *)
Definition after (l : list op) : cont := run l empty.
Definition reply (l : list op) (o : op) : code := snd (fst (step o (after l))).
Definition emits (l : list op) (o : op) : option event := snd (step o (after l)).

(** The statuses as a table from names to a value and a message. *)
Definition table := string -> option (enum * string).
Definition blank : table := fun _ => None.
Definition put (n : string) (x : enum * string) (t : table) : table :=
  fun n' => if String.eqb n' n then Some x else t n'.

(** What a call should do: adding needs a new, non-empty name; setting needs
    a known name and a value of the same enumeration type, and does nothing
    when nothing changes.  A call without a message means the empty one. *)
Definition adds (n : string) (v : enum) (m : string) (t : table) : table * code :=
  if String.eqb n "" then (t, InvalidParameter)
  else match t n with
       | Some _ => (t, AlreadyExists)
       | None => (put n (v, m) t, Success)
       end.

Definition sets (n : string) (v : enum) (m : string) (t : table) : table * code :=
  if String.eqb n "" then (t, InvalidParameter)
  else match t n with
       | None => (t, NotFound)
       | Some (v0, m0) =>
           if negb (Nat.eqb (en_type v) (en_type v0)) then (t, InvalidType)
           else if String.eqb (en_value v) (en_value v0) && String.eqb m m0 then (t, Ignored)
           else (put n (v, m) t, Success)
       end.

Definition act (o : op) (t : table) : table * code :=
  match o with
  | Add n v => adds n v "" t
  | AddMsg n v m => adds n v m t
  | SetTo n v => sets n v "" t
  | SetMsg n v m => sets n v m t
  end.

Fixpoint acts (l : list op) (t : table) : table :=
  match l with [] => t | o :: r => acts r (fst (act o t)) end.

(** A container shows a table. *)
Definition shows (s : cont) (t : table) : Prop :=
  forall n, getStatus s n = option_map fst (t n) /\ getStatusMessage s n = option_map snd (t n).

(** Two containers read the same. *)
Definition alike (a b : cont) : Prop :=
  forall n, getStatus a n = getStatus b n /\ getStatusMessage a n = getStatusMessage b n.

(** The calls that set, and what they set. *)
Definition setting (o : op) : option (string * enum * string) :=
  match o with
  | SetTo n v => Some (n, v, ""%string)
  | SetMsg n v m => Some (n, v, m)
  | _ => None
  end.

(** A client receives the events of the server in order; it fails if one of
    them makes it throw. *)
Fixpoint follow (l : list op) (server client : cont) : cont * cont * bool :=
  match l with
  | [] => (server, client, true)
  | o :: r =>
      let '(s', _, e) := step o server in
      match e with
      | None => follow r s' client
      | Some e => let (c', k) := statusChanged e client in
                  match k with
                  | Success => follow r s' c'
                  | _ => (s', c', false)
                  end
      end
  end.

(** ** Connection statuses *)

Fixpoint crun (knows : nat -> bool) (l : list cop) (s : conn) : conn :=
  match l with
  | [] => s
  | o :: r => crun knows r (fst (fst (cstep knows o s)))
  end.

Definition cafter (knows : nat -> bool) (l : list cop) : conn := crun knows l noConn.
Definition creply knows (l : list cop) (o : cop) : code := snd (fst (cstep knows o (cafter knows l))).
Definition cemits knows (l : list cop) (o : cop) : option cevent := snd (cstep knows o (cafter knows l)).

(** The call [o] after [l] adds connection [c] with value [v], announced to
    the listeners under the name [a]. *)
Definition announces knows (l : list cop) (o : cop) (c : string) (v : enum) (a : string) : Prop :=
  ((exists t, o = AddStreaming t c v) \/ o = AddConfiguration c v) /\
  creply knows l o = Success /\
  exists p, cemits knows l o = Some (CEvent (Some a) v c p (Some ""%string)).

(** The value and message of connection [c] after further updates: those of
    the last one with the right enumeration type. *)
Fixpoint track (c : string) (cur : enum * string) (l : list cop) : enum * string :=
  match l with
  | [] => cur
  | Update c' v m :: r =>
      if String.eqb c' c && Nat.eqb (en_type v) (en_type (fst cur))
      then track c (v, m) r else track c cur r
  | _ :: r => track c cur r
  end.

(** What a user sees of the connections. *)
Definition sameConn (a b : conn) : Prop :=
  forall n, cGetStatus a n = cGetStatus b n /\ cGetMessage a n = cGetMessage b n.
