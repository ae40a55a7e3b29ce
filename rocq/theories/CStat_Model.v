(** * CStat_Model: component statuses and connection statuses

    Models core/opendaq/component/include/opendaq/component_status_container_impl.h:28-318,
    core/opendaq/device/include/opendaq/connection_status_container_impl.h:30-405
    and the client side of statuses,
    shared/libraries/config_protocol/include/config_protocol/config_client_component_impl.h:249-276, 403-421.

    Simplifications: every call holds the mutex for its whole length, so calls
    are atomic (the core event handler runs inside); null arguments and failing
    allocations are left out; a dictionary is an association list in the order
    of insertion; an enumeration value is its type and its enumerator; the
    streaming object in the events is left out. *)
From Coq Require Import String List Bool Arith DecimalString Decimal.
Import ListNotations.

(** IEnumeration: type and value. *)
Record enum := Enum { en_type : nat; en_value : string }.

Definition eqEnum (a b : enum) : bool :=
  (en_type a =? en_type b)%nat && String.eqb (en_value a) (en_value b).

(** ** Dictionaries *)

Definition dict (A : Type) := list (string * A).

Fixpoint dget {A} (k : string) (d : dict A) : option A :=
  match d with
  | [] => None
  | (k', v) :: r => if String.eqb k k' then Some v else dget k r
  end.

Definition dhas {A} (k : string) (d : dict A) : bool :=
  match dget k d with Some _ => true | None => false end.

Fixpoint dset {A} (k : string) (v : A) (d : dict A) : dict A :=
  match d with
  | [] => [(k, v)]
  | (k', v') :: r => if String.eqb k k' then (k, v) :: r else (k', v') :: dset k v r
  end.

Fixpoint dremove {A} (k : string) (d : dict A) : dict A :=
  match d with
  | [] => []
  | (k', v) :: r => if String.eqb k k' then r else (k', v) :: dremove k r
  end.

(** What a call answers. *)
Inductive code := Success | Ignored | InvalidParameter | AlreadyExists | NotFound | InvalidType | Thrown.

(** ** Component statuses *)

(** component_status_container_impl.h:40-46 *)
Record cont := Cont { statuses : dict enum; messages : dict string }.

Definition empty : cont := Cont [] [].

(** The parameters of a StatusChanged event (:238-239): enumerations and
    strings by name. *)
Inductive param := PEnum (e : enum) | PStr (s : string).
Definition event := dict param.

(** :238-239: the dictionary made from the two pairs, the later one wins. *)
Definition changeEvent (name : string) (v : enum) (m : string) : event :=
  dset "Message"%string (PStr m) (dset name (PEnum v) []).

(** :63-75 *)
Definition getStatus (s : cont) (name : string) : option enum := dget name (statuses s).
(** :97-107 *)
Definition getStatusMessage (s : cont) (name : string) : option string := dget name (messages s).

(** :147-175 addStatusWithMessage; no event. *)
Definition addStatusWithMessage (name : string) (v : enum) (m : string) (s : cont) : cont * code :=
  if String.eqb name EmptyString then (s, InvalidParameter)
  else if dhas name (statuses s) then (s, AlreadyExists)
  else (Cont (dset name v (statuses s)) (dset name m (messages s)), Success).

(** :142-145 *)
Definition addStatus (name : string) (v : enum) (s : cont) : cont * code :=
  addStatusWithMessage name v EmptyString s.

(** :205-234: what is stored when something changed. *)
Definition storeStatus (name : string) (v old : enum) (m oldM : string) (s : cont) : cont :=
  if eqEnum v old then Cont (statuses s) (dset name m (messages s))
  else Cont (dset name v (statuses s))
            (if String.eqb oldM m then messages s else dset name m (messages s)).

(** :182-244 setStatusWithMessage, with the event it triggers. *)
Definition setStatusWithMessage (name : string) (v : enum) (m : string) (s : cont)
  : cont * code * option event :=
  if String.eqb name EmptyString then (s, InvalidParameter, None)
  else match dget name (statuses s) with
       | None => (s, NotFound, None)
       | Some old =>
           match dget name (messages s) with
           | None => (s, Thrown, None)
           | Some oldM =>
               if negb (en_type v =? en_type old)%nat then (s, InvalidType, None)
               else if eqEnum v old && String.eqb oldM m then (s, Ignored, None)
               else (storeStatus name v old m oldM s, Success, Some (changeEvent name v m))
           end
       end.

(** :177-180 *)
Definition setStatus (name : string) (v : enum) (s : cont) : cont * code * option event :=
  setStatusWithMessage name v EmptyString s.

Inductive op :=
| Add (name : string) (v : enum)
| AddMsg (name : string) (v : enum) (m : string)
| SetTo (name : string) (v : enum)
| SetMsg (name : string) (v : enum) (m : string).

Definition step (o : op) (s : cont) : cont * code * option event :=
  match o with
  | Add n v => (addStatus n v s, None)
  | AddMsg n v m => (addStatusWithMessage n v m s, None)
  | SetTo n v => setStatus n v s
  | SetMsg n v m => setStatusWithMessage n v m s
  end.

(** :246-261 serialize: the two dictionaries; [None] for text written by a
    version without messages. *)
Record written := Written { w_statuses : dict enum; w_messages : option (dict string) }.

Definition serialize (s : cont) : written := Written (statuses s) (Some (messages s)).

(** :299-312: the loops that add the read statuses; [None]: the read fails. *)
Fixpoint addAll (l : dict enum) (ms : option (dict string)) (s : cont) : option cont :=
  match l with
  | [] => Some s
  | (n, v) :: r =>
      match ms with
      | None =>
          match addStatus n v s with
          | (s', Success) => addAll r ms s'
          | _ => None
          end
      | Some d =>
          match dget n d with
          | None => None
          | Some m =>
              match addStatusWithMessage n v m s with
              | (s', Success) => addAll r ms s'
              | _ => None
              end
          end
      end
  end.

(** :277-318 Deserialize *)
Definition deserialize (w : written) : option cont := addAll (w_statuses w) (w_messages w) empty.

(** ** The statuses of a mirrored component *)

(** config_client_component_impl.h:403-421 statusChanged: the loop over the
    parameters; [Thrown] when a call fails. *)
Fixpoint applyParams (l : event) (m : string) (s : cont) : cont * code :=
  match l with
  | [] => (s, Success)
  | (n, PEnum v) :: r =>
      match setStatusWithMessage n v m s with
      | (s', Success, _) | (s', Ignored, _) => applyParams r EmptyString s'
      | (s', _, _) => (s', Thrown)
      end
  | (_, PStr _) :: r => applyParams r m s
  end.

Definition statusChanged (e : event) (s : cont) : cont * code :=
  let m := match dget "Message"%string e with Some (PStr m) => m | _ => EmptyString end in
  applyParams e m s.

(** config_client_component_impl.h:249-276 remoteUpdateStatuses; [known] are
    the statuses of the client before. *)
Fixpoint updateAll (l : dict enum) (ms : dict string) (known : dict enum) (s : cont) : cont * code :=
  match l with
  | [] => (s, Success)
  | (n, v) :: r =>
      let m := match dget n ms with Some m => m | None => EmptyString end in
      if dhas n known then
        match setStatusWithMessage n v m s with
        | (s', Success, _) | (s', Ignored, _) => updateAll r ms known s'
        | (s', _, _) => (s', Thrown)
        end
      else
        match addStatusWithMessage n v m s with
        | (s', Success) => updateAll r ms known s'
        | (s', _) => (s', Thrown)
        end
  end.

Definition remoteUpdateStatuses (w : written) (s : cont) : cont * code :=
  updateAll (w_statuses w) (match w_messages w with Some d => d | None => [] end) (statuses s) s.

(** ** Connection statuses *)

(** connection_status_container_impl.h:30 *)
Definition configAlias : string := "ConfigurationStatus".

(** connection_status_container_impl.h:62-65 with the base class *)
Record conn := Conn {
  c_statuses : dict enum;
  c_messages : dict string;
  c_aliases : dict string;
  c_counter : nat;
  c_config : bool
}.

Definition noConn : conn := Conn [] [] [] 0 false.

(** fmt::format of a number *)
Definition decimal (n : nat) : string := NilZero.string_of_uint (Nat.to_uint n).

(** Does [s] start with [p] (:400 std::string::find == 0)? *)
Fixpoint starts (p s : string) : bool :=
  match p, s with
  | EmptyString, _ => true
  | String a p', String b s' => if Ascii.eqb a b then starts p' s' else false
  | _, _ => false
  end.

(** :390-405; [types] are the available streaming types with their connection
    string prefixes, empty without a module manager. *)
Fixpoint streamingAlias (types : list (string * string)) (c : string) (n : nat) : string :=
  match types with
  | [] => ("StreamingStatus_" ++ decimal n)%string
  | (t, p) :: r => if starts p c then ("StreamingStatus_" ++ t ++ "_" ++ decimal n)%string
                   else streamingAlias r c n
  end.

Inductive protocol := Configuration | Streaming.

(** The parameters of a ConnectionStatusChanged event (:168-174 and others) *)
Record cevent := CEvent {
  v_name : option string;
  v_value : enum;
  v_conn : string;
  v_protocol : protocol;
  v_message : option string
}.

(** :81-102 getStatus: the first alias that fits *)
Fixpoint byAlias {A} (l : dict string) (name : string) (d : dict A) : option A :=
  match l with
  | [] => None
  | (c, a) :: r =>
      if String.eqb a name
      then match dget c d with Some v => Some v | None => byAlias r name d end
      else byAlias r name d
  end.

Definition cGetStatus (s : conn) (name : string) : option enum :=
  if String.eqb name EmptyString then None else byAlias (c_aliases s) name (c_statuses s).
(** :104-125 *)
Definition cGetMessage (s : conn) (name : string) : option string :=
  if String.eqb name EmptyString then None else byAlias (c_aliases s) name (c_messages s).

(** :145-179 *)
Definition addConfiguration (c : string) (v : enum) (s : conn) : conn * code * option cevent :=
  if String.eqb c EmptyString then (s, InvalidParameter, None)
  else if c_config s || dhas c (c_statuses s) || dhas c (c_messages s)
  then (s, AlreadyExists, None)
  else (Conn (dset c v (c_statuses s)) (dset c EmptyString (c_messages s))
             (dset c configAlias (c_aliases s)) (c_counter s) true,
        Success, Some (CEvent (Some configAlias) v c Configuration (Some EmptyString))).

(** :181-216 *)
Definition addStreaming (types : list (string * string)) (c : string) (v : enum) (s : conn)
  : conn * code * option cevent :=
  if String.eqb c EmptyString then (s, InvalidParameter, None)
  else if dhas c (c_statuses s) || dhas c (c_messages s)
  then (s, AlreadyExists, None)
  else
    let n := S (c_counter s) in
    let a := streamingAlias types c n in
    (Conn (dset c v (c_statuses s)) (dset c EmptyString (c_messages s))
          (dset c a (c_aliases s)) n (c_config s),
     Success, Some (CEvent (Some a) v c Streaming (Some EmptyString))).

(** :218-250; [knows] says whether an enumeration type has the enumerator
    "Removed" (:234 throws without it). *)
Definition removeStreaming (knows : nat -> bool) (c : string) (s : conn) : conn * code * option cevent :=
  match dget c (c_statuses s), dget c (c_messages s) with
  | Some v, Some _ =>
      let s' := Conn (dremove c (c_statuses s)) (dremove c (c_messages s))
                     (dremove c (c_aliases s)) (c_counter s) (c_config s) in
      if knows (en_type v)
      then (s', Success,
            Some (CEvent (dget c (c_aliases s)) (Enum (en_type v) "Removed") c Streaming None))
      else (s', Thrown, None)
  | _, _ => (s, NotFound, None)
  end.

(** :257-309 *)
Definition updateConnection (c : string) (v : enum) (m : string) (s : conn) : conn * code * option cevent :=
  if String.eqb c EmptyString then (s, InvalidParameter, None)
  else match dget c (c_statuses s), dget c (c_messages s) with
  | Some old, Some oldM =>
      if negb (en_type v =? en_type old)%nat then (s, InvalidType, None)
      else if eqEnum v old && String.eqb oldM m then (s, Ignored, None)
      else
        let a := dget c (c_aliases s) in
        (Conn (dset c v (c_statuses s)) (dset c m (c_messages s)) (c_aliases s) (c_counter s) (c_config s),
         Success,
         Some (CEvent a v c
                 (match a with
                  | Some x => if String.eqb x configAlias then Configuration else Streaming
                  | None => Streaming
                  end) (Some m)))
  | _, _ => (s, NotFound, None)
  end.

Inductive cop :=
| AddConfiguration (c : string) (v : enum)
| AddStreaming (types : list (string * string)) (c : string) (v : enum)
| RemoveStreaming (c : string)
| Update (c : string) (v : enum) (m : string).

Definition cstep (knows : nat -> bool) (o : cop) (s : conn) : conn * code * option cevent :=
  match o with
  | AddConfiguration c v => addConfiguration c v s
  | AddStreaming t c v => addStreaming t c v s
  | RemoveStreaming c => removeStreaming knows c s
  | Update c v m => updateConnection c v m s
  end.

(** :311-329 serialize, :345-388 Deserialize: the loop over the aliases. *)
Fixpoint restoreConfig (al : dict string) (st : dict enum) (ms : dict string) (s : conn) : option conn :=
  match al with
  | [] => Some s
  | (c, a) :: r =>
      match (if String.eqb a configAlias then dget c st else None) with
      | Some v =>
          match addConfiguration c v s with
          | (s1, Success, _) =>
              match dget c ms with
              | None => Some s1
              | Some m => match updateConnection c v m s1 with
                          | (s2, Success, _) | (s2, Ignored, _) => Some s2
                          | _ => None
                          end
              end
          | _ => None
          end
      | None => restoreConfig r st ms s
      end
  end.

Definition cReadBack (s : conn) : option conn :=
  restoreConfig (c_aliases s) (c_statuses s) (c_messages s) noConn.
