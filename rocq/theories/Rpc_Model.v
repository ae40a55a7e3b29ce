(** Model of the remote calls of the configuration protocol and of the checks
    each of them makes.
    Sources (under /repo/shared/libraries/config_protocol):
      src/config_protocol_server.cpp:45-75 (finding components), 110-200
      (dispatch), 385-560 (handlers of the server itself),
      include/config_protocol/config_server_access_control.h,
      config_server_component.h, config_server_device.h,
      config_server_input_port.h, config_server_recorder.h,
      config_server_server.h, config_server_signal.h.

    Simplifications, everywhere below:
    - A global id is the list of local ids under the root; "//root" and the
      root's own id are []. Devices, channels and function blocks contain their
      sub-components directly; the folders in between are left out.
    - Every object answers a call that passes the checks with a yes or no of
      its own (validators, busy hardware, ...): the argument [ok] of [call].
      No means an error and no change.
    - Property values are numbers. The rules of property objects themselves are
      Prop_Model, the tree walk of locks is Lock_Model, permission inheritance
      is Perm_Model; here a permission table is what isAuthorized answers. *)
From Coq Require Import List Bool Arith ZArith.
Import ListNotations.

Definition path := list nat.
Definition user := nat.
Inductive perm := Read | Write | Execute.
Inductive kind := KDevice | KBlock | KSignal | KPort | KRecorder | KServer | KOther.

Fixpoint path_eqb (p q : path) : bool :=
  match p, q with
  | [], [] => true
  | x :: p, y :: q => Nat.eqb x y && path_eqb p q
  | _, _ => false
  end.

(** [under p q]: q is p or below p. *)
Fixpoint under (p q : path) : bool :=
  match p, q with
  | [], _ => true
  | x :: p, y :: q => Nat.eqb x y && under p q
  | _ :: _, [] => false
  end.

(** A property object: its permission manager, its values, the depth of its
    batches, and how often its functions were called. *)
Record obj := {
  ob_perm : user -> perm -> bool;
  ob_vals : nat -> option Z;
  ob_upd : nat;
  ob_calls : nat
}.

Inductive attr := AName | ADescription | AActive | AOther.

(** A component. [n_objs false sub]: the object at the dotted name [sub] below
    the component, the component itself for []; [n_objs true sub]: the same
    below the device info. *)
Record node := {
  n_kind : kind;
  n_mirrored : bool;
  n_objs : bool -> path -> option obj;
  n_attr : attr -> Z;
  n_lock : option user;
  n_mode : Z;
  n_conn : option (option path);       (* the connected signal; [Some None]: one of a client *)
  n_src : Z;
  n_rec : bool;
  n_disc : bool
}.

(** [s_ext]: signals of clients, by session and number. *)
Record state := { s_nodes : list (path * node); s_ext : list (nat * nat) }.

Definition lookup (st : state) (p : path) : option node :=
  match find (fun x => path_eqb (fst x) p) (s_nodes st) with Some x => Some (snd x) | None => None end.

Definition upd (st : state) (p : path) (f : node -> node) : state :=
  {| s_nodes := map (fun x => if path_eqb (fst x) p then (fst x, f (snd x)) else x) (s_nodes st);
     s_ext := s_ext st |}.

Inductive err := ENotFound | EDenied | ELocked | EInterface | EInvalid | EState | EObject.
Inductive out := OOk | OVal | OErr (e : err).

(** ClientType; [c_session] tells clients apart. *)
Inductive conn := Control | ExclusiveControl | ViewOnly.
Record client := { c_user : user; c_conn : conn; c_session : nat }.

(** getParentDevice (config_server_access_control.h:88-101). *)
Fixpoint parent_device (n : nat) (st : state) (p : path) : option node :=
  match lookup st p with
  | Some nd =>
      match n_kind nd with
      | KDevice => Some nd
      | _ => match n with S n => parent_device n st (removelast p) | O => None end
      end
  | None => match n with S n => parent_device n st (removelast p) | O => None end
  end.

(** protectLockedComponent (72-78). *)
Definition locked (st : state) (p : path) : bool :=
  match parent_device (length p) st p with
  | Some nd => match n_lock nd with Some _ => true | None => false end
  | None => false
  end.

(** protectViewOnlyConnection (80-84). *)
Definition view_only (c : client) : bool := match c_conn c with ViewOnly => true | _ => false end.

(** protectObject (38-49). *)
Definition may (o : obj) (u : user) (l : list perm) : bool := forallb (ob_perm o u) l.

(** The name of a property: whether it goes to the device info
    (parseAndGetDeviceInfo, config_server_component.h:394-403), the dotted path
    of the object, and the property there. *)
Record pname := { q_info : bool; q_sub : path; q_name : nat }.

(** parseAndGetDeviceInfo and getFirstPropertyParent
    (config_server_access_control.h:51-70). *)
Definition prop_parent (nd : node) (q : pname) : err + obj :=
  if q_info q && negb (match n_kind nd with KDevice => true | _ => false end) then inl EInterface
  else match n_objs nd (q_info q) (q_sub q) with
       | Some o => inr o
       | None => inl ENotFound
       end.

Definition put {A} (f : nat -> A) (k : nat) (a : A) : nat -> A := fun x => if Nat.eqb x k then a else f x.

Definition set_obj (i : bool) (s : path) (f : obj -> obj) (nd : node) : node :=
  {| n_kind := n_kind nd; n_mirrored := n_mirrored nd;
     n_objs := fun j t => if Bool.eqb j i && path_eqb t s
                          then match n_objs nd j t with Some o => Some (f o) | None => None end
                          else n_objs nd j t;
     n_attr := n_attr nd; n_lock := n_lock nd; n_mode := n_mode nd; n_conn := n_conn nd;
     n_src := n_src nd; n_rec := n_rec nd; n_disc := n_disc nd |}.

Definition with_val (k : nat) (v : option Z) (o : obj) : obj :=
  {| ob_perm := ob_perm o; ob_vals := put (ob_vals o) k v; ob_upd := ob_upd o; ob_calls := ob_calls o |}.
Definition no_vals (o : obj) : obj :=
  {| ob_perm := ob_perm o; ob_vals := fun _ => None; ob_upd := ob_upd o; ob_calls := ob_calls o |}.
Definition with_upd (k : nat) (o : obj) : obj :=
  {| ob_perm := ob_perm o; ob_vals := ob_vals o; ob_upd := k; ob_calls := ob_calls o |}.
Definition called (o : obj) : obj :=
  {| ob_perm := ob_perm o; ob_vals := ob_vals o; ob_upd := ob_upd o; ob_calls := S (ob_calls o) |}.

Definition attr_eqb (a b : attr) : bool :=
  match a, b with
  | AName, AName | ADescription, ADescription | AActive, AActive | AOther, AOther => true
  | _, _ => false
  end.
Definition set_attr (a : attr) (v : Z) (nd : node) : node :=
  {| n_kind := n_kind nd; n_mirrored := n_mirrored nd; n_objs := n_objs nd;
     n_attr := fun b => if attr_eqb b a then v else n_attr nd b; n_lock := n_lock nd;
     n_mode := n_mode nd; n_conn := n_conn nd; n_src := n_src nd; n_rec := n_rec nd; n_disc := n_disc nd |}.
Definition set_lock (l : option user) (nd : node) : node :=
  {| n_kind := n_kind nd; n_mirrored := n_mirrored nd; n_objs := n_objs nd;
     n_attr := n_attr nd; n_lock := l; n_mode := n_mode nd; n_conn := n_conn nd; n_src := n_src nd;
     n_rec := n_rec nd; n_disc := n_disc nd |}.
Definition set_mode (m : Z) (nd : node) : node :=
  {| n_kind := n_kind nd; n_mirrored := n_mirrored nd; n_objs := n_objs nd;
     n_attr := n_attr nd; n_lock := n_lock nd; n_mode := m; n_conn := n_conn nd; n_src := n_src nd;
     n_rec := n_rec nd; n_disc := n_disc nd |}.
Definition set_conn (s : option (option path)) (nd : node) : node :=
  {| n_kind := n_kind nd; n_mirrored := n_mirrored nd; n_objs := n_objs nd;
     n_attr := n_attr nd; n_lock := n_lock nd; n_mode := n_mode nd; n_conn := s; n_src := n_src nd;
     n_rec := n_rec nd; n_disc := n_disc nd |}.
Definition set_src (s : Z) (nd : node) : node :=
  {| n_kind := n_kind nd; n_mirrored := n_mirrored nd; n_objs := n_objs nd;
     n_attr := n_attr nd; n_lock := n_lock nd; n_mode := n_mode nd; n_conn := n_conn nd; n_src := s;
     n_rec := n_rec nd; n_disc := n_disc nd |}.
Definition set_rec (b : bool) (nd : node) : node :=
  {| n_kind := n_kind nd; n_mirrored := n_mirrored nd; n_objs := n_objs nd;
     n_attr := n_attr nd; n_lock := n_lock nd; n_mode := n_mode nd; n_conn := n_conn nd; n_src := n_src nd;
     n_rec := b; n_disc := n_disc nd |}.
Definition set_disc (b : bool) (nd : node) : node :=
  {| n_kind := n_kind nd; n_mirrored := n_mirrored nd; n_objs := n_objs nd;
     n_attr := n_attr nd; n_lock := n_lock nd; n_mode := n_mode nd; n_conn := n_conn nd; n_src := n_src nd;
     n_rec := n_rec nd; n_disc := b |}.

(** What EndUpdate with "Props" and Update carry: values for properties. *)
Record write := { w_rel : path; w_name : pname; w_val : option Z }.

Definition apply_write (p : path) (st : state) (w : write) : state :=
  upd st (p ++ w_rel w) (set_obj (q_info (w_name w)) (q_sub (w_name w)) (with_val (q_name (w_name w)) (w_val w))).

(** The calls of the dispatch table. *)
Inductive rpc :=
(* config_server_component.h *)
| RSet (prot : bool) (q : pname) (v : Z)   (* SetPropertyValue, SetProtectedPropertyValue, SetPropertySelectionValue *)
| RClear (prot : bool) (q : pname)         (* ClearPropertyValue, ClearProtectedPropertyValue *)
| RGet (q : pname)                         (* GetPropertyValue, GetSuggestedValues, GetSelectionValues *)
| RCall (q : pname) (callable const : bool)  (* CallProperty *)
| RClearAll (s : path)                     (* ClearPropertyValues; [s]: "Path" *)
| RBegin (s : path) | REnd (s : path) (l : list write)
| RAttr (a : attr) (v : Z)
| RUpdate (l : list write)
| RAddBlock (id : nat) | RRemoveBlock (id : nat)
| RRead                                    (* GetComponent and all calls that only require Read *)
(* config_server_device.h *)
| RReadDevice
| RLock | RUnlock | RForceUnlock
| RAddDevice (id : nat) | RRemoveDevice (id : nat)
| RMode (m : Z) | RModeRecursive (m : Z)
(* config_server_input_port.h and config_protocol_server.cpp *)
| RConnect (s : path) | RConnectExternal (id : nat) (fails : bool) | RSource (s : Z)
| RDisconnect | RAccepts (s : path)
| RRemoveExternal (ids : list nat)
(* config_server_recorder.h, config_server_server.h *)
| RRecord (b : bool) | RDiscovery (b : bool)
| RUnknown.

Definition kind_eqb (a b : kind) : bool :=
  match a, b with
  | KDevice, KDevice | KBlock, KBlock | KSignal, KSignal | KPort, KPort
  | KRecorder, KRecorder | KServer, KServer | KOther, KOther => true
  | _, _ => false
  end.

(** The interface the handler is registered for (addHandler, 138-200). *)
Definition target_kind (r : rpc) : option kind :=
  match r with
  | RReadDevice | RLock | RUnlock | RForceUnlock | RAddDevice _ | RRemoveDevice _ | RMode _ | RModeRecursive _ => Some KDevice
  | RConnect _ | RConnectExternal _ _ | RSource _ | RDisconnect | RAccepts _ => Some KPort
  | RRecord _ => Some KRecorder
  | RDiscovery _ => Some KServer
  | _ => None
  end.

Definition with_nodes (st : state) (l : list (path * node)) : state := {| s_nodes := l; s_ext := s_ext st |}.
Definition with_ext (st : state) (l : list (nat * nat)) : state := {| s_nodes := s_nodes st; s_ext := l |}.

(** A new component takes the permissions of the one it is added to. *)
Definition new_node (k : kind) (self : obj) : node :=
  {| n_kind := k; n_mirrored := false;
     n_objs := fun i s => match i, s with
                          | false, [] => Some {| ob_perm := ob_perm self; ob_vals := fun _ => None; ob_upd := 0; ob_calls := 0 |}
                          | _, _ => None
                          end;
     n_attr := fun _ => 0%Z; n_lock := None; n_mode := 0; n_conn := None; n_src := 0; n_rec := false; n_disc := false |}.

Definition devices_under (st : state) (p : path) : list (path * node) :=
  filter (fun x => under p (fst x) && kind_eqb (n_kind (snd x)) KDevice) (s_nodes st).

Definition held_by_other (u : user) (x : path * node) : bool :=
  match n_lock (snd x) with Some h => negb (Nat.eqb h u) | None => false end.

(** The direct sub-devices of a device: devices one local id further down. *)
Definition sub_devices (st : state) (p : path) : list path :=
  map fst (filter (fun x => kind_eqb (n_kind (snd x)) KDevice && path_eqb (removelast (fst x)) p &&
                            negb (path_eqb (fst x) [])) (s_nodes st)).

(** ConfigServerDevice::setOperationModeRecursive (config_server_device.h:289-
    313). The devices below a mirrored device are set without a check. *)
Definition set_mode_below (st : state) (p : path) (m : Z) : state :=
  with_nodes st (map (fun x => if under p (fst x) && kind_eqb (n_kind (snd x)) KDevice
                               then (fst x, set_mode m (snd x)) else x) (s_nodes st)).

Section Each.
Variable one : state -> path -> state * out.
Fixpoint mode_each (m : Z) (st : state) (l : list path) : state * out :=
  match l with
  | [] => (st, OOk)
  | q :: l =>
      let mirrored := match lookup st q with Some d => n_mirrored d | None => false end in
      if mirrored then mode_each m (set_mode_below st q m) l
      else match one st q with
           | (st1, OErr e) => (st1, OErr e)
           | (st1, _) => mode_each m st1 l
           end
  end.
End Each.

Fixpoint mode_rec (n : nat) (u : user) (m : Z) (st : state) (p : path) : state * out :=
  match n with
  | O => (st, OErr EState)
  | S n =>
      match lookup st p with
      | None => (st, OErr ENotFound)
      | Some nd =>
          match n_objs nd false [] with
          | None => (st, OErr ENotFound)
          | Some self =>
              if may self u [Write]
              then mode_each (mode_rec n u m) m (upd st p (set_mode m)) (sub_devices st p)
              else (st, OErr EDenied)
          end
      end
  end.

(** A handler, after the component was found and has the interface. The order
    of the checks is the order in the source. *)
Definition handle (c : client) (ok : bool) (st : state) (p : path) (nd : node) (self : obj) (r : rpc) : state * out :=
  let u := c_user c in
  (* protectLockedComponent; protectObject {Read, Write}; protectViewOnlyConnection *)
  let guarded (k : state * out) :=
    if locked st p then (st, OErr ELocked)
    else if negb (may self u [Read; Write]) then (st, OErr EDenied)
    else if view_only c then (st, OErr EDenied)
    else k in
  (* protectViewOnlyConnection; protectLockedComponent; protectObject {Read, Write} *)
  let guarded' (k : state * out) :=
    if view_only c then (st, OErr EDenied)
    else if locked st p then (st, OErr ELocked)
    else if negb (may self u [Read; Write]) then (st, OErr EDenied)
    else k in
  let when_ok (k : state) : state * out := if ok then (k, OOk) else (st, OErr EObject) in
  match r with
  | RSet _ q v =>
      if locked st p then (st, OErr ELocked)
      else if view_only c then (st, OErr EDenied)
      else match prop_parent nd q with
           | inl e => (st, OErr e)
           | inr o => if may o u [Read; Write]
                      then when_ok (upd st p (set_obj (q_info q) (q_sub q) (with_val (q_name q) (Some v))))
                      else (st, OErr EDenied)
           end
  | RClear _ q =>
      if locked st p then (st, OErr ELocked)
      else if view_only c then (st, OErr EDenied)
      else match prop_parent nd q with
           | inl e => (st, OErr e)
           | inr o => if may o u [Read; Write]
                      then when_ok (upd st p (set_obj (q_info q) (q_sub q) (with_val (q_name q) None)))
                      else (st, OErr EDenied)
           end
  | RGet q =>
      match prop_parent nd q with
      | inl e => (st, OErr e)
      | inr o => if may o u [Read] then (st, if ok then OVal else OErr EObject) else (st, OErr EDenied)
      end
  | RCall q callable const =>
      match prop_parent nd q with
      | inl e => (st, OErr e)
      | inr o =>
          if negb (may o u [Read; Execute]) then (st, OErr EDenied)
          else if negb callable then (st, OErr EInvalid)
          else if negb const && q_info q then (st, OErr EInterface)   (* the device info is not a component *)
          else if negb const && locked st p then (st, OErr ELocked)
          else if negb const && view_only c then (st, OErr EDenied)
          else if ok then ((if const then st else upd st p (set_obj (q_info q) (q_sub q) called)), OVal)
          else (st, OErr EObject)
      end
  | RClearAll s =>
      guarded (match n_objs nd false s with
               | None => (st, OErr ENotFound)
               | Some _ => when_ok (upd st p (set_obj false s no_vals))
               end)
  | RBegin s =>
      guarded (match n_objs nd false s with
               | None => (st, OErr ENotFound)
               | Some o => when_ok (upd st p (set_obj false s (with_upd (S (ob_upd o)))))
               end)
  | REnd s l =>
      guarded (match n_objs nd false s with
               | None => (st, OErr ENotFound)
               | Some o =>
                   (* applyProps (376-392), then endUpdate *)
                   let st1 := fold_left (fun st w =>
                     upd st p (set_obj false (s ++ q_sub (w_name w)) (with_val (q_name (w_name w)) (w_val w)))) l st in
                   if ok then
                     match ob_upd o with
                     | O => (st1, OErr EState)
                     | S k => (upd st1 p (set_obj false s (with_upd k)), OOk)
                     end
                   else (st1, OErr EObject)
               end)
  | RAttr a v =>
      guarded (match a with
               | AOther => (st, OErr EInvalid)
               | _ => when_ok (upd st p (set_attr a v))
               end)
  | RUpdate l => guarded (when_ok (fold_left (apply_write p) l st))
  | RAddBlock id =>
      guarded (match n_kind nd with
               | KDevice | KBlock =>
                   match lookup st (p ++ [id]) with
                   | Some _ => (st, OErr EState)
                   | None => when_ok (with_nodes st (s_nodes st ++ [(p ++ [id], new_node KBlock self)]))
                   end
               | _ => (st, OErr EState)
               end)
  | RRemoveBlock id =>
      guarded (match n_kind nd with
               | KDevice | KBlock =>
                   match lookup st (p ++ [id]) with
                   | Some d => match n_kind d with
                               | KBlock => when_ok (with_nodes st (filter (fun x => negb (under (p ++ [id]) (fst x))) (s_nodes st)))
                               | _ => (st, OErr ENotFound)
                               end
                   | None => (st, OErr ENotFound)
                   end
               | _ => (st, OErr EState)
               end)
  | RRead | RReadDevice =>
      if may self u [Read] then (st, if ok then OVal else OErr EObject) else (st, OErr EDenied)
  | RLock =>
      if negb (may self u [Read; Write]) then (st, OErr EDenied)
      else if view_only c then (st, OErr EDenied)
      else if existsb (held_by_other u) (devices_under st p) then (st, OErr ELocked)
      else (with_nodes st (map (fun x => if under p (fst x) && kind_eqb (n_kind (snd x)) KDevice
                                         then (fst x, set_lock (Some u) (snd x)) else x) (s_nodes st)), OOk)
  | RUnlock =>
      if negb (may self u [Read; Write]) then (st, OErr EDenied)
      else if view_only c then (st, OErr EDenied)
      else if existsb (held_by_other u) (devices_under st p) then (st, OErr EDenied)
      else if negb (path_eqb p []) && locked st (removelast p) then (st, OErr ELocked)
      else (with_nodes st (map (fun x => if under p (fst x) && kind_eqb (n_kind (snd x)) KDevice
                                         then (fst x, set_lock None (snd x)) else x) (s_nodes st)), OOk)
  | RForceUnlock =>
      if negb (may self u [Read; Write]) then (st, OErr EDenied)
      else if view_only c then (st, OErr EDenied)
      else if negb (path_eqb p []) && locked st (removelast p) then (st, OErr ELocked)
      else (with_nodes st (map (fun x => if under p (fst x) && kind_eqb (n_kind (snd x)) KDevice
                                         then (fst x, set_lock None (snd x)) else x) (s_nodes st)), OOk)
  | RAddDevice id =>
      guarded (match lookup st (p ++ [id]) with
               | Some _ => (st, OErr EState)
               | None => when_ok (with_nodes st (s_nodes st ++ [(p ++ [id], new_node KDevice self)]))
               end)
  | RRemoveDevice id =>
      guarded (match lookup st (p ++ [id]) with
               | Some d => match n_kind d with
                           | KDevice => when_ok (with_nodes st (filter (fun x => negb (under (p ++ [id]) (fst x))) (s_nodes st)))
                           | _ => (st, OErr ENotFound)
                           end
               | None => (st, OErr ENotFound)
               end)
  | RMode m => if may self u [Write] then (upd st p (set_mode m), OOk) else (st, OErr EDenied)
  | RModeRecursive m => mode_rec (S (length (s_nodes st))) u m st p
  | RConnect s =>
      match lookup st s with
      | None => (st, OErr ENotFound)
      | Some sg =>
          match n_kind sg with
          | KSignal =>
              guarded' (match n_objs sg false [] with
                        | None => (st, OErr ENotFound)
                        | Some so => if may so u [Read] then when_ok (upd st p (set_conn (Some (Some s))))
                                     else (st, OErr EDenied)
                        end)
          | _ => (st, OErr EInterface)
          end
      end
  | RConnectExternal id fails =>
      (* access; getOrAddExternalSignal; connect *)
      guarded' (let st1 := with_ext st ((c_session c, id) :: s_ext st) in
                if fails then (st1, OErr EObject)
                else (upd st1 p (set_conn (Some None)), OOk))
  | RSource s =>
      match n_conn nd with
      | Some None => (upd st p (set_src s), OOk)
      | _ => (st, OOk)
      end
  | RDisconnect => guarded (when_ok (upd st p (set_conn None)))
  | RAccepts s =>
      match lookup st s with
      | None => (st, OErr ENotFound)
      | Some sg =>
          match n_kind sg, n_objs sg false [] with
          | KSignal, Some so =>
              if negb (may self u [Read]) then (st, OErr EDenied)
              else if may so u [Read] then (st, OVal) else (st, OErr EDenied)
          | _, _ => (st, OErr EInterface)
          end
      end
  | RRemoveExternal _ => (st, OErr EInvalid)
  | RRecord b => guarded' (when_ok (upd st p (set_rec b)))
  | RDiscovery b => guarded' (when_ok (upd st p (set_disc b)))
  | RUnknown => (st, OErr EInvalid)
  end.

(** callRpc (390-402), addHandler (114-134) and removeExternalSignals
    (537-544), which has no target component. *)
Definition call (c : client) (ok : bool) (st : state) (p : path) (r : rpc) : state * out :=
  match r with
  | RUnknown => (st, OErr EInvalid)
  | RRemoveExternal ids =>
      if locked st [] then (st, OErr ELocked)
      else if view_only c then (st, OErr EDenied)
      else (with_ext st (filter (fun x => negb (Nat.eqb (fst x) (c_session c) && existsb (Nat.eqb (snd x)) ids)) (s_ext st)), OOk)
  | _ =>
      match lookup st p with
      | None => (st, OErr ENotFound)
      | Some nd =>
          match n_objs nd false [] with
          | None => (st, OErr ENotFound)
          | Some self =>
              if match target_kind r with Some k => kind_eqb (n_kind nd) k | None => true end
              then handle c ok st p nd self r
              else (st, OErr EInterface)
          end
      end
  end.

Record request := { r_client : client; r_ok : bool; r_path : path; r_rpc : rpc }.

Definition step (st : state) (x : request) : state * out :=
  call (r_client x) (r_ok x) st (r_path x) (r_rpc x).

Definition after (st : state) (h : list request) : state := fold_left (fun st x => fst (step st x)) h st.
