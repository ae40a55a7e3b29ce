(** * The client's mirror of a device's component tree

    A device raises core events when its components change; the configuration
    server packs them and sends them to the client; the client applies them to
    its own copy of the component tree. *)

From Coq Require Import List Arith Bool.
Import ListNotations.

(** A component is named by the local ids on the way from the root device. *)
Definition path := list nat.

(** What [component_impl.h] serializes of a component
    (core/opendaq/component/include/opendaq/component_impl.h, 1269-1318), one
    key each.  [AKind] stands for the component's class and, for a function
    block, its type; [APublic] exists for signals and input ports only.
    Properties, connections, domain signals and descriptors are left out. *)
Inductive attr : Type :=
| AName | ADesc | AVisible | AActive | ATags | AKind | APublic
| AStatus (s : nat).

Definition attr_eq_dec : forall a b : attr, {a = b} + {a <> b}.
Proof. decide equality; apply Nat.eq_dec. Defined.

(** The values are opaque numbers; a flag is 0 or 1, the empty name is 0, and
    the text of the local id [i] is the name [S i]. *)
Definition node := attr -> option nat.

Definition set_attr (n : node) (k : attr) (v : nat) : node :=
  fun k' => if attr_eq_dec k' k then Some v else n k'.

(** Only signals and input ports can be private. *)
Definition is_private (n : node) : bool :=
  match n APublic with Some 0 => true | _ => false end.

(** A component with its subtree, as built by a module before it is added to
    a folder (folder_impl.h, addItem). *)
Inductive comp : Type :=
| Comp (n : node) (kids : list (nat * comp)).

Definition comp_node (c : comp) : node := match c with Comp n _ => n end.
Definition comp_kids (c : comp) : list (nat * comp) :=
  match c with Comp _ ks => ks end.

Fixpoint kid (i : nat) (ks : list (nat * comp)) : option comp :=
  match ks with
  | [] => None
  | (j, c) :: r => if Nat.eqb i j then Some c else kid i r
  end.

Fixpoint comp_at (c : comp) (r : path) : option node :=
  match r with
  | [] => Some (comp_node c)
  | i :: r' => match kid i (comp_kids c) with
               | Some c' => comp_at c' r'
               | None => None
               end
  end.

(** The device's tree: at each path the component there.  The number beside it
    identifies the object, so that a component replaced by another one under
    the same local id can be told apart. *)
Definition tree := path -> option (nat * node).

(** The client's tree. *)
Definition mirror := path -> option node.

(** [below p q]: what is left of [q] under [p]. *)
Fixpoint below (p q : path) : option path :=
  match p, q with
  | [], _ => Some q
  | _ :: _, [] => None
  | i :: p', j :: q' => if Nat.eqb i j then below p' q' else None
  end.

Definition path_eqb (p q : path) : bool :=
  if list_eq_dec Nat.eq_dec p q then true else false.

(** ** The device *)

(** Core events waiting to be sent
    (shared/libraries/config_protocol/src/config_protocol_server.cpp, 590-641,
    packCoreEvent).  An attribute or status event carries its value; a tags
    event and a component-added event carry a reference to the object, whose
    content is read when the notification is serialized (643-681 and 738-750);
    an update-end event carries the state serialized at once (683-693). *)
Inductive event : Type :=
| EAttr (p : path) (k : attr) (v : nat)
| ETags (p : path) (o : nat)
| EStat (p : path) (s : nat) (v : nat)
| EAdded (p : path) (o : nat)
| ERemoved (p : path)
| EUpdate (p : path) (t : tree).

Record srv : Type := mkSrv { s_tree : tree; s_next : nat }.

Inductive setter : Type := SName | SDesc | SVisible | SActive | SPublic.

Definition setter_attr (s : setter) : attr :=
  match s with
  | SName => AName | SDesc => ADesc | SVisible => AVisible
  | SActive => AActive | SPublic => APublic
  end.

(** What can be done on the device.  [OUpdate p c keep] is loading a
    configuration into the component at [p]: its subtree becomes [c]; the
    objects at the relative paths in [keep] stay, all others are new. *)
Inductive op : Type :=
| OSet (p : path) (s : setter) (v : nat)
| OTags (p : path) (v : nat)
| OStatus (p : path) (s v : nat)
| OAddStatus (p : path) (s v : nat)
| OAdd (p : path) (i : nat) (c : comp)
| ORemove (p : path) (i : nat)
| OUpdate (p : path) (c : comp) (keep : path -> bool).

Definition put_node (t : tree) (p : path) (o : nat) (n : node) : tree :=
  fun q => if path_eqb q p then Some (o, n) else t q.

(** component_impl.h 526-563 (setName), 577-614 (setDescription), 638-673
    (setVisible), 350-407 (setActive: the [LocalActive] event; the [Active]
    event is not forwarded from protocol version 24 on), and
    core/opendaq/signal/include/opendaq/signal_impl.h 237-270 (setPublic,
    which raises its event also when nothing changes).  Locked attributes and
    frozen components are left out. *)
Definition op_set (s : srv) (p : path) (a : setter) (v : nat)
  : srv * list event :=
  match s_tree s p with
  | None => (s, [])
  | Some (o, n) =>
      match a, n (setter_attr a) with
      | SPublic, None => (s, [])
      | SPublic, Some _ =>
          (mkSrv (put_node (s_tree s) p o (set_attr n APublic v)) (s_next s),
           [EAttr p APublic v])
      | _, Some w =>
          if Nat.eqb v w then (s, [])
          else (mkSrv (put_node (s_tree s) p o
                         (set_attr n (setter_attr a) v)) (s_next s),
                [EAttr p (setter_attr a) v])
      | _, None => (s, [])
      end
  end.

(** core/opendaq/component/include/opendaq/tags_impl.h, 88-150: the event
    carries the tags object itself. *)
Definition op_tags (s : srv) (p : path) (v : nat) : srv * list event :=
  match s_tree s p with
  | None => (s, [])
  | Some (o, n) =>
      (mkSrv (put_node (s_tree s) p o (set_attr n ATags v)) (s_next s),
       [ETags p o])
  end.

(** component_status_container_impl.h, setStatusWithMessage: the status must
    exist; nothing is raised when it does not change. *)
Definition op_status (s : srv) (p : path) (k v : nat) : srv * list event :=
  match s_tree s p with
  | None => (s, [])
  | Some (o, n) =>
      match n (AStatus k) with
      | None => (s, [])
      | Some w =>
          if Nat.eqb v w then (s, [])
          else (mkSrv (put_node (s_tree s) p o (set_attr n (AStatus k) v))
                      (s_next s), [EStat p k v])
      end
  end.

(** component_status_container_impl.h, addStatusWithMessage: no event. *)
Definition op_add_status (s : srv) (p : path) (k v : nat)
  : srv * list event :=
  match s_tree s p with
  | None => (s, [])
  | Some (o, n) =>
      match n (AStatus k) with
      | Some _ => (s, [])
      | None =>
          (mkSrv (put_node (s_tree s) p o (set_attr n (AStatus k) v))
                 (s_next s), [])
      end
  end.

Definition graft (t : tree) (a : path) (o : nat) (c : comp) : tree :=
  fun q => match below a q with
           | Some r => match comp_at c r with
                       | Some n => Some (o, n)
                       | None => None
                       end
           | None => t q
           end.

Definition prune (t : tree) (a : path) : tree :=
  fun q => match below a q with Some _ => None | None => t q end.

(** core/opendaq/component/include/opendaq/folder_impl.h, 225-258 (addItem;
    the local id must be free). *)
Definition op_add (s : srv) (p : path) (i : nat) (c : comp)
  : srv * list event :=
  match s_tree s p, s_tree s (p ++ [i]) with
  | Some _, None =>
      (mkSrv (graft (s_tree s) (p ++ [i]) (s_next s) c) (S (s_next s)),
       [EAdded (p ++ [i]) (s_next s)])
  | _, _ => (s, [])
  end.

(** folder_impl.h, 262-330 (removeItem, removeItemWithLocalId). *)
Definition op_remove (s : srv) (p : path) (i : nat) : srv * list event :=
  match s_tree s (p ++ [i]) with
  | Some _ => (mkSrv (prune (s_tree s) (p ++ [i])) (s_next s),
               [ERemoved (p ++ [i])])
  | None => (s, [])
  end.

(** component_impl.h, updateObject: a component that stays takes over its
    name, description, visibility and active flag. *)
Definition load_node (old new : node) : node :=
  fun k => match k with
           | AName | ADesc | AVisible | AActive => new k
           | _ => old k
           end.

Definition load_tree (t : tree) (p : path) (o : nat) (c : comp)
           (keep : path -> bool) : tree :=
  fun q => match below p q with
           | None => t q
           | Some r =>
               match comp_at c r with
               | None => None
               | Some n =>
                   match t q with
                   | Some (o', old) =>
                       if match r with [] => true | _ => keep r end
                       then Some (o', load_node old n)
                       else Some (o, n)
                   | None => Some (o, n)
                   end
               end
           end.

(** component_impl.h, 981-1024 (update: events are muted and one update-end
    event is raised), and
    core/opendaq/signal/include/opendaq/signal_container_impl.h, 640-690 and
    816-860: the dynamic function blocks are removed and added again under
    the same local ids. *)
Definition op_update (s : srv) (p : path) (c : comp) (keep : path -> bool)
  : srv * list event :=
  match s_tree s p with
  | None => (s, [])
  | Some _ =>
      let t := load_tree (s_tree s) p (s_next s) c keep in
      (mkSrv t (S (s_next s)), [EUpdate p t])
  end.

Definition op_step (s : srv) (o : op) : srv * list event :=
  match o with
  | OSet p a v => op_set s p a v
  | OTags p v => op_tags s p v
  | OStatus p k v => op_status s p k v
  | OAddStatus p k v => op_add_status s p k v
  | OAdd p i c => op_add s p i c
  | ORemove p i => op_remove s p i
  | OUpdate p c keep => op_update s p c keep
  end.

Fixpoint op_run (s : srv) (os : list op) : srv * list event :=
  match os with
  | [] => (s, [])
  | o :: r => let (s1, e1) := op_step s o in
              let (s2, e2) := op_run s1 r in
              (s2, e1 ++ e2)
  end.

(** ** The client *)

(** component_impl.h, 1391-1429 (deserializeCustomObjectValues) and the
    constructor: a component serialized without a name is called by its local
    id (1269-1318: the empty name is not written). *)
Definition new_node (q : path) (n : node) : node :=
  fun k => match k with
           | AName => match n AName with
                      | Some 0 => Some (S (last q 0))
                      | x => x
                      end
           | _ => n k
           end.

(** shared/libraries/config_protocol/include/config_protocol/
    config_client_folder_impl.h, 145-172: a deserialized folder drops its
    private signals and input ports. *)
Fixpoint public_below (t : mirror) (pre r : path) : bool :=
  match r with
  | [] => true
  | i :: r' => match t (pre ++ [i]) with
               | None => false
               | Some n => negb (is_private n)
                           && public_below t (pre ++ [i]) r'
               end
  end.

(** A component and its subtree, deserialized under the path [a]. *)
Definition fresh_at (t : mirror) (a q : path) : option node :=
  match below a q with
  | None => None
  | Some r =>
      match t a, t q with
      | Some _, Some n =>
          if public_below t a r then Some (new_node q n) else None
      | _, _ => None
      end
  end.

Definition nodes (t : tree) : mirror :=
  fun q => match t q with Some (_, n) => Some n | None => None end.

(** config_client_component_impl.h, 347-395 (attributeChanged) and
    config_client_signal_impl.h, 211-231: [Public] is not handled. *)
Definition cl_attr (c : mirror) (p : path) (k : attr) (v : nat) : mirror :=
  match c p with
  | None => c
  | Some m =>
      match k with
      | AName | ADesc | AVisible | AActive =>
          fun q => if path_eqb q p then Some (set_attr m k v) else c q
      | _ => c
      end
  end.

(** config_client_component_impl.h, tagsChanged: the tags are replaced. *)
Definition cl_tags (c : mirror) (p : path) (v : option nat) : mirror :=
  match c p with
  | Some m =>
      fun q => if path_eqb q p
               then Some (fun k => if attr_eq_dec k ATags then v else m k)
               else c q
  | None => c
  end.

(** config_client_component_impl.h, statusChanged: a status the client does
    not know is an error, and nothing is changed. *)
Definition cl_status (c : mirror) (p : path) (k v : nat) : mirror :=
  match c p with
  | None => c
  | Some m =>
      match m (AStatus k) with
      | None => c
      | Some _ =>
          fun q => if path_eqb q p then Some (set_attr m (AStatus k) v)
                   else c q
      end
  end.

(** config_client_folder_impl.h, 209-221, and config_client_device_impl.h,
    componentAdded: added unless an item with that local id is there; the
    parent must be known (config_protocol_client.h, 517-560). *)
Definition cl_added (c : mirror) (a : path) (content : mirror) : mirror :=
  match c (removelast a), c a with
  | Some _, None =>
      fun q => match below a q with
               | Some _ => fresh_at content a q
               | None => c q
               end
  | _, _ => c
  end.

(** config_client_folder_impl.h, 223-231. *)
Definition cl_removed (c : mirror) (a : path) : mirror :=
  fun q => match below a q with Some _ => None | None => c q end.

(** config_client_component_impl.h, 277-314 (onRemoteUpdate) with
    remoteUpdateStatuses (249-275): name, description, visibility and active
    flag are taken over, statuses are set or added. *)
Definition merge_node (old new : node) : node :=
  fun k => match k with
           | AName | ADesc | AVisible | AActive => new k
           | AStatus _ => match new k with Some v => Some v | None => old k end
           | _ => old k
           end.

(** Which components the client has after the update: those it had, and those
    deserialized anew, where only the folders deserialized drop their private
    items (config_client_folder_impl.h, 233-297). *)
Fixpoint update_shown (c t : mirror) (pre r : path) : bool :=
  match r with
  | [] => true
  | i :: r' =>
      match t (pre ++ [i]) with
      | None => false
      | Some _ =>
          match c (pre ++ [i]) with
          | Some _ => update_shown c t (pre ++ [i]) r'
          | None => public_below t (pre ++ [i]) r'
          end
      end
  end.

(** config_client_component_impl.h, 316-345 (componentUpdateEnd),
    config_client_folder_impl.h 233-297 and config_client_device_impl.h
    486-566 (onRemoteUpdate). *)
Definition cl_update (c : mirror) (p : path) (t : mirror) : mirror :=
  match c p with
  | None => c
  | Some _ =>
      fun q => match below p q with
               | None => c q
               | Some r =>
                   match t q with
                   | None => None
                   | Some n =>
                       if update_shown c t p r
                       then match c q with
                            | Some m => Some (merge_node m n)
                            | None => Some (new_node q n)
                            end
                       else None
                   end
               end
  end.

(** The content of the object [o] at [p] when the notification is serialized:
    what is in the device's tree, or, when the object has been removed
    meanwhile, [gone o]. *)
Definition content (t : tree) (gone : nat -> mirror) (p : path) (o : nat)
  : mirror :=
  match t p with
  | Some (o', _) => if Nat.eqb o' o then nodes t else gone o
  | None => gone o
  end.

Definition cl_event (t : tree) (gone : nat -> mirror) (c : mirror)
           (e : event) : mirror :=
  match e with
  | EAttr p k v => cl_attr c p k v
  | ETags p o =>
      cl_tags c p (match content t gone p o p with
                   | Some n => n ATags
                   | None => None
                   end)
  | EStat p k v => cl_status c p k v
  | EAdded a o => cl_added c a (content t gone a o)
  | ERemoved a => cl_removed c a
  | EUpdate p u => cl_update c p (nodes u)
  end.

(** config_protocol_client.h, 537-570 (triggerNotificationObject): the events
    of one notification, in order. *)
Definition cl_events (t : tree) (gone : nat -> mirror) (c : mirror)
           (es : list event) : mirror :=
  fold_left (cl_event t gone) es c.

(** config_protocol_client.h, 463-480 (connect): the root device is
    deserialized. *)
Definition cl_connect (t : tree) : mirror :=
  fun q => fresh_at (nodes t) [] q.

(** ** Both together *)

Record world : Type := mkWorld
  { w_srv : srv;
    w_cl : option mirror;
    w_accept : bool;
    w_snap : option tree }.

(** [HBatch os]: the operations [os] on the device whose events are sent in
    one notification: one operation, or all those of one remote call
    (config_protocol_server.cpp, 558-567 and 752-762).
    [HFetch]: the client fetches the root device;
    [HAccept]: it starts to accept notifications
    (modules/native_streaming_client_module/src/native_device_impl.cpp,
    57-64); [HLost]: the connection is lost (142-155);
    [HRefetch] and [HReapply]: reconnection (157-196 and
    config_protocol_client.h, 422-458): notifications are accepted, the device
    is serialized, and the client then updates itself from what it got. *)
Inductive hist : Type :=
| HBatch (os : list op)
| HFetch
| HAccept
| HLost
| HRefetch
| HReapply.

Definition deliver (w : world) (t : tree) (gone : nat -> mirror)
           (es : list event) : option mirror :=
  match w_cl w with
  | None => None
  | Some c => if w_accept w then Some (cl_events t gone c es) else Some c
  end.

Definition w_step (gone : nat -> mirror) (w : world) (h : hist) : world :=
  match h with
  | HBatch os =>
      let (s, es) := op_run (w_srv w) os in
      mkWorld s (deliver w (s_tree s) gone es) (w_accept w) (w_snap w)
  | HFetch =>
      mkWorld (w_srv w) (Some (cl_connect (s_tree (w_srv w)))) (w_accept w)
              (w_snap w)
  | HAccept => mkWorld (w_srv w) (w_cl w) true (w_snap w)
  | HLost => mkWorld (w_srv w) (w_cl w) false (w_snap w)
  | HRefetch =>
      mkWorld (w_srv w) (w_cl w) true (Some (s_tree (w_srv w)))
  | HReapply =>
      match w_cl w, w_snap w with
      | Some c, Some t =>
          mkWorld (w_srv w) (Some (cl_update c [] (nodes t))) (w_accept w) None
      | _, _ => w
      end
  end.

Definition w_run (gone : nat -> mirror) (w : world) (hs : list hist) : world :=
  fold_left (w_step gone) hs w.

(** ** Two threads that call setName at once

    component_impl.h, 526-563: the name is written under the lock; the event
    is built from the name and pushed to the notifications after the lock has
    been released.  [NWrite], [NRead] and [NPush] are these three parts of the
    call of one thread. *)
Record nstate : Type := mkN
  { n_name : nat; n_held : nat -> option nat; n_log : list nat }.

Inductive nstep : Type :=
| NWrite (thr v : nat) | NRead (thr : nat) | NPush (thr : nat).

Definition n_do (s : nstate) (e : nstep) : nstate :=
  match e with
  | NWrite _ v => mkN v (n_held s) (n_log s)
  | NRead t =>
      mkN (n_name s)
          (fun u => if Nat.eqb u t then Some (n_name s) else n_held s u)
          (n_log s)
  | NPush t =>
      match n_held s t with
      | Some v => mkN (n_name s)
                      (fun u => if Nat.eqb u t then None else n_held s u)
                      (n_log s ++ [v])
      | None => s
      end
  end.

Definition n_run (s : nstate) (es : list nstep) : nstate :=
  fold_left n_do es s.
