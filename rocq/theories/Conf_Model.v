(** Saving the configuration of a device and loading it again: the tree of
    components with its function blocks, and the connections of their input ports.

    core/opendaq/component/include/opendaq/component_impl.h (updateInternal, update)
    core/opendaq/component/include/opendaq/component_update_context_impl.h
    core/opendaq/component/include/opendaq/folder_impl.h
    core/opendaq/signal/include/opendaq/signal_container_impl.h
    core/opendaq/signal/include/opendaq/input_port_impl.h
    core/opendaq/functionblock/include/opendaq/function_block_impl.h
    core/opendaq/device/include/opendaq/device_impl.h *)
From Coq Require Import List Bool Arith.
Import ListNotations.

(** A local id. It stands for the folder (FB, IO, Dev) and the id in the folder:
    the folders of one component are one list of children here. *)
Definition id := nat.
(** A global id: the local ids from the root, which is the empty path. *)
Definition path := list id.
(** A signal: the component that owns it and its local id in that component. *)
Definition sig := (path * nat)%type.
(** The connected input ports of a function block: local id and signal, in the
    order in which they were connected. *)
Definition conns := list (nat * sig).

(** The components that are there: devices, channels and function blocks.
    Properties, names and the other attributes are left out. *)
Inductive node := Node (i : id) (ty : nat) (cn : conns) (subs : list node).
Definition nid (n : node) := let (i, _, _, _) := n in i.
Definition nty (n : node) := let (_, t, _, _) := n in t.
Definition ncn (n : node) := let (_, _, c, _) := n in c.
Definition nsubs (n : node) := let (_, _, _, s) := n in s.

(** The saved configuration of a component: its id and type, the input ports with
    the saved "signalId", the saved signals and the saved children. *)
Inductive cfg := Cfg (i : id) (ty : nat) (ports : list (nat * option sig)) (sigs : list nat) (subs : list cfg).

(** What the modules provide. *)
Record world := World {
  (** onGetAvailableFunctionBlockTypes: the types that a component of the first type can add *)
  w_avail : nat -> nat -> bool;
  (** onAddFunctionBlock with this type and local id succeeds in this component *)
  w_ok : path -> nat -> bool;
  (** the components whose update is guarded by a try-block (devices; device_impl.h 2077-2218) *)
  w_dev : nat -> bool;
  (** the input ports that a function block has while these are connected *)
  w_ports : nat -> conns -> list nat;
  (** the signals that a component has while these ports are connected *)
  w_sigs : nat -> conns -> list nat;
  (** whether connecting this signal to this port succeeds (input_port_impl.h 200-240,
      the function block's acceptsSignal and the cyclic reference check) *)
  w_takes : nat -> conns -> nat -> sig -> bool }.

Definition path_eqb (p q : path) : bool := if list_eq_dec Nat.eq_dec p q then true else false.
Definition sig_eqb (s r : sig) : bool := path_eqb (fst s) (fst r) && Nat.eqb (snd s) (snd r).

(** tsl::ordered_map: get, and set, which keeps the place of a key that is there. *)
Fixpoint aget {V} (k : nat) (l : list (nat * V)) : option V :=
  match l with
  | [] => None
  | (k', v) :: r => if Nat.eqb k' k then Some v else aget k r
  end.
Fixpoint aset {V} (k : nat) (v : V) (l : list (nat * V)) : list (nat * V) :=
  match l with
  | [] => [(k, v)]
  | (k', v') :: r => if Nat.eqb k' k then (k, v) :: r else (k', v') :: aset k v r
  end.
Fixpoint pget {V} (p : path) (l : list (path * V)) : option V :=
  match l with
  | [] => None
  | (p', v) :: r => if path_eqb p' p then Some v else pget p r
  end.
Fixpoint pset {V} (p : path) (v : V) (l : list (path * V)) : list (path * V) :=
  match l with
  | [] => [(p, v)]
  | (p', v') :: r => if path_eqb p' p then (p, v) :: r else (p', v') :: pset p v r
  end.
Definition pdel {V} (p : path) (l : list (path * V)) : list (path * V) :=
  filter (fun x => negb (path_eqb (fst x) p)) l.

(** findComponent: the component with a path below this one (see Tree_Model.v). *)
Fixpoint child (i : id) (l : list node) : option node :=
  match l with
  | [] => None
  | n :: r => if Nat.eqb (nid n) i then Some n else child i r
  end.
Fixpoint find (n : node) (p : path) : option node :=
  match p with
  | [] => Some n
  | i :: q => match child i (nsubs n) with Some k => find k q | None => None end
  end.

(** saveConfiguration: serializeForUpdate (component_impl.h 1273-1320, folder_impl.h
    477-500, signal_container_impl.h 643-649, input_port_impl.h 728-744). Every
    component, every input port with the id of its signal, every signal. *)
Fixpoint save (w : world) (n : node) : cfg :=
  match n with
  | Node i t c subs =>
      Cfg i t (map (fun p => (p, aget p c)) (w_ports w t c)) (w_sigs w t c) (map (save w) subs)
  end.

(** ComponentUpdateContextImpl: the connections by the path of the function block
    (the code uses the path of its "IP" folder), and the saved signals with the
    component they belong to (the component is the first half of the signal here). *)
Record ctx := Ctx { x_conns : list (path * conns); x_deps : list sig }.
(** setInputPortConnection (component_update_context_impl.h 154-177) *)
Definition set_conn (p : path) (port : nat) (s : sig) (x : ctx) : ctx :=
  let ports := match pget p (x_conns x) with Some c => c | None => [] end in
  Ctx (pset p (aset port s ports) (x_conns x)) (x_deps x).
(** setSignalDependency (247-254) *)
Definition set_dep (s : sig) (x : ctx) : ctx := Ctx (x_conns x) (s :: x_deps x).

(** FunctionBlockImpl::updateObject, the "IP" folder (function_block_impl.h 274-302)
    with GenericInputPortImpl::updateObject (input_port_impl.h 747-762): the
    connection is noted and the port itself is not touched. *)
Definition note_ports (p : path) (ports : list (nat * option sig)) (x : ctx) : ctx :=
  fold_left (fun x q => match snd q with Some s => set_conn p (fst q) s x | None => x end) ports x.
(** GenericSignalContainerImpl::updateSignal (signal_container_impl.h 863-871) *)
Definition note_sigs (p : path) (sigs : list nat) (x : ctx) : ctx :=
  fold_left (fun x s => set_dep (p, s) x) sigs x.

Fixpoint replace (n : node) (l : list node) : list node :=
  match l with
  | [] => []
  | k :: r => if Nat.eqb (nid k) (nid n) then n :: r else k :: replace n r
  end.

(** What an update has done so far: the children, the context, the paths of the
    function blocks that were removed, and whether no exception is on its way. *)
Record acc := Acc { a_subs : list node; a_ctx : ctx; a_gone : list path; a_ok : bool }.

(** GenericSignalContainerImpl::updateObject with updateFunctionBlock
    (signal_container_impl.h 652-700, 810-857), for a component [n] at path [p]:
    the function blocks whose type can be added are removed, then the saved
    children are created or, if their type cannot be added, updated when they are
    there and skipped when not. An exception leaves the loops.
    Simplified: one list of children, for devices in mode Load with all devices
    there (see CDev_Model.v for the others); a created function block has no
    children of its own. *)
Fixpoint upd (w : world) (p : path) (n : node) (c : cfg) (x : ctx) {struct c} : node * ctx * list path * bool :=
  match n, c with
  | Node i t cn subs, Cfg _ _ ports sigs csubs =>
      let gone := map (fun k => p ++ [nid k]) (filter (fun k => w_avail w t (nty k)) subs) in
      let keep := filter (fun k => negb (w_avail w t (nty k))) subs in
      let step a c' :=
        match c' with
        | Cfg ci ct _ _ _ =>
            if a_ok a then
              if w_avail w t ct then
                if match child ci (a_subs a) with Some _ => true | None => false end then
                  Acc (a_subs a) (a_ctx a) (a_gone a) false
                else if w_ok w (p ++ [ci]) ct then
                  let '(k, x', g, ok) := upd w (p ++ [ci]) (Node ci ct [] []) c' (a_ctx a) in
                  Acc (a_subs a ++ [k]) x' (a_gone a ++ g) ok
                else Acc (a_subs a) (a_ctx a) (a_gone a) false
              else
                match child ci (a_subs a) with
                | Some k =>
                    let '(k', x', g, ok) := upd w (p ++ [ci]) k c' (a_ctx a) in
                    Acc (replace k' (a_subs a)) x' (a_gone a ++ g) (ok || w_dev w (nty k))
                | None => a
                end
            else a
        end in
      let a := fold_left step csubs (Acc keep (note_ports p ports x) gone true) in
      (Node i t cn (a_subs a), if a_ok a then note_sigs p sigs (a_ctx a) else a_ctx a, a_gone a, a_ok a)
  end.

(** A removed signal is disconnected from all ports (signal_impl.h 1190-1209,
    clearConnections). Simplified: done for all removed function blocks when all
    updates are through; nothing looks at the ports meanwhile. *)
Definition prefix_of (r q : path) : bool := path_eqb (firstn (length r) q) r.
Definition was_removed (gone : list path) (s : sig) : bool := existsb (fun r => prefix_of r (fst s)) gone.
Fixpoint prune (gone : list path) (n : node) : node :=
  match n with
  | Node i t c subs => Node i t (filter (fun q => negb (was_removed gone (snd q))) c) (map (prune gone) subs)
  end.

(** The second half, updateEnded. The tree [t] stays as it is but for the connected
    ports, which are kept in [l_conns] where they differ from the tree. *)
Record live := Live { l_conns : list (path * conns); l_ctx : ctx }.
Definition conns_of (t : node) (st : live) (p : path) : conns :=
  match pget p (l_conns st) with
  | Some c => c
  | None => match find t p with Some n => ncn n | None => [] end
  end.
Definition exists_sig (w : world) (t : node) (st : live) (s : sig) : bool :=
  match find t (fst s) with
  | Some n => existsb (Nat.eqb (snd s)) (w_sigs w (nty n) (conns_of t st (fst s)))
  | None => false
  end.
(** IInputPort::connect by onUpdatableUpdateEnd: a failure is only logged
    (input_port_impl.h 776-789). *)
Definition connect (w : world) (t : node) (st : live) (ty : nat) (p : path) (port : nat) (s : sig) : live :=
  let c := conns_of t st p in
  if w_takes w ty c port s then Live (pset p (aset port s c) (l_conns st)) (l_ctx st) else st.

Section Ended.
(** [again] is updateEnded of another function block. *)
Variable again : live -> path -> option live.
Variables (w : world) (t : node).

(** getSignal with resolveSignalDependency (component_update_context_impl.h 202-245,
    291-334): if the component that owns the signal has connections of its own
    waiting, these are made first; then the signal is looked for. The signal is
    looked for below its owner and then from the root, which is the same. *)
Definition get_signal (st : live) (p : path) (port : nat) : option (live * option sig) :=
  match pget p (x_conns (l_ctx st)) with
  | None => Some (st, None)
  | Some c =>
      match aget port c with
      | None => Some (st, None)
      | Some s =>
          let waits := existsb (sig_eqb s) (x_deps (l_ctx st))
                       && match pget (fst s) (x_conns (l_ctx st)) with Some _ => true | None => false end
                       && match find t (fst s) with Some _ => true | None => false end in
          if waits then
            match again st (fst s) with
            | None => None
            | Some st' =>
                let st' := Live (l_conns st')
                  (Ctx (x_conns (l_ctx st')) (filter (fun r => negb (sig_eqb s r)) (x_deps (l_ctx st')))) in
                Some (st', if exists_sig w t st' s then Some s else None)
            end
          else Some (st, if exists_sig w t st s then Some s else None)
      end
  end.
(** GenericInputPortImpl::onUpdatableUpdateEnd (input_port_impl.h 765-791) *)
Definition port_ended (ty : nat) (st : live) (p : path) (port : nat) : option live :=
  match aget port (conns_of t st p) with
  | Some _ => Some st
  | None =>
      match get_signal st p port with
      | None => None
      | Some (st', None) => Some st'
      | Some (st', Some s) => Some (connect w t st' ty p port s)
      end
  end.
(** FunctionBlockImpl::onUpdatableUpdateEnd, the first loop (function_block_impl.h
    304-318). Simplified: it runs over the connections as they were before it. *)
Fixpoint loop1 (ty : nat) (p : path) (l : conns) (st : live) (un : conns) : option (live * conns) :=
  match l with
  | [] => Some (st, un)
  | (port, s) :: r =>
      if existsb (Nat.eqb port) (w_ports w ty (conns_of t st p)) then
        match port_ended ty st p port with
        | None => None
        | Some st' => loop1 ty p r st' un
        end
      else loop1 ty p r st (un ++ [(port, s)])
  end.
(** The second loop (320-337): a connection whose port is not there is made to the
    first port that is not connected; when there is none the loop ends. *)
Fixpoint loop2 (ty : nat) (p : path) (l : conns) (st : live) : option live :=
  match l with
  | [] => Some st
  | (_, s) :: r =>
      let c := conns_of t st p in
      match List.find (fun q => match aget q c with Some _ => false | None => true end) (w_ports w ty c) with
      | None => Some st
      | Some q =>
          match port_ended ty (Live (l_conns st) (set_conn p q s (l_ctx st))) p q with
          | None => None
          | Some st' => loop2 ty p r st'
          end
      end
  end.
Fixpoint all_ended (l : list path) (st : live) : option live :=
  match l with
  | [] => Some st
  | p :: r => match again st p with None => None | Some st' => all_ended r st' end
  end.
End Ended.

(** updateEnded of a component (function_block_impl.h 304-345, signal_container_impl.h
    703-711, folder_impl.h 562-574). [None]: the calls do not come to an end within
    [fuel] nested calls. For components without input ports the first part does
    nothing. The ports visited again through the "IP" folder have nothing waiting. *)
Fixpoint ended (w : world) (t : node) (fuel : nat) (st : live) (p : path) : option live :=
  match fuel with
  | 0 => None
  | S f =>
      match find t p with
      | None => Some st
      | Some n =>
          let l := match pget p (x_conns (l_ctx st)) with Some c => c | None => [] end in
          match loop1 (ended w t f) w t (nty n) p l st [] with
          | None => None
          | Some (st1, un) =>
              match loop2 (ended w t f) w t (nty n) p un st1 with
              | None => None
              | Some st2 =>
                  let st3 := Live (l_conns st2) (Ctx (pdel p (x_conns (l_ctx st2))) (x_deps (l_ctx st2))) in
                  all_ended (ended w t f) (map (fun k => p ++ [nid k]) (nsubs n)) st3
              end
          end
      end
  end.

(** The tree with the connections made meanwhile. *)
Fixpoint settle (l : list (path * conns)) (p : path) (n : node) : node :=
  match n with
  | Node i t c subs =>
      Node i t (match pget p l with Some c' => c' | None => c end) (map (fun k => settle l (p ++ [nid k]) k) subs)
  end.

(** What a call of loadConfiguration comes to. *)
Inductive result :=
| Loaded (t : node)   (** success *)
| Failed (t : node)   (** an error is reported *)
| Endless.            (** the calls did not end within the fuel *)

(** loadConfiguration (device_impl.h 1824-1843), ComponentImpl::update
    (component_impl.h 983-1020): without device options and remappings. *)
Definition load (w : world) (fuel : nat) (t : node) (c : cfg) : result :=
  let '(t', x, gone, ok) := upd w [] t c (Ctx [] []) in
  let t1 := prune gone t' in
  if ok then
    match ended w t1 fuel (Live [] x) [] with
    | Some st => Loaded (settle (l_conns st) [] t1)
    | None => Endless
    end
  else Failed t1.
