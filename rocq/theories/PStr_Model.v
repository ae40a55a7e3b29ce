(** Packet streaming: shared/libraries/packet_streaming/src/
    packet_streaming_server.cpp and packet_streaming_client.cpp.

    Packets: a data packet is its id, the id of its domain packet and its
    body (offset, sample count, raw data: opaque).  Two calls with the same
    packet object are two calls with the same [pkt].
    Not modelled here: the queue of produced buffers is FIFO, so the client is
    run on the list of buffers (grouping for caching is modelled in the Cache files);
    JSON serialisation of events is assumed faithful; header encoding is in
    the Frame files; binary vs. plain payloads and offset types are part of the body. *)
From Verif Require Import Base.
Local Open Scope Z_scope.

Record pkt := { pid : Z; dom : option Z; body : Z }.

(** Event packets: DATA_DESCRIPTOR_CHANGED with the changed value / domain
    descriptor (None = parameter not changed), or any other event. *)
Inductive event := EvDesc (value domain : option Z) | EvOther (kind : Z).

(** PacketBuffer contents (packet_streaming.h:36-65). *)
Inductive buffer :=
| BEvent (sig : Z) (e : event)
| BData (sig : Z) (p : pkt) (canRelease : bool)
| BAlready (sig : Z) (id : Z) (dm : option Z) (canRelease : bool)
| BRelease (ids : list Z).

Definition mem (x : Z) (l : list Z) : bool := existsb (Z.eqb x) l.
Definition del (x : Z) (l : list Z) : list Z := filter (fun y => negb (y =? x)) l.
Fixpoint lookup {A} (x : Z) (l : list (Z * A)) : option A :=
  match l with [] => None | (y, a) :: r => if y =? x then Some a else lookup x r end.
Definition erase {A} (x : Z) (l : list (Z * A)) : list (Z * A) :=
  filter (fun e => negb (fst e =? x)) l.
(** insert_or_assign *)
Definition assign {A} (x : Z) (a : A) (l : list (Z * A)) : list (Z * A) := (x, a) :: erase x l.
(** unordered_map::insert keeps an existing entry *)
Definition insert {A} (x : Z) (a : A) (l : list (Z * A)) : list (Z * A) :=
  match lookup x l with Some _ => l | None => (x, a) :: l end.

(** ** Server *)

Record server := { sdesc : list Z;      (* dataDescriptors: signals with a descriptor *)
                   sent : list Z;       (* packetCollection->sent *)
                   ready : list Z }.    (* packetCollection->readyForRelease *)

(** What happens at the server. [OData sig p last]: addDaqPacket; [last]
    says that the caller passed its only reference (canReleasePacket,
    packet_streaming_server.cpp:186-198).  [ODestroy x]: the last reference
    to packet [x] is dropped (from any thread).  [OFlush]: a call of
    checkAndSendReleasePacket(true). *)
Inductive op :=
| OEvent (sig : Z) (e : event)
| OData (sig : Z) (p : pkt) (last : bool)
| ODestroy (x : Z)
| OFlush.

(** packet_streaming_server.cpp:380-417 *)
Definition checkAndSendReleasePacket (threshold : nat) (force : bool) (s : server) : server * list buffer :=
  let n := length (ready s) in
  if (negb (force && (0 <? n)%nat)) && (n <? threshold)%nat then (s, [])
  else ({| sdesc := sdesc s; sent := sent s; ready := [] |}, [BRelease (ready s)]).

(** packet_streaming_server.cpp:146-184 *)
Definition addEventPacket (sig : Z) (e : event) (s : server) : server * list buffer :=
  let d := match e with EvDesc (Some _) _ => if mem sig (sdesc s) then sdesc s else sig :: sdesc s | _ => sdesc s end in
  ({| sdesc := d; sent := sent s; ready := ready s |}, [BEvent sig e]).

(** packet_streaming_server.cpp:200-227: the new sent set and "do send" *)
Definition shouldSendPacket (id : Z) (mark : bool) (st : list Z) : list Z * bool :=
  if mem id st then (if mark then del id st else st, false)
  else (if mark then st else id :: st, true).

(** packet_streaming_server.cpp:327-378, 419-443; None = exception *)
Definition addDataPacket (sig : Z) (p : pkt) (last : bool) (s : server) : option (server * list buffer) :=
  if mem sig (sdesc s) then
    let (st, send) := shouldSendPacket (pid p) last (sent s) in
    let s' := {| sdesc := sdesc s; sent := st; ready := ready s |} in
    Some (s', [if send then BData sig p last else BAlready sig (pid p) (dom p) last])
  else None.

(** packet_streaming_server.cpp:216-224: the destruct callback *)
Definition destroyed (x : Z) (s : server) : server :=
  if mem x (sent s)
  then {| sdesc := sdesc s; sent := del x (sent s); ready := ready s ++ [x] |}
  else s.

(** packet_streaming_server.cpp:26-61; a refused packet leaves the server as
    it was and produces nothing. *)
Definition server_step (threshold : nat) (s : server) (o : op) : server * list buffer :=
  match o with
  | OEvent sig e =>
      let (s1, b1) := addEventPacket sig e s in
      let (s2, b2) := checkAndSendReleasePacket threshold false s1 in (s2, b1 ++ b2)
  | OData sig p last =>
      match addDataPacket sig p last s with
      | None => (s, [])
      | Some (s1, b1) =>
          let (s2, b2) := checkAndSendReleasePacket threshold false s1 in (s2, b1 ++ b2)
      end
  | ODestroy x => (destroyed x s, [])
  | OFlush => checkAndSendReleasePacket threshold true s
  end.

Fixpoint server_run (threshold : nat) (s : server) (ops : list op) : server * list buffer :=
  match ops with
  | [] => (s, [])
  | o :: r => let (s1, b1) := server_step threshold s o in
              let (s2, b2) := server_run threshold s1 r in (s2, b1 ++ b2)
  end.

Definition server_init : server := {| sdesc := []; sent := []; ready := [] |}.

(** ** Client *)

(** A packet object built by the client.  [src] is ghost: the id of the
    server packet whose buffer it was built from. *)
Inductive cpkt := CP (src : Z) (cbody : Z) (cdesc : Z) (cdom : option cpkt).

(** What getNextDaqPacket returns. *)
Inductive item := IEvent (e : event) | IData (c : cpkt).

(** A buffer waiting for its domain packet: packetBuffersWaitingForDomainPackets
    maps the domain packet id to these, in arrival order; one list of all of
    them, in arrival order, carries the same information.
    referencedPacketBuffers indexes the same buffers by packet id.  [w_rel] is
    the CAN_RELEASE flag of the buffer, [w_extra] its additionalSignalIds. *)
Record wbuf := { w_sig : Z; w_pkt : pkt; w_rel : bool; w_extra : list Z }.

Record client := { out : list (Z * item);        (* queue *)
                   cdata : list (Z * Z);         (* dataDescriptors *)
                   cdomd : list (Z * Z);         (* domainDescriptors *)
                   refd : list (Z * cpkt);       (* referencedPackets *)
                   wait : list wbuf }.

Definition client_init : client := {| out := []; cdata := []; cdomd := []; refd := []; wait := [] |}.

Definition push (x : Z * item) (c : client) : client :=
  {| out := out c ++ [x]; cdata := cdata c; cdomd := cdomd c; refd := refd c; wait := wait c |}.
Definition set_refd (r : list (Z * cpkt)) (c : client) : client :=
  {| out := out c; cdata := cdata c; cdomd := cdomd c; refd := r; wait := wait c |}.
Definition set_wait (w : list wbuf) (c : client) : client :=
  {| out := out c; cdata := cdata c; cdomd := cdomd c; refd := refd c; wait := w |}.

(** packet_streaming_client.cpp:68-76 *)
Definition forwards (sig : Z) (v d : option Z) (cd cm : list (Z * Z)) : bool :=
  match v, lookup sig cd with Some a, Some b => negb (b =? a) | _, _ => false end
  || match d, lookup sig cm with Some a, Some b => negb (b =? a) | _, _ => false end
  || match lookup sig cd with None => true | _ => false end
  || match lookup sig cm with None => true | _ => false end.

Definition assign_opt (sig : Z) (v : option Z) (l : list (Z * Z)) : list (Z * Z) :=
  match v with Some a => assign sig a l | None => l end.

(** packet_streaming_client.cpp:52-88 *)
Definition addEventBuffer (sig : Z) (e : event) (c : client) : client :=
  match e with
  | EvOther _ => c
  | EvDesc v d =>
      let f := forwards sig v d (cdata c) (cdomd c) in
      let c' := {| out := out c; cdata := assign_opt sig v (cdata c);
                   cdomd := assign_opt sig d (cdomd c); refd := refd c; wait := wait c |} in
      if f then push (sig, IEvent e) c' else c'
  end.

Definition waits_for (x : Z) (w : wbuf) : bool :=
  match dom (w_pkt w) with Some d => d =? x | None => false end.

(** Fold over the waiting buffers, stopping at an exception. *)
Fixpoint fold_opt {S A} (f : S -> A -> option S) (l : list A) (s : S) : option S :=
  match l with [] => Some s | a :: r => match f s a with Some s' => fold_opt f r s' | None => None end end.

(** packet_streaming_client.cpp:118-195: build the packet, queue it, process
    the buffers that waited for it, keep it for later reference.  The code
    removes the map entry of the waiting buffers after the loop; during the
    loop that entry is not consulted (packet ids are acyclic), so it is
    removed before the loop here.  Running out of fuel is an exception too;
    it is proved never to happen.  None = exception. *)
Fixpoint build (fuel : nat) (sig : Z) (p : pkt) (rel : bool) (domp : option cpkt) (c : client)
  : option (client * cpkt) :=
  match fuel with
  | O => None
  | S f =>
      match lookup sig (cdata c) with
      | None => None
      | Some desc =>
          let k := CP (pid p) (body p) desc domp in
          let c1 := push (sig, IData k) c in
          let ws := filter (waits_for (pid p)) (wait c1) in
          let c2 := set_wait (filter (fun w => negb (waits_for (pid p) w)) (wait c1)) c1 in
          match fold_opt (fun c w =>
                   match build f (w_sig w) (w_pkt w) (w_rel w) (Some k) c with
                   | Some (c', k') => Some (fold_left (fun c s => push (s, IData k') c) (w_extra w) c')
                   | None => None
                   end) ws c2 with
          | None => None
          | Some c3 => Some (if rel then c3 else set_refd (insert (pid p) k (refd c3)) c3, k)
          end
      end
  end.

(** packet_streaming_client.cpp:90-116: wait for the domain packet or build *)
Definition addDataBuffer (sig : Z) (p : pkt) (rel : bool) (c : client) : option client :=
  let go d := option_map fst (build (S (length (wait c))) sig p rel d c) in
  match dom p with
  | None => go None
  | Some d =>
      match lookup d (refd c) with
      | Some k => go (Some k)
      | None => Some (set_wait (wait c ++ [{| w_sig := sig; w_pkt := p; w_rel := rel; w_extra := [] |}]) c)
      end
  end.

(** packet_streaming_client.cpp:197-223.  The flag is set by addition; adding
    it twice would corrupt the offset type and counts as a failure here. *)
Definition has_id (x : Z) (w : wbuf) : bool := pid (w_pkt w) =? x.
Definition set_rel (w : wbuf) : wbuf :=
  {| w_sig := w_sig w; w_pkt := w_pkt w; w_rel := true; w_extra := w_extra w |}.
Definition release_one (c : client) (x : Z) : option client :=
  match lookup x (refd c) with
  | Some _ => Some (set_refd (erase x (refd c)) c)
  | None =>
      match find (has_id x) (wait c) with
      | Some w => if w_rel w then None
                  else Some (set_wait (map (fun w => if has_id x w then set_rel w else w) (wait c)) c)
      | None => None
      end
  end.

(** packet_streaming_client.cpp:225-261 *)
Definition add_extra (sig : Z) (w : wbuf) : wbuf :=
  {| w_sig := w_sig w; w_pkt := w_pkt w; w_rel := w_rel w; w_extra := w_extra w ++ [sig] |}.
Definition same_dom (a b : option Z) : bool :=
  match a, b with Some x, Some y => x =? y | _, _ => false end.
Definition addAlreadySent (sig x : Z) (d : option Z) (rel : bool) (c : client) : option client :=
  match lookup sig (cdata c) with
  | None => None
  | Some _ =>
      match lookup x (refd c) with
      | Some k => let c' := push (sig, IData k) c in
                  Some (if rel then set_refd (erase x (refd c')) c' else c')
      | None =>
          let hit w := same_dom (dom (w_pkt w)) d && has_id x w in
          if existsb hit (wait c)
          then Some (set_wait (map (fun w => if hit w then add_extra sig w else w) (wait c)) c)
          else None
      end
  end.

(** packet_streaming_client.cpp:18-35; None = exception *)
Definition client_step (c : client) (b : buffer) : option client :=
  match b with
  | BEvent sig e => Some (addEventBuffer sig e c)
  | BData sig p rel => addDataBuffer sig p rel c
  | BAlready sig x d rel => addAlreadySent sig x d rel c
  | BRelease ids => fold_opt release_one ids c
  end.
Definition client_run (bs : list buffer) (c : client) : option client := fold_opt client_step bs c.

(** packet_streaming_client.cpp:47-50 (referencedPacketBuffers is empty
    exactly when no buffer waits) *)
Definition areReferencesCleared (c : client) : bool :=
  match refd c, wait c with [], [] => true | _, _ => false end.
