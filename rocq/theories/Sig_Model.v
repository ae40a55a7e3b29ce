(** Signals: data descriptors, domain signals, connections, packet delivery and
    the last value.
    Models core/opendaq/signal/include/opendaq/signal_impl.h.

    Simplifications: descriptors are numbers and two descriptors are equal when
    their numbers are; a packet is an identifier with its number of samples; a
    connection is identified by its signal, a number and whether its input port
    is remote, and is represented by the sequence of everything ever put in its
    queue (the queue itself is modelled in Conn_Model.v). Signals are not
    destroyed. Event packets that the user of a signal sends by hand, type
    registration, frozen signals, core events and the callbacks of derived
    classes (other than the fact that they are called) are left out. *)
From Coq Require Import List Bool Arith.
Import ListNotations.

Definition sid := nat.
Definition desc := nat.

(** connection.h: a connection belongs to one signal and one input port;
    isRemote is a property of the input port. *)
Record conn := mkK { k_sig : sid; k_no : nat; k_remote : bool }.

Definition conn_eqb (a b : conn) : bool :=
  Nat.eqb (k_sig a) (k_sig b) && Nat.eqb (k_no a) (k_no b) && Bool.eqb (k_remote a) (k_remote b).

Record pkt := mkP { p_id : nat; p_count : nat }.

(** What is put in a connection: a descriptor-changed event, whose two
    parameters are [None] for "unchanged" (null pointer), [Some None] for "no
    descriptor" (NullDataDescriptor, event_packet_utils.h 44-47) or
    [Some (Some d)]; or a data packet. *)
Inductive item := IEv (v d : option (option desc)) | IPk (p : pkt).

(** signal_impl.h 130-165: the members of a signal. [s_told] records the
    arguments of the calls of onListenedStatusChanged, oldest first. *)
Record signal := mkS {
  s_desc : option desc;          (* dataDescriptor *)
  s_dom : option sid;            (* domainSignal *)
  s_refs : list sid;             (* domainSignalReferences *)
  s_conns : list conn;           (* connections *)
  s_rconns : list conn;          (* remoteConnections *)
  s_active : bool;               (* active *)
  s_dlocked : bool;              (* lockedAttributes contains DomainSignal *)
  s_public : bool;               (* isPublic *)
  s_keepv : bool;                (* keepLastValue *)
  s_keepp : bool;                (* keepLastPacket *)
  s_last : option nat;           (* lastValueCache: what getLastValue reads *)
  s_told : list bool
}.

Record state := mkSt {
  st_sig : sid -> signal;
  st_log : conn -> list item;
  st_flight : list (list conn * list pkt)  (* sends between the lock and the queues *)
}.

(** signal_impl.h 196-216: a new signal. *)
Definition new_signal (d : option desc) : signal :=
  mkS d None [] [] [] true false true true true None [].

Definition init (d : sid -> option desc) : state :=
  mkSt (fun s => new_signal (d s)) (fun _ => []) [].

Definition set_sig (st : state) (s : sid) (x : signal) : state :=
  mkSt (fun t => if Nat.eqb t s then x else st_sig st t) (st_log st) (st_flight st).

(** connection.enqueue: the item goes to the end. *)
Definition enqueue (st : state) (its : list item) (k : conn) : state :=
  mkSt (st_sig st) (fun c => if conn_eqb c k then st_log st c ++ its else st_log st c) (st_flight st).

(** signal_impl.h 687-732, 923-951: the same packets to every connection. *)
Definition enqueue_all (st : state) (ks : list conn) (its : list item) : state :=
  fold_left (fun st k => enqueue st its k) ks st.

Inductive outcome := OK | Ignored | Duplicate | NotFound | BadType.

Definition with_desc (x : signal) (d : option desc) : signal :=
  mkS d (s_dom x) (s_refs x) (s_conns x) (s_rconns x) (s_active x) (s_dlocked x) (s_public x)
      (s_keepv x) (s_keepp x) (s_last x) (s_told x).
Definition with_dom (x : signal) (d : option sid) : signal :=
  mkS (s_desc x) d (s_refs x) (s_conns x) (s_rconns x) (s_active x) (s_dlocked x) (s_public x)
      (s_keepv x) (s_keepp x) (s_last x) (s_told x).
Definition with_refs (x : signal) (r : list sid) : signal :=
  mkS (s_desc x) (s_dom x) r (s_conns x) (s_rconns x) (s_active x) (s_dlocked x) (s_public x)
      (s_keepv x) (s_keepp x) (s_last x) (s_told x).
Definition with_conns (x : signal) (c r : list conn) (t : list bool) : signal :=
  mkS (s_desc x) (s_dom x) (s_refs x) c r (s_active x) (s_dlocked x) (s_public x)
      (s_keepv x) (s_keepp x) (s_last x) t.
Definition with_active (x : signal) (a : bool) : signal :=
  mkS (s_desc x) (s_dom x) (s_refs x) (s_conns x) (s_rconns x) a (s_dlocked x) (s_public x)
      (s_keepv x) (s_keepp x) (s_last x) (s_told x).
Definition with_dlocked (x : signal) (b : bool) : signal :=
  mkS (s_desc x) (s_dom x) (s_refs x) (s_conns x) (s_rconns x) (s_active x) b (s_public x)
      (s_keepv x) (s_keepp x) (s_last x) (s_told x).
Definition with_last (x : signal) (v : option nat) : signal :=
  mkS (s_desc x) (s_dom x) (s_refs x) (s_conns x) (s_rconns x) (s_active x) (s_dlocked x) (s_public x)
      (s_keepv x) (s_keepp x) v (s_told x).

(** signal_impl.h 1269-1277: setKeepLastPacket, after the two flags are set. *)
Definition with_keep (x : signal) (public keepv : bool) : signal :=
  let keepp := keepv && public in
  mkS (s_desc x) (s_dom x) (s_refs x) (s_conns x) (s_rconns x) (s_active x) (s_dlocked x) public
      keepv keepp (if keepp then s_last x else None) (s_told x).

(** signal_impl.h 675-684: checkKeepLastPacket. The value is named by the
    packet it is the last sample of. *)
Definition check_keep (x : signal) (p : pkt) : signal :=
  if s_keepp x then
    if Nat.ltb 0 (p_count p) then with_last x (Some (p_id p)) else x
  else x.

(** signal_impl.h 287-298: the descriptor of the domain signal, if there is one. *)
Definition domain_desc (st : state) (s : sid) : option desc :=
  match s_dom (st_sig st s) with Some d => s_desc (st_sig st d) | None => None end.

(** signal_impl.h 866-904: listenerConnectedInternal. *)
Definition connect (st : state) (k : conn) : state * outcome :=
  let x := st_sig st (k_sig k) in
  if k_remote k then
    if existsb (conn_eqb k) (s_rconns x) then (st, Duplicate)
    else (set_sig st (k_sig k) (with_conns x (s_conns x) (s_rconns x ++ [k]) (s_told x)), OK)
  else
    if existsb (conn_eqb k) (s_conns x) then (st, Duplicate)
    else
      let ev := IEv (Some (s_desc x)) (Some (domain_desc st (k_sig k))) in
      let told := match s_conns x with [] => s_told x ++ [true] | _ => s_told x end in
      let st1 := set_sig st (k_sig k) (with_conns x (s_conns x ++ [k]) (s_rconns x) told) in
      (enqueue st1 [ev] k, OK).

(** std::find and erase: the first equal element goes. *)
Fixpoint erase (k : conn) (l : list conn) : list conn :=
  match l with
  | [] => []
  | c :: l => if conn_eqb k c then l else c :: erase k l
  end.

(** signal_impl.h 996-1027: listenerDisconnected. *)
Definition disconnect (st : state) (k : conn) : state * outcome :=
  let x := st_sig st (k_sig k) in
  if k_remote k then
    if existsb (conn_eqb k) (s_rconns x) then
      (set_sig st (k_sig k) (with_conns x (s_conns x) (erase k (s_rconns x)) (s_told x)), OK)
    else (st, NotFound)
  else
    if existsb (conn_eqb k) (s_conns x) then
      let left_over := erase k (s_conns x) in
      let told := match left_over with [] => s_told x ++ [false] | _ => s_told x end in
      (set_sig st (k_sig k) (with_conns x left_over (s_rconns x) told), OK)
    else (st, NotFound).

(** signal_impl.h 749-770, 907-919, 1327-1330: sendPacketRecursiveLock of an
    event packet: dropped by an inactive signal; an event is never kept as the
    last value. *)
Definition send_event (st : state) (s : sid) (e : item) : state * outcome :=
  let x := st_sig st s in
  if s_active x then (enqueue_all st (s_conns x) [e], OK) else (st, Ignored).

Definition send_events (st : state) (l : list sid) (e : item) : state * bool :=
  fold_left (fun acc s =>
      let '(st, ok) := acc in
      match send_event st s e with
      | (st', OK) => (st', ok)
      | (st', _) => (st', false)
      end) l (st, true).

Definition same_desc (a b : option desc) : bool :=
  match a, b with
  | Some x, Some y => Nat.eqb x y
  | None, None => true
  | _, _ => false
  end.

(** signal_impl.h 391-464: setDescriptor. [null_type]: the sample type of the
    given descriptor is Null. *)
Definition set_desc (st : state) (s : sid) (d : option desc) (null_type : bool) : state * outcome :=
  if match d with Some _ => null_type | None => false end then (st, BadType)
  else if same_desc d (s_desc (st_sig st s)) then (st, Ignored)
  else
    let st1 := set_sig st s (with_desc (st_sig st s) d) in
    let st2 := enqueue_all st1 (s_conns (st_sig st1 s)) [IEv (Some d) None] in
    let '(st3, ok) := send_events st2 (s_refs (st_sig st2 s)) (IEv None (Some d)) in
    (st3, if ok then OK else Ignored).

(** signal_impl.h 1050-1068: domainSignalReferenceRemoved. *)
Fixpoint remove_ref (s : sid) (l : list sid) : list sid :=
  match l with
  | [] => []
  | c :: l => if Nat.eqb c s then l else c :: remove_ref s l
  end.

Definition same_sig (a b : option sid) : bool :=
  match a, b with
  | Some x, Some y => Nat.eqb x y
  | None, None => true
  | _, _ => false
  end.

(** signal_impl.h 1030-1046: domainSignalReferenceSet. *)
Definition add_ref (st : state) (d s : sid) : state * outcome :=
  let y := st_sig st d in
  if existsb (Nat.eqb s) (s_refs y) then (st, Duplicate)
  else (set_sig st d (with_refs y (s_refs y ++ [s])), OK).

(** signal_impl.h 482-521: setDomainSignal. *)
Definition set_domain (st : state) (s : sid) (d : option sid) : state * outcome :=
  let x := st_sig st s in
  if s_dlocked x then (st, Ignored)
  else if same_sig d (s_dom x) then (st, Ignored)
  else
    let st1 := match s_dom x with
               | Some o => set_sig st o (with_refs (st_sig st o) (remove_ref s (s_refs (st_sig st o))))
               | None => st
               end in
    let st2 := set_sig st1 s (with_dom (st_sig st1 s) d) in
    match d with
    | Some n => add_ref st2 n s
    | None => (st2, OK)
    end.

(** signal_impl.h 737-746, 749-770: sendPacket up to the copy of the list of
    connections. *)
Definition send_one (st : state) (s : sid) (p : pkt) : state * option (list conn) :=
  let x := st_sig st s in
  if s_active x then (set_sig st s (check_keep x p), Some (s_conns x)) else (st, None).

(** signal_impl.h 774-793: sendPackets up to the copy of the list of
    connections. Only the last packet is looked at for the last value. *)
Definition send_many (st : state) (s : sid) (ps : list pkt) : state * option (list conn) :=
  let x := st_sig st s in
  match rev ps with
  | [] => (st, None)
  | p :: _ =>
      if s_active x then (set_sig st s (check_keep x p), Some (s_conns x)) else (st, None)
  end.

(** signal_impl.h 1189-1209: removed(). The value signals of this signal lose
    it without an event; their own lists are untouched. *)
Definition clear_dom (st : state) (v : sid) : state := set_sig st v (with_dom (st_sig st v) None).

Definition removed (st : state) (s : sid) : state :=
  let x := st_sig st s in
  let st1 := set_sig st s (with_conns x [] [] (s_told x)) in
  let st2 := fold_left clear_dom (s_refs x) st1 in
  set_sig st2 s (with_refs (st_sig st2 s) []).

(** The calls. [Copy] and [Put] are the two halves of a send: the list of
    connections is copied under the lock, the packets are put in the queues
    after the lock is released (signal_impl.h 749-793). *)
Inductive op :=
| Connect (k : conn)
| Disconnect (k : conn)
| SetDesc (s : sid) (d : option desc) (null_type : bool)
| SetDomain (s : sid) (d : option sid)
| LockDomain (s : sid) (b : bool)
| SetActive (s : sid) (b : bool)
| Send (s : sid) (p : pkt)
| SendMany (s : sid) (ps : list pkt)
| Remove (s : sid)
| SetPublic (s : sid) (b : bool)
| KeepLast (s : sid) (b : bool)
| SetLast (s : sid) (v : nat)
| Copy (s : sid) (p : pkt)
| Put (n : nat).

Fixpoint take_nth {A} (n : nat) (l : list A) : option (A * list A) :=
  match n, l with
  | _, [] => None
  | 0, x :: l => Some (x, l)
  | S n, x :: l => match take_nth n l with Some (y, r) => Some (y, x :: r) | None => None end
  end.

Definition step (st : state) (o : op) : state * outcome :=
  match o with
  | Connect k => connect st k
  | Disconnect k => disconnect st k
  | SetDesc s d n => set_desc st s d n
  | SetDomain s d => set_domain st s d
  | LockDomain s b => (set_sig st s (with_dlocked (st_sig st s) b), OK)
  | SetActive s b => (set_sig st s (with_active (st_sig st s) b), OK)
  | Send s p =>
      match send_one st s p with
      | (st1, Some ks) => (enqueue_all st1 ks [IPk p], OK)
      | (st1, None) => (st1, Ignored)
      end
  | SendMany s ps =>
      match send_many st s ps with
      | (st1, Some ks) => (enqueue_all st1 ks (map IPk ps), OK)
      | (st1, None) => (st1, Ignored)
      end
  | Remove s => (removed st s, OK)
  | SetPublic s b => (set_sig st s (with_keep (st_sig st s) b (s_keepv (st_sig st s))), OK)
  | KeepLast s b => (set_sig st s (with_keep (st_sig st s) (s_public (st_sig st s)) b), OK)
  | SetLast s v => (set_sig st s (with_last (st_sig st s) (Some v)), OK)
  | Copy s p =>
      match send_one st s p with
      | (st1, Some ks) => (mkSt (st_sig st1) (st_log st1) (st_flight st1 ++ [(ks, [p])]), OK)
      | (st1, None) => (st1, Ignored)
      end
  | Put n =>
      match take_nth n (st_flight st) with
      | Some ((ks, ps), rest) =>
          (enqueue_all (mkSt (st_sig st) (st_log st) rest) ks (map IPk ps), OK)
      | None => (st, NotFound)
      end
  end.

Definition run (st : state) (h : list op) : state := fold_left (fun st o => fst (step st o)) h st.
