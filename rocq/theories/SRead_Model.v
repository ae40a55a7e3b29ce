(** The stream reader.
    core/opendaq/reader/src/stream_reader_impl.cpp, typed_reader.cpp,
    include/opendaq/read_info.h, typed_reader.h.

    The connection is its packet queue (Conn_Model and C01 justify this).  Packets
    that arrive while a call waits or reads are appended at the back and the call
    only takes from the front, so a call behaves as if those it sees had arrived
    before it: the timeout is not modelled.  Transform functions, the void reader
    of structs and the read mode are not modelled; a sample is its list of
    values.  Disconnecting is not modelled. *)
From Verif Require Import Base.
Local Open Scope nat_scope.

(** A data descriptor: sample type, dimensions (their sizes), and the reader
    types its samples convert to (typed_reader.cpp:94-141). *)
Record desc := { ty : nat; dims : list nat; oks : list nat }.
(** descriptor parameters of an event (event_packet_utils.h:25-42) *)
Inductive par := Unchanged | Null | Is (d : desc).
(** a domain packet: descriptor, samples, offset, delta of the rule (0 unless linear) *)
Record dom := { dd : desc; dsmp : list (list Z); doff : option Z; ddelta : Z }.
Inductive event := Desc (v d : par) | Gap (n : Z) | Other (n : nat).
Inductive packet := Data (smp : list (list Z)) (d : option dom) | Ev (e : event).

(** typed_reader.h:98-160: read type (None: UndefinedReader), descriptor, valuesPerSample *)
Record typed := { rt : option nat; known : option desc; vps : nat }.
(** typed_reader.cpp:781-822 createReaderForType *)
Definition createReaderForType (t : option nat) : typed := {| rt := t; known := None; vps := 1 |}.

Definition mem (x : nat) (l : list nat) : bool := existsb (Nat.eqb x) l.
Definition product (l : list nat) : nat := fold_right Nat.mul 1 l.

(** stream_reader_impl.cpp:378-381, 396-401 and typed_reader.cpp:701-745.  A type
    no reader exists for (exception, 488-492) is one that is not among its own
    conversions: either way the reader becomes invalid. *)
Definition handleDescriptorChanged (r : typed) (d : desc) : typed * bool :=
  let t := match rt r with Some t => t | None => ty d end in
  ({| rt := Some t; known := Some d; vps := match dims d with [] => vps r | l => product l end |}, mem t (oks d)).

Inductive rres := Got (vals : list Z) | Fails (invalidState : bool) | Oob.
(** typed_reader.cpp:202-246 readData, 620-672 readValues *)
Definition readData (r : typed) (raw : list Z) (off cnt : nat) : rres :=
  match rt r, known r with
  | Some t, Some d =>
      if mem t (oks d) then
        if (off + cnt) * vps r <=? length raw then Got (firstn (cnt * vps r) (skipn (off * vps r) raw)) else Oob
      else Fails false
  | _, _ => Fails true
  end.

Record state := { queue : list packet; cur : option (list (list Z) * option dom); idx : nat; invalid : bool;
                  vr : typed; dr : typed; lastv : par; lastd : par; skipEvents : bool }.
Definition init (skip : bool) (vt dt : option nat) : state :=
  {| queue := []; cur := None; idx := 0; invalid := false; vr := createReaderForType vt; dr := createReaderForType dt;
     lastv := Unchanged; lastd := Unchanged; skipEvents := skip |}.

(** What a call accumulates: read_info.h:31-72 and the local offset *)
Record call := { values : bool; domainValues : bool; remainingToRead : nat; gotv : list Z; gotd : list Z; offset : option Z }.

Definition set_cur (c : option (list (list Z) * option dom)) (i : nat) (s : state) : state :=
  {| queue := queue s; cur := c; idx := i; invalid := invalid s; vr := vr s; dr := dr s; lastv := lastv s; lastd := lastd s; skipEvents := skipEvents s |}.
Definition set_queue (q : list packet) (s : state) : state :=
  {| queue := q; cur := cur s; idx := idx s; invalid := invalid s; vr := vr s; dr := dr s; lastv := lastv s; lastd := lastd s; skipEvents := skipEvents s |}.
Definition set_readers (v d : typed) (inv : bool) (s : state) : state :=
  {| queue := queue s; cur := cur s; idx := idx s; invalid := inv; vr := v; dr := d; lastv := lastv s; lastd := lastd s; skipEvents := skipEvents s |}.

(** stream_reader_impl.cpp:384-415 *)
Definition onDescriptorChanged (v d : par) (s : state) : state :=
  let (v', vok) := match v with Is x => handleDescriptorChanged (vr s) x | _ => (vr s, true) end in
  let (d', dok) := match d with Is x => handleDescriptorChanged (dr s) x | _ => (dr s, true) end in
  set_readers v' d' (invalid s || negb vok || negb dok) s.

Inductive presult := POk (s : state) (c : call) | PFail | POob.

(** stream_reader_impl.cpp:450-496 readPacketData, 417-432 trySetDomainSampleType *)
Definition readPacketData (s : state) (c : call) (smp : list (list Z)) (d : option dom) : presult :=
  let remainingSampleCount := length smp - idx s in
  let toRead := Nat.min (remainingToRead c) remainingSampleCount in
  match (if values c then readData (vr s) (concat smp) (idx s) toRead else Got []) with
  | Oob => POob
  | Fails _ => PFail
  | Got vs =>
      let dres :=
        if domainValues c then
          match d with
          | None => (dr s, Fails true)
          | Some dm =>
              match readData (dr s) (concat (dsmp dm)) (idx s) toRead with
              | Fails true =>
                  let (r, ok) := handleDescriptorChanged (dr s) (dd dm) in
                  if ok then (r, readData r (concat (dsmp dm)) (idx s) toRead) else (r, Fails true)
              | x => (dr s, x)
              end
          end
        else (dr s, Got []) in
      match dres with
      | (_, Oob) => POob
      | (_, Fails _) => PFail
      | (r, Got ds) =>
          let s1 := set_readers (vr s) r (invalid s) s in
          let s2 := if toRead <? remainingSampleCount then set_cur (cur s) (idx s + toRead) s1 else set_cur None 0 s1 in
          POk s2 {| values := values c; domainValues := domainValues c; remainingToRead := remainingToRead c - toRead;
                    gotv := gotv c ++ vs; gotd := gotd c ++ ds; offset := offset c |}
      end
  end.

(** stream_reader_impl.cpp:562-581 *)
Definition setOffset (s : state) (c : call) (d : option dom) : call :=
  match offset c with
  | Some _ => c
  | None => {| values := values c; domainValues := domainValues c; remainingToRead := remainingToRead c; gotv := gotv c; gotd := gotd c;
               offset := Some (match d with
                               | Some dm => match doff dm with Some o => (o + Z.of_nat (idx s) * ddelta dm)%Z | None => 0%Z end
                               | None => 0%Z end) |}
  end.

(** [NeverReturns]: the result of readPacketData is ignored (582), so after an
    error the loop tries the same packet for ever. *)
Inductive lresult := Ends (s : state) (c : call) (e : option event) | NeverReturns | OutOfBounds.

(** stream_reader_impl.cpp:529-586: the loop, when no packet is held *)
Fixpoint fromQueue (q : list packet) (s : state) (c : call) : lresult :=
  match q with
  | [] => Ends (set_queue [] s) c None
  | Ev e :: r =>
      let s1 := match e with Desc v d => onDescriptorChanged v d s | _ => s end in
      if negb (skipEvents s) || invalid s1 || match e with Gap _ => true | _ => false end
      then Ends (set_queue r s1) c (Some e)
      else fromQueue r s1 c
  | Data smp d :: r =>
      let s1 := set_cur (Some (smp, d)) 0 s in
      if remainingToRead c =? 0 then Ends (set_queue r s1) c None
      else match readPacketData s1 (setOffset s1 c d) smp d with
           | PFail => NeverReturns
           | POob => OutOfBounds
           | POk s2 c2 => match cur s2 with Some _ => Ends (set_queue r s2) c2 None | None => fromQueue r s2 c2 end
           end
  end.
(** the loop; a packet still held after reading is one of which enough was read,
    and the next iteration ends the call (557-560) *)
Definition readPackets (s : state) (c : call) : lresult :=
  match cur s with
  | None => fromQueue (queue s) s c
  | Some (smp, d) =>
      if remainingToRead c =? 0 then Ends s c None
      else match readPacketData s (setOffset s c d) smp d with
           | PFail => NeverReturns
           | POob => OutOfBounds
           | POk s2 c2 => match cur s2 with Some _ => Ends s2 c2 None | None => fromQueue (queue s2) s2 c2 end
           end
  end.

Inductive op :=
| Enqueue (p : packet)
| Read (n : nat) | ReadWithDomain (n : nat) | SkipSamples (n : nat)
| FromExisting (vt dt : option nat).   (* a new reader made from this one; this one is dropped *)

Record out := { count : nat; vals : list Z; domain : list Z; status : option event; valid : bool; first : option Z }.
Inductive result := Done | Ignored | Returned (o : out) | Hangs | Ub.

(** stream_reader_impl.cpp:591-695 *)
Definition doRead (s : state) (v d : bool) (n : nat) : state * result :=
  if invalid s then (s, Ignored)
  else match readPackets s {| values := v; domainValues := d; remainingToRead := n; gotv := []; gotd := []; offset := None |} with
       | Ends s' c e => (s', Returned {| count := n - remainingToRead c; vals := gotv c; domain := gotd c; status := e; valid := negb (invalid s'); first := offset c |})
       | NeverReturns => (s, Hangs)
       | OutOfBounds => (s, Ub)
       end.

Definition later (old new : par) : par := match new with Unchanged => old | _ => new end.
(** connection_impl.cpp:716-737: the connection remembers the last descriptors *)
Definition enqueue (p : packet) (s : state) : state :=
  let '(v, d) := match p with Ev (Desc v d) => (later (lastv s) v, later (lastd s) d) | _ => (lastv s, lastd s) end in
  {| queue := queue s ++ [p]; cur := cur s; idx := idx s; invalid := invalid s; vr := vr s; dr := dr s; lastv := v; lastd := d; skipEvents := skipEvents s |}.

(** stream_reader_impl.cpp:70-101, 155-173 and connection_impl.cpp:764-776: the
    port's new listener gets the connection's last descriptors first, and the
    new reader takes them from the queue at once *)
Definition fromExisting (vt dt : option nat) (s : state) : state :=
  onDescriptorChanged (lastv s) (lastd s) (set_readers (createReaderForType vt) (createReaderForType dt) false s).

Definition step (s : state) (o : op) : state * result :=
  match o with
  | Enqueue p => (enqueue p s, Done)
  | Read n => doRead s true false n
  | ReadWithDomain n => doRead s true true n
  | SkipSamples n => doRead s false false n
  | FromExisting vt dt => (fromExisting vt dt s, Done)
  end.

(** newest first *)
Fixpoint after (skip : bool) (vt dt : option nat) (h : list op) : state :=
  match h with [] => init skip vt dt | o :: r => fst (step (after skip vt dt r) o) end.

(** stream_reader_impl.cpp:284-307 getAvailableCount; the connection's counts
    are exact (C02) *)
Fixpoint untilEvent (stop : event -> bool) (q : list packet) : nat :=
  match q with
  | [] => 0
  | Data smp _ :: r => length smp + untilEvent stop r
  | Ev e :: r => if stop e then 0 else untilEvent stop r
  end.
Definition getAvailableCount (s : state) : nat :=
  match cur s with Some (smp, _) => length smp - idx s | None => 0 end
  + untilEvent (fun e => if skipEvents s then match e with Gap _ => true | _ => false end else true) (queue s).

(** stream_reader_impl.cpp:499-533: with a timeout the call first waits until this
    holds; [any]: the reader's timeout type is Any *)
Definition waitCondition (s : state) (n : nat) (any : bool) : bool :=
  let held := match cur s with Some (smp, _) => length smp - idx s | None => 0 end in
  let samplesToRead := w64 (Z.of_nat n - Z.of_nat held) in
  let stop := existsb (fun p => match p with Ev (Gap _) => true | Ev _ => negb (skipEvents s) | _ => false end) (queue s) in
  let samples := untilEvent (fun _ => false) (queue s) in
  stop || if any then negb (samples =? 0) else (samplesToRead <=? Z.of_nat samples)%Z.
