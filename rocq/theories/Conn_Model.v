(** Model of the packet connection (queue between a signal and an input port).
    Source: /repo/core/opendaq/signal/src/connection_impl.cpp,
            /repo/core/opendaq/signal/include/opendaq/connection_impl.h *)
From Verif Require Import Base.
Local Open Scope Z_scope.

(** Sample type of a domain descriptor, as far as the gap checker distinguishes it
    (connection_impl.cpp:669-679).  [DSFloat] (Float64) is treated like an
    unsupported type: the floating-point gap check (lines 597-604) is not modelled. *)
Inductive dsample := DSInt64 | DSUInt64 | DSFloat | DSOther.

(** The part of a domain data descriptor the gap checker looks at
    (connection_impl.cpp:661-679): is the rule linear, its delta, the sample type. *)
Record ddesc := { dd_id : nat; dd_linear : bool; dd_delta : Z; dd_type : dsample }.

(** Domain-descriptor parameter of a DATA_DESCRIPTOR_CHANGED event
    (event_packet_utils.h:25-42): unassigned (unchanged), the null descriptor, or a descriptor. *)
Inductive dparam := PUnchanged | PNull | PDesc (d : ddesc).

(** Packets as seen by the connection (IPacket / IDataPacket / IEventPacket): a data
    packet has an identity, a sample count and optionally a domain packet with
    (offset, sample count); events are identified by their event id. [NoneP] is a
    packet of PacketType::None. *)
Inductive packet :=
| Data (id : nat) (samples : nat) (dom : option (Z * nat))
| DescEv (v : option nat) (d : dparam)
| GapEv (diff : Z)
| OtherEv (id : nat)
| NoneP (id : nat).

(** connection_impl.h:96 *)
Inductive gstate := GDisabled | GUninit | GNotAvail | GInit | GRunning.

(** connection_impl.h:98-109, 139-142 (members of ConnectionImpl that change) *)
Record conn := {
  packets : list packet;
  queueEmpty : bool;
  samplesCnt : Z;
  eventPacketsCnt : Z;
  gapPacketsCnt : Z;
  gapCheckState : gstate;
  nextExpected : Z;
  delta : Z;
  valueDesc : option nat;
  domainDesc : dparam (* PUnchanged = not assigned *)
}.

(** connection_impl.cpp:15-33 *)
Definition init (gapChecking : bool) : conn :=
  {| packets := []; queueEmpty := true; samplesCnt := 0; eventPacketsCnt := 0;
     gapPacketsCnt := 0; gapCheckState := if gapChecking then GUninit else GDisabled;
     nextExpected := 0; delta := 0; valueDesc := None; domainDesc := PUnchanged |}.

(** Record updates. *)
Definition set_packets (c : conn) (l : list packet) : conn :=
  {| packets := l; queueEmpty := queueEmpty c; samplesCnt := samplesCnt c;
     eventPacketsCnt := eventPacketsCnt c; gapPacketsCnt := gapPacketsCnt c;
     gapCheckState := gapCheckState c; nextExpected := nextExpected c; delta := delta c;
     valueDesc := valueDesc c; domainDesc := domainDesc c |}.
Definition set_queueEmpty (c : conn) (b : bool) : conn :=
  {| packets := packets c; queueEmpty := b; samplesCnt := samplesCnt c;
     eventPacketsCnt := eventPacketsCnt c; gapPacketsCnt := gapPacketsCnt c;
     gapCheckState := gapCheckState c; nextExpected := nextExpected c; delta := delta c;
     valueDesc := valueDesc c; domainDesc := domainDesc c |}.
Definition set_counts (c : conn) (s e g : Z) : conn :=
  {| packets := packets c; queueEmpty := queueEmpty c; samplesCnt := s;
     eventPacketsCnt := e; gapPacketsCnt := g;
     gapCheckState := gapCheckState c; nextExpected := nextExpected c; delta := delta c;
     valueDesc := valueDesc c; domainDesc := domainDesc c |}.
Definition set_gap (c : conn) (g : gstate) (n d : Z) : conn :=
  {| packets := packets c; queueEmpty := queueEmpty c; samplesCnt := samplesCnt c;
     eventPacketsCnt := eventPacketsCnt c; gapPacketsCnt := gapPacketsCnt c;
     gapCheckState := g; nextExpected := n; delta := d;
     valueDesc := valueDesc c; domainDesc := domainDesc c |}.
Definition set_desc (c : conn) (v : option nat) (d : dparam) : conn :=
  {| packets := packets c; queueEmpty := queueEmpty c; samplesCnt := samplesCnt c;
     eventPacketsCnt := eventPacketsCnt c; gapPacketsCnt := gapPacketsCnt c;
     gapCheckState := gapCheckState c; nextExpected := nextExpected c; delta := delta c;
     valueDesc := v; domainDesc := d |}.

(** Result of the gap check: continue with a new state, an exception, or undefined
    behaviour (null dereference of a missing domain packet when asserts are off,
    line 544; signed 64-bit overflow, lines 586, 607, 614). *)
Inductive err := InvalidState | InvalidOperation.
Inductive gres := GOk (c : conn) | GThrow (e : err) | GUB.

(** connection_impl.cpp:566-578 *)
Definition enqueueGapPacket (c : conn) (diff : Z) : conn :=
  set_packets (set_counts c (samplesCnt c) (eventPacketsCnt c) (w64 (gapPacketsCnt c + 1)))
              (packets c ++ [GapEv diff]).

(** connection_impl.cpp:580-590 (integer domain) *)
Definition beginGapCheck (c : conn) (off : Z) (cnt : nat) : gres :=
  let n := off + Z.of_nat cnt * delta c in
  if in_i64 (Z.of_nat cnt * delta c) && in_i64 n then GOk (set_gap c GRunning n (delta c)) else GUB.

(** connection_impl.cpp:592-631 followed by the call of enqueueGapPacket at 551-552 (integer domain) *)
Definition doGapCheck (c : conn) (off : Z) (cnt : nat) : gres :=
  let diff := off - nextExpected c in
  let n := off + Z.of_nat cnt * delta c in
  if in_i64 diff && in_i64 (Z.of_nat cnt * delta c) && in_i64 n then
    let c' := set_gap c (gapCheckState c) n (delta c) in
    GOk (if diff =? 0 then c' else enqueueGapPacket c' diff)
  else GUB.

(** connection_impl.cpp:633-689 *)
Definition initGapCheck (c : conn) (p : packet) : gres :=
  match p with
  | DescEv _ PUnchanged =>
      match gapCheckState c with
      | GUninit => GOk (set_gap c GNotAvail (nextExpected c) (delta c))
      | _ => GOk c
      end
  | DescEv _ PNull => GOk (set_gap c GNotAvail (nextExpected c) (delta c))
  | DescEv _ (PDesc d) =>
      if dd_linear d then
        match dd_type d with
        | DSInt64 | DSUInt64 => GOk (set_gap c GInit (nextExpected c) (dd_delta d))
        | DSFloat | DSOther => GOk (set_gap c GNotAvail (nextExpected c) (delta c))
        end
      else GOk (set_gap c GNotAvail (nextExpected c) (delta c))
  | GapEv _ => GThrow InvalidOperation
  | _ => GOk c
  end.

(** connection_impl.cpp:529-564, called only when gapCheckState <> disabled (line 54) *)
Definition checkForGaps (c : conn) (p : packet) : gres :=
  match p with
  | Data _ _ dom =>
      match gapCheckState c with
      | GUninit => GThrow InvalidState
      | GNotAvail | GDisabled => GOk c
      | GInit => match dom with None => GUB | Some (off, cnt) => beginGapCheck c off cnt end
      | GRunning => match dom with None => GUB | Some (off, cnt) => doGapCheck c off cnt end
      end
  | NoneP _ => GOk c
  | _ => initGapCheck c p
  end.

(** connection_impl.cpp:710-738 *)
Definition onPacketEnqueued (c : conn) (p : packet) : conn :=
  match p with
  | Data _ n _ => set_counts c (w64 (samplesCnt c + Z.of_nat n)) (eventPacketsCnt c) (gapPacketsCnt c)
  | DescEv v d =>
      let c' := set_counts c (samplesCnt c) (w64 (eventPacketsCnt c + 1)) (gapPacketsCnt c) in
      set_desc c' (match v with Some _ => v | None => valueDesc c end)
                  (match d with PUnchanged => domainDesc c | _ => d end)
  | GapEv _ | OtherEv _ => set_counts c (samplesCnt c) (w64 (eventPacketsCnt c + 1)) (gapPacketsCnt c)
  | NoneP _ => c
  end.

(** connection_impl.cpp:740-762 *)
Definition onPacketDequeued (c : conn) (p : packet) : conn :=
  match p with
  | Data _ n _ => set_counts c (w64 (samplesCnt c - Z.of_nat n)) (eventPacketsCnt c) (gapPacketsCnt c)
  | DescEv _ _ => set_counts c (samplesCnt c) (w64 (eventPacketsCnt c - 1)) (gapPacketsCnt c)
  | GapEv _ => set_counts c (samplesCnt c) (eventPacketsCnt c) (w64 (gapPacketsCnt c - 1))
  | OtherEv _ | NoneP _ => c
  end.

(** Loop body of countPackets, connection_impl.cpp:697-706 *)
Definition countOne (c : conn) (p : packet) : conn :=
  match p with
  | Data _ n _ => set_counts c (w64 (samplesCnt c + Z.of_nat n)) (eventPacketsCnt c) (gapPacketsCnt c)
  | NoneP _ => c
  | _ => set_counts c (samplesCnt c) (w64 (eventPacketsCnt c + 1)) (gapPacketsCnt c)
  end.

(** connection_impl.cpp:691-708 *)
Definition countPackets (c : conn) : conn :=
  fold_left countOne (packets c) (set_counts c 0 0 (gapPacketsCnt c)).

(** How the port is told about a new packet (connection_impl.cpp:76, 85, 94, 121). *)
Inductive notif := Notify (queueWasEmpty : bool) | NotifyOnThisThread | NotifyWithScheduler.
Inductive emethod := MEnqueue | MOnThisThread | MWithScheduler.

Inductive res := Success | Ignored | NoMoreItems | Failed (e : err) | UB.

(** One call on the connection; [active] is the value port.getActive() returns to it. *)
Inductive op :=
| Enq (m : emethod) (active : bool) (p : packet)
| EnqMultiple (active : bool) (ps : list packet)
| Deq
| DeqAll
| DeqUpTo (count : nat)
| Peek
| EnqLastDescriptor.

Record out := { o_res : res; o_packets : list packet; o_notif : option notif }.
Definition mk (r : res) (l : list packet) (n : option notif) : out :=
  {| o_res := r; o_packets := l; o_notif := n |}.

(** PacketType::Event? *)
Definition isEvent (p : packet) : bool :=
  match p with Data _ _ _ | NoneP _ => false | _ => true end.

(** connection_impl.cpp:35-95, 208-215 *)
Definition enqueueInternal (c : conn) (m : emethod) (active : bool) (p : packet) : conn * out :=
  if negb active && negb (isEvent p) then (c, mk Ignored [] None)
  else
    let queueWasEmpty := queueEmpty c in
    let g := match gapCheckState c with GDisabled => GOk c | _ => checkForGaps c p end in
    match g with
    | GUB => (c, mk UB [] None)
    | GThrow e => (c, mk (Failed e) [] None)
    | GOk c1 =>
        let c2 := onPacketEnqueued c1 p in
        let c3 := set_queueEmpty (set_packets c2 (packets c2 ++ [p])) false in
        (c3, mk Success []
               (Some (match m with
                      | MEnqueue => Notify queueWasEmpty
                      | MOnThisThread => NotifyOnThisThread
                      | MWithScheduler => NotifyWithScheduler
                      end)))
    end.

(** connection_impl.cpp:99-206, 217-224 *)
Definition enqueueMultiple (c : conn) (active : bool) (ps : list packet) : conn * out :=
  if negb active then (c, mk Ignored [] None)
  else
    let queueWasEmpty := queueEmpty c in
    let c1 := fold_left (fun c p => let c' := onPacketEnqueued c p in
                                    set_packets c' (packets c' ++ [p])) ps c in
    (set_queueEmpty c1 false, mk Success [] (Some (Notify queueWasEmpty))).

(** connection_impl.cpp:226-247 *)
Definition dequeue (c : conn) : conn * out :=
  match packets c with
  | [] => (set_queueEmpty c true, mk NoMoreItems [] None)
  | p :: l => (onPacketDequeued (set_packets c l) p, mk Success [p] None)
  end.

(** connection_impl.cpp:249-269 *)
Definition dequeueAll (c : conn) : conn * out :=
  (set_packets (set_counts c 0 0 (gapPacketsCnt c)) [], mk NoMoreItems (packets c) None).

(** connection_impl.cpp:271-288 *)
Definition peek (c : conn) : conn * out :=
  match packets c with
  | [] => (c, mk NoMoreItems [] None)
  | p :: _ => (c, mk Success [p] None)
  end.

(** connection_impl.cpp:502-522 *)
Definition dequeueUpTo (c : conn) (count : nat) : conn * out :=
  let n := Nat.min count (length (packets c)) in
  (countPackets (set_packets c (skipn n (packets c))), mk Success (firstn n (packets c)) None).

(** connection_impl.cpp:764-776 *)
Definition enqueueLastDescriptor (c : conn) : conn * out :=
  match valueDesc c, domainDesc c with
  | None, PUnchanged => (c, mk Success [] None)
  | v, d =>
      (set_packets (set_counts c (samplesCnt c) (w64 (eventPacketsCnt c + 1)) (gapPacketsCnt c))
                   (DescEv v d :: packets c), mk Success [] None)
  end.

Definition step (c : conn) (o : op) : conn * out :=
  match o with
  | Enq m a p => enqueueInternal c m a p
  | EnqMultiple a ps => enqueueMultiple c a ps
  | Deq => dequeue c
  | DeqAll => dequeueAll c
  | DeqUpTo n => dequeueUpTo c n
  | Peek => peek c
  | EnqLastDescriptor => enqueueLastDescriptor c
  end.

(** A history: the calls in order, with what each returned. *)
Fixpoint run (c : conn) (ops : list op) : conn * list (op * out) :=
  match ops with
  | [] => (c, [])
  | o :: ops' =>
      let '(c', u) := step c o in
      let '(c'', t) := run c' ops' in
      (c'', (o, u) :: t)
  end.

(** Queries. connection_impl.cpp:290-300 *)
Definition getPacketCount (c : conn) : nat := length (packets c).

(** connection_impl.cpp:302-313 *)
Definition getAvailableSamples (c : conn) : Z := samplesCnt c.

(** The scanning loop shared by lines 327-348, 367-393, 412-438; [stop] is the
    condition under which the Event case returns. *)
Fixpoint scanUntil (stop : packet -> bool) (l : list packet) (acc : Z) : Z :=
  match l with
  | [] => acc
  | Data _ n _ :: l' => scanUntil stop l' (w64 (acc + Z.of_nat n))
  | p :: l' => if stop p then acc else scanUntil stop l' acc
  end.

(** connection_impl.cpp:315-353 *)
Definition getSamplesUntilNextEventPacket (c : conn) : Z :=
  if (eventPacketsCnt c =? 0) && (gapPacketsCnt c =? 0) then samplesCnt c
  else scanUntil isEvent (packets c) 0.

(** connection_impl.cpp:355-398 *)
Definition getSamplesUntilNextDescriptor (c : conn) : Z :=
  if eventPacketsCnt c =? 0 then samplesCnt c
  else scanUntil (fun p => match p with DescEv _ _ => true | _ => false end) (packets c) 0.

(** connection_impl.cpp:400-443 *)
Definition getSamplesUntilNextGapPacket (c : conn) : Z :=
  if gapPacketsCnt c =? 0 then samplesCnt c
  else scanUntil (fun p => match p with GapEv _ => true | _ => false end) (packets c) 0.

(** connection_impl.cpp:445-455 *)
Definition hasEventPacket (c : conn) : bool :=
  negb (eventPacketsCnt c =? 0) || negb (gapPacketsCnt c =? 0).

(** connection_impl.cpp:457-467 *)
Definition hasGapPacket (c : conn) : bool := negb (gapPacketsCnt c =? 0).
