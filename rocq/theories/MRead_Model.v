(** The multi reader: one reader over several signals that aligns them in time
    and hands out the same span of every signal.
    Models core/opendaq/reader/src/multi_reader_impl.cpp and
    core/opendaq/reader/src/signal_reader.cpp.

    Simplifications: domains follow the linear rule and their ticks are already
    expressed in the common (finest) resolution and epoch; all ports are
    connected and stay so, the reader stays active, inputs are not added or
    removed and their "used" flag does not change; the divider of every signal
    is known from the start and no descriptor changes a sample rate without being
    refused; a descriptor event changes both descriptors; no tick offset
    tolerance; unsigned numbers do not wrap; one call runs at a time, except that
    packets may arrive while a read waits. A sample is represented by its tick. *)
From Coq Require Import List Bool ZArith.
Import ListNotations.
Open Scope Z_scope.

(** A packet in a connection: a data packet (tick of the first sample, number of
    samples), a descriptor change (whether the new descriptors are null, whether
    the reader accepts them) or a gap. *)
Inductive pkt := Data (start count : Z) | Desc (null ok : bool) | Gap.
(** signal_reader.h: SyncStatus without SynchronizationFailed. *)
Inductive sync := Unsync | Syncing | Synced.

(** signal_reader.h: SignalReader with ReadInfo: the queue of its connection, the
    packet being read and the index of its next sample (-1 for SizeT(-1)). *)
Record sig := mkSig {
  used : bool; divi : Z; delta : Z;
  q : list pkt; cur : option (Z * Z); idx : Z; st : sync; bad : bool }.
Definition with_read (s : sig) (qu : list pkt) (c : option (Z * Z)) (i : Z) : sig :=
  mkSig (used s) (divi s) (delta s) qu c i (st s) (bad s).
Definition with_st (s : sig) (x : sync) : sig :=
  mkSig (used s) (divi s) (delta s) (q s) (cur s) (idx s) x (bad s).
Definition with_bad (s : sig) (b : bool) : sig :=
  mkSig (used s) (divi s) (delta s) (q s) (cur s) (idx s) (st s) b.

(** multi_reader_impl.h: MultiReaderImpl. [want] is remainingSamplesToRead; [buf]
    is the call whose buffers the signals write to (None when null); [calls]
    counts the calls. *)
Record reader := mkR {
  sigs : list sig; cstart : option Z; inval : bool; nextev : bool;
  want : Z; buf : option Z; calls : Z }.
Definition with_sigs (r : reader) (ss : list sig) : reader :=
  mkR ss (cstart r) (inval r) (nextev r) (want r) (buf r) (calls r).
Definition with_start (r : reader) (c : option Z) : reader :=
  mkR (sigs r) c (inval r) (nextev r) (want r) (buf r) (calls r).
Definition with_inval (r : reader) (b : bool) : reader :=
  mkR (sigs r) (cstart r) b (nextev r) (want r) (buf r) (calls r).
Definition with_next (r : reader) (b : bool) : reader :=
  mkR (sigs r) (cstart r) (inval r) b (want r) (buf r) (calls r).
Definition with_want (r : reader) (n : Z) : reader :=
  mkR (sigs r) (cstart r) (inval r) (nextev r) n (buf r) (calls r).
Definition prepare (r : reader) (n : Z) (b : option Z) : reader :=
  mkR (sigs r) (cstart r) (inval r) (nextev r) n b (calls r).
Definition with_call (r : reader) : reader :=
  mkR (sigs r) (cstart r) (inval r) (nextev r) (want r) (buf r) (calls r + 1).

(** What the builder sets: ticks between two possible starts (None when the unit
    cannot be divided so), and the minimum number of samples to read. *)
Record cfg := mkCfg { grid : option Z; min_read : Z }.

(* ---------- one signal ---------- *)
(** connection_impl.cpp getSamplesUntilNextEventPacket / ...GapPacket. *)
Fixpoint until_event (across : bool) (ps : list pkt) : Z :=
  match ps with
  | [] => 0
  | Data _ c :: ps => c + until_event across ps
  | Desc _ _ :: ps => if across then until_event across ps else 0
  | Gap :: _ => 0
  end.
(** signal_reader.cpp 77-92. *)
Definition available (across : bool) (s : sig) : Z :=
  ((match cur s with Some (_, c) => c - idx s | None => 0 end) + until_event across (q s)) * divi s.
(** signal_reader.cpp 240-270: isFirstPacketEvent. *)
Definition first_event (s : sig) : sig * bool :=
  match cur s with
  | Some _ => (s, false)
  | None =>
      match q s with
      | [] => (s, false)
      | Data a c :: ps => (with_read s ps (Some (a, c)) 0, false)
      | _ :: _ => (s, true)
      end
  end.
(** What a reader is told about: a (merged) descriptor change or a gap. *)
Inductive note := NDesc | NGap.
(** 283-325: the loop; [seen]: a descriptor change was met (and whether it is
    accepted); [asg]: the last descriptors are not null. *)
Fixpoint merge (seen : option bool) (asg : bool) (ps : list pkt) : list pkt * option (Z * Z) * option (note * bool) :=
  let out := match seen with Some ok => Some (NDesc, ok) | None => None end in
  match ps with
  | [] => ([], None, out)
  | Data a c :: ps => (ps, Some (a, c), out)
  | Desc null ok :: ps => merge (Some ok) (negb null) ps
  | Gap :: ps' => if asg then (ps, None, out) else (ps', None, Some (NGap, true))
  end.
(** 272-353: readUntilNextDataPacket. *)
Definition until_data (s : sig) : sig * option note :=
  let '(s, ev) := first_event s in
  if negb ev then (s, None) else
  let '(ps, c, out) := merge None false (q s) in
  let s := with_read s ps c (match c with Some _ => 0 | None => idx s end) in
  match out with
  | Some (NDesc, ok) => (with_bad (with_st s Unsync) (negb ok), Some NDesc)
  | Some (NGap, _) => (with_st s Unsync, Some NGap)
  | None => (s, None)
  end.
(** 355-389: skipUntilLastEventPacket. *)
Fixpoint skip_to_event (ps : list pkt) : list pkt * bool :=
  match ps with
  | [] => ([], false)
  | Desc n k :: ps => (Desc n k :: ps, true)
  | _ :: ps => skip_to_event ps
  end.
Definition skip_until_event (s : sig) : sig * bool :=
  let '(ps, b) := skip_to_event (q s) in (with_read s ps None 0, b).

(** typed_reader.cpp 492-575: getOffsetToDataLinear; -1 when the target is outside. *)
Definition offset_to (d target a c : Z) : Z :=
  if c =? 0 then -1
  else if (target <=? a - d) || (a + d * (c - 1) <? target) then -1
  else (target - (a - d) + d - 1) / d - 1.
(** 391-452: SignalReader::sync; the loop, over the queue. *)
Fixpoint sync_loop (d target : Z) (a c : Z) (ps : list pkt) : list pkt * option (Z * Z) * Z * bool :=
  let k := offset_to d target a c in
  if k =? -1 then
    match ps with
    | [] => ([], None, -1, false)
    | Data a c :: ps => sync_loop d target a c ps
    | _ :: _ => (ps, None, -1, true)
    end
  else (ps, Some (a, c), k, false).
Definition sync_one (target : Z) (s : sig) : sig :=
  match st s with
  | Synced => s
  | _ =>
      let '(s, ev) := first_event s in
      if ev then s else
      match cur s with
      | None => with_st s (if idx s =? -1 then Syncing else Synced)
      | Some (a, c) =>
          let '(ps, cu, i, ev) := sync_loop (delta s) target a c (q s) in
          let s := with_read s ps cu i in
          if ev then s else with_st s (if i =? -1 then Syncing else Synced)
      end
  end.

(** How a piece of the call ends: normally, by looping for ever on an empty
    connection, by reading outside of a packet, by dereferencing a null pointer,
    or with an exception leaving the function. *)
Inductive fate := Fine | Spin | OutOfBounds | Crash | Throws.
Definition ticks (d from n : Z) : list Z := map (fun k => from + d * Z.of_nat k) (seq 0 (Z.to_nat n)).
(** 501-524 and 553-606: SignalReader::readPackets with readPacketData; [ps] starts
    with the packet being read. A refused descriptor ends the loop (489-496). *)
Fixpoint rd (d rem i : Z) (ps : list pkt) : list Z * list pkt * option (Z * Z) * Z * option bool * fate :=
  if rem =? 0 then ([], ps, None, i, None, Fine) else
  match ps with
  | [] => ([], [], None, i, None, Spin)
  | Desc _ ok :: ps =>
      if ok then let '(o, ps, c, i, b, f) := rd d rem i ps in (o, ps, c, i, match b with None => Some false | _ => b end, f)
      else ([], ps, None, i, Some true, Fine)
  | Gap :: ps => rd d rem i ps
  | Data a c :: ps =>
      if i <? 0 then ([], ps, None, i, None, OutOfBounds) else
      let left := c - i in
      let n := Z.min rem left in
      if n <? left then (ticks d (a + d * i) n, ps, Some (a, c), i + n, None, Fine)
      else let '(o, ps, cu, j, b, f) := rd d (rem - n) 0 ps in (ticks d (a + d * i) n ++ o, ps, cu, j, b, f)
  end.
Definition read_sig (rem : Z) (s : sig) : sig * list Z * fate :=
  if negb (used s) || (rem =? 0) then (s, [], Fine) else
  let '(o, ps, c, i, b, f) := rd (delta s) rem (idx s) (match cur s with Some (a, c) => Data a c :: q s | None => q s end) in
  (with_bad (with_read s ps c i) (match b with Some x => x | None => bad s end), o, f).

(* ---------- the reader ---------- *)
(** multi_reader_impl.cpp 552-557: sampleRateDividerLcm. *)
Fixpoint divs_lcm (ss : list sig) : Z :=
  match ss with
  | [] => 1
  | s :: ss => if used s then Z.lcm (divi s) (divs_lcm ss) else divs_lcm ss
  end.
Definition size_max : Z := 2 ^ 64 - 1.
(** 944-968: getMinSamplesAvailable. *)
Fixpoint min_avail (m : Z) (ss : list sig) : Z :=
  match ss with
  | [] => m
  | s :: ss =>
      if used s then
        let a := match cur s with Some _ => available false s | None => 0 end in
        if a <? m then (if a =? 0 then 0 else min_avail a ss) else min_avail m ss
      else min_avail m ss
  end.
Definition min_samples (ss : list sig) : Z := min_avail size_max ss.
(** 977-1000: getSyncStatus. *)
Fixpoint status (x : sync) (ss : list sig) : sync :=
  match ss with
  | [] => x
  | s :: ss =>
      if used s then
        match st s with
        | Unsync => Unsync
        | Syncing => status Syncing ss
        | Synced => status (match x with Unsync => Synced | _ => x end) ss
        end
      else status x ss
  end.
Definition sync_status (ss : list sig) : sync := status Unsync ss.
Definition on_used (f : sig -> sig) (s : sig) : sig := if used s then f s else s.

(** 1452-1496: readDomainStart: the latest of the first available ticks and of the
    start used before ... *)
Fixpoint domain_start (c : option Z) (ss : list sig) : option Z :=
  match ss with
  | [] => c
  | s :: ss =>
      if used s then
        let t := match cur s with Some (a, _) => a + delta s * idx s | None => 0 end in
        domain_start (match c with None => Some t | Some x => if x <? t then Some t else Some x end) ss
      else domain_start c ss
  end.
(** ... rounded up (typed_reader.cpp 146-200). *)
Definition round_up (g v : Z) : Z := Z.quot (v + g - 1) g * g.

(** 1031-1069: synchronize. *)
Inductive verdict := VOk | VErr | VCrash.
Definition sync_all (r : reader) (c : Z) : reader * Z * sync * verdict :=
  let r := with_sigs r (map (on_used (sync_one c)) (sigs r)) in
  let x := sync_status (sigs r) in
  (r, min_samples (sigs r), x, VOk).
Definition synchronize (c : cfg) (r : reader) : reader * Z * sync * verdict :=
  let m := min_samples (sigs r) in
  let x := sync_status (sigs r) in
  match x with
  | Synced => (r, m, x, VOk)
  | _ =>
    if m =? 0 then (r, m, x, VOk) else
    let r := with_sigs r (map (on_used (fun s => fst (first_event s))) (sigs r)) in
    let keep (res : reader * Z * sync * verdict) :=
      let '(r, m', x, v) := res in (r, match x with Synced => m' | _ => m end, x, v) in
    match x with
    | Syncing => match cstart r with Some t => keep (sync_all r t) | None => (r, m, x, VCrash) end
    | _ =>
        let r := with_sigs r (map (on_used (fun s => with_st s Unsync)) (sigs r)) in
        let t := domain_start (cstart r) (sigs r) in
        match t, grid c with
        | None, _ => (with_start r t, m, x, VCrash)
        | Some _, None => (with_start r t, m, x, VErr)
        | Some t, Some g => keep (sync_all (with_start r (Some (round_up g t))) (round_up g t))
        end
    end
  end.

(** 1003-1029: readUntilFirstDataPacketAndGetEvents. *)
Fixpoint collect (i : nat) (ss : list sig) : list sig * list (nat * note) * bool :=
  match ss with
  | [] => ([], [], false)
  | s :: ss =>
      let '(s, e) := until_data s in
      let '(ss, es, b) := collect (S i) ss in
      (s :: ss, match e with Some n => (i, n) :: es | None => es end, bad s || b)
  end.
(** 1071-1082: eventOrGapInQueue. *)
Definition is_event (p : pkt) : bool := match p with Data _ _ => false | _ => true end.
Definition event_queued (ss : list sig) : bool := existsb (fun s => used s && existsb is_event (q s)) ss.
(** 1435-1444: readSamples; the signals after one that never returns are not reached. *)
Fixpoint read_samples (n : Z) (ss : list sig) : list sig * list (list Z) * fate :=
  match ss with
  | [] => ([], [], Fine)
  | s :: ss =>
      let '(s, o, f) := read_sig (n / divi s) s in
      match f with
      | Fine => let '(ss, os, f) := read_samples n ss in (s :: ss, o :: os, f)
      | _ => (s :: ss, [o], f)
      end
  end.

(** What a call gives back. [Got n w into evs ok]: count, the samples of each
    signal that were consumed, where they were written to (nowhere, to the buffers
    passed to this call, or to those passed to an earlier one), the events, and
    the valid flag of the status. *)
Inductive dest := Nowhere | Mine | Stale.
Inductive outcome :=
| Done
| AvailIs (n : Z)
| Got (n : Z) (w : list (list Z)) (into : dest) (evs : list (nat * note)) (ok : bool)
| Rejected
| Dies (f : fate).

Definition target (r : reader) : dest :=
  match buf r with None => Nowhere | Some k => if k =? calls r then Mine else Stale end.
(** 1121-1152: readAndSynchronize; None: no status yet. *)
Definition none (ss : list sig) : list (list Z) := map (fun _ => []) ss.
Definition read_sync (c : cfg) (zero : bool) (r : reader) : reader * Z * sync * option outcome :=
  let '(ss, evs, b) := collect 0 (sigs r) in
  let r := with_inval (with_sigs r ss) (inval r || b) in
  let '(r, m, x, v) := synchronize c r in
  let say es := Some (Got 0 (none (sigs r)) (target r) es (negb (inval r))) in
  match v with
  | VCrash => (r, m, x, Some (Dies Crash))
  | VErr => (r, m, x, say evs)
  | VOk =>
      match evs with
      | _ :: _ => (r, m, x, say evs)
      | [] =>
          if zero then
            if (m <? min_read c) && event_queued (sigs r) then
              let '(ss, w, f) := read_samples m (sigs r) in
              let r := with_sigs r ss in
              match f with
              | Fine => (r, m, x, Some (Got 0 w (target r) [] (negb (inval r))))
              | _ => (r, m, x, Some (Dies f))
              end
            else (r, m, x, say [])
          else (r, m, x, None)
      end
  end.
(** 1084-1103: dataPacketsOrEventReady. *)
Fixpoint ready (ss : list sig) : list sig * bool :=
  match ss with
  | [] => ([], true)
  | s :: ss =>
      if used s then
        let '(s, ev) := first_event s in
        if ev then (s :: ss, true) else
        let '(ss, b) := ready ss in (s :: ss, b && negb (available true s =? 0))
      else let '(ss, b) := ready ss in (s :: ss, b)
  end.
(** A packet is put in the connection of signal i (connection_impl.cpp enqueue). *)
Fixpoint at_sig (i : nat) (f : sig -> sig) (ss : list sig) : list sig :=
  match i, ss with
  | _, [] => []
  | O, s :: ss => f s :: ss
  | S i, s :: ss => s :: at_sig i f ss
  end.
Definition push (r : reader) (ip : nat * pkt) : reader :=
  with_sigs r (at_sig (fst ip) (fun s => with_read s (q s ++ [snd ip]) (cur s) (idx s)) (sigs r)).
(** 1342-1385: packetReceived. *)
Definition notify (r : reader) (i : nat) : reader :=
  if inval r then
    match nth_error (sigs r) i with
    | Some s => with_next (with_sigs r (at_sig i (fun s => fst (skip_until_event s)) (sigs r))) (snd (skip_until_event s))
    | None => r
    end
  else with_sigs r (fst (ready (sigs r))).

(** 1163-1193: the condition of the wait, evaluated before the first batch of
    packets and after each; the result of the last one that was not cut short. *)
Definition condition (c : cfg) (zero : bool) (r : reader) (last : Z * sync) : reader * (Z * sync) * option outcome * bool :=
  let '(ss, b) := ready (sigs r) in
  let r := with_sigs r ss in
  if negb b then (r, last, None, false) else
  let '(r, m, x, o) := read_sync c zero r in
  match o with
  | Some o => (r, (m, x), Some o, true)
  | None => (r, (m, x), None, match x with Synced => want r <=? m | _ => false end)
  end.
Definition arrive (r : reader) (b : list (nat * pkt)) : reader :=
  fold_left (fun r ip => notify (push r ip) (fst ip)) b r.
Fixpoint wait (c : cfg) (zero : bool) (bs : list (list (nat * pkt))) (r : reader) (last : Z * sync) : reader * (Z * sync) * option outcome * list (list (nat * pkt)) :=
  let '(r, last, o, stop) := condition c zero r last in
  if stop then (r, last, o, bs) else
  match bs with
  | [] => (r, last, o, [])
  | b :: bs => wait c zero bs (arrive r b) last
  end.
(** 1105-1119: calculateOffset asks the packet of the first signal for its domain. *)
Definition no_offset (ss : list sig) : bool :=
  match ss with s :: _ => match cur s with None => true | Some _ => false end | [] => false end.
(** 1154-1228: readPackets; without a time limit (None) there is no waiting. The
    count is left to the caller. The second part is what follows the wait. *)
Definition read_rest (c : cfg) (zero : bool) (r : reader) (m : Z) (x : sync) : reader * outcome :=
      let '(r, m, x, o) := match x with Synced => (r, m, x, None) | _ => read_sync c zero r end in
      match o with
      | Some o => (r, o)
      | None =>
          match x with
          | Synced =>
              if 0 <? m then
                if no_offset (sigs r) then (r, Dies Throws) else
                let n := Z.min (want r) m in
                let '(ss, w, f) := read_samples n (sigs r) in
                let r := with_want (with_sigs r ss) (want r - n) in
                match f with
                | Fine => (r, Got 0 w (target r) [] (negb (inval r)))
                | _ => (r, Dies f)
                end
              else (r, Got 0 (none (sigs r)) (target r) [] (negb (inval r)))
          | _ => (r, Got 0 (none (sigs r)) (target r) [] (negb (inval r)))
          end
      end.
Definition read_packets (c : cfg) (limit : option (list (list (nat * pkt)))) (r : reader) : reader * outcome * list (list (nat * pkt)) :=
  let zero := want r =? 0 in
  let '(r, (m, x), o, rest) := match limit with Some bs => wait c zero bs r (0, Unsync) | None => (r, (0, Unsync), None, []) end in
  match o with
  | Some o => (r, o, rest)
  | None => let '(r, o) := read_rest c zero r m x in (r, o, rest)
  end.
Definition set_count (n : Z) (o : outcome) : outcome :=
  match o with Got _ w b es ok => Got n w b es ok | _ => o end.
Definition drop_events (ok : bool) (o : outcome) : outcome :=
  match o with Got n w b _ _ => Got n w b [] ok | _ => o end.

(** 823-912: read and (dom) readWithDomain; [nul]: null buffers. The time limit
    of the early return is the one left over from the previous call; here none.
    Also gives the batches of packets that had not arrived when it returned. *)
Definition do_read (c : cfg) (dom nul : bool) (count : Z) (limit : option (list (list (nat * pkt)))) (r : reader) : reader * outcome * list (list (nat * pkt)) :=
  let later := match limit with Some bs => bs | None => [] end in
  if negb (count =? 0) && (nul || (count <? min_read c)) then (r, Rejected, later) else
  let r := with_call r in
  if nextev r then
    let '(r, o, _) := read_packets c None r in
    (r, set_count 0 (if dom && inval r then drop_events (negb (inval r)) o else o), later)
  else if inval r then (r, Got 0 (none (sigs r)) (target r) [] false, later)
  else
    let l := divs_lcm (sigs r) in
    let n := count / l * l in
    if dom && nul && negb (match sigs r with [] => true | _ => false end) then (r, Dies Crash, later) else
    let r := prepare r n (if nul then None else Some (calls r)) in
    let '(r, o, rest) := read_packets c limit r in
    (r, set_count (n - want r) o, rest).
(** 914-942: skipSamples. *)
Definition do_skip (c : cfg) (count : Z) (r : reader) : reader * outcome :=
  if inval r then (r, Got 0 (none (sigs r)) Nowhere [] false) else
  if count <? min_read c then (r, Rejected) else
  let r := prepare r count None in
  let '(r, o, _) := read_packets c None r in
  (r, set_count (count - want r) o).
(** 673-696: getAvailableCount. *)
Definition do_avail (c : cfg) (r : reader) : reader * outcome :=
  let '(r, m, x, v) := synchronize c r in
  match v with
  | VCrash => (r, Dies Crash)
  | VErr => (r, Rejected)
  | VOk =>
      let l := divs_lcm (sigs r) in
      let n := match x with Synced => if m / l * l <? min_read c then 0 else m / l * l | _ => 0 end in
      (r, AvailIs n)
  end.

Inductive op :=
| Push (i : nat) (p : pkt)
| Notify (i : nat)
| Read (dom nul : bool) (count : Z) (limit : option (list (list (nat * pkt))))
| Skip (count : Z)
| Avail.
Definition step (c : cfg) (o : op) (r : reader) : reader * outcome :=
  match o with
  | Push i p => (push r (i, p), Done)
  | Notify i => (notify r i, Done)
  | Read dom nul n limit => let '(r, x, rest) := do_read c dom nul n limit r in (fold_left arrive rest r, x)
  | Skip n => do_skip c n r
  | Avail => do_avail c r
  end.
(** A run ends with the first call that does not return. *)
Fixpoint run (c : cfg) (h : list op) (r : reader) : reader * list outcome :=
  match h with
  | [] => (r, [])
  | o :: h =>
      let '(r, x) := step c o r in
      match x with
      | Dies _ => (r, [x])
      | _ => let '(r, xs) := run c h r in (r, x :: xs)
      end
  end.
(** A new reader over signals (used, divider, ticks between samples). *)
Definition fresh (l : list (bool * Z * Z)) : reader :=
  mkR (map (fun x => mkSig (fst (fst x)) (snd (fst x)) (snd x) [] None 0 Unsync false) l) None false false 0 None 0.
