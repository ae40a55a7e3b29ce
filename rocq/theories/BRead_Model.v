(** The block reader.
    core/opendaq/reader/src/block_reader_impl.cpp, include/opendaq/block_reader_impl.h.

    How values are converted is left out (SRead_Model has it): a packet is its
    samples, the values and the domain values read separately.  A descriptor event
    is whether the reader stays valid with it.  Waiting for a timeout is the packets
    received before the read.  The number of samples written since the last event
    does not wrap; the number still to be read does. *)
From Verif Require Import Base.
Local Open Scope Z_scope.

Record dpkt := { smp : list Z; dom : option (list Z) }.
Inductive packet := Data (p : dpkt) | Desc (ok : bool) | Gap | Other (n : nat).
Definition size (p : dpkt) : Z := Z.of_nat (length (smp p)).

(** block_reader_impl.cpp:456-463, initOverlap; overlap is below 100 *)
Record config := { blockSize : Z; overlap : Z; skipEvents : bool }.
Definition overlappedBlockSize (c : config) : Z := (blockSize c * overlap c) / 100.
Definition overlappedBlockSizeRemainder (c : config) : Z := blockSize c - overlappedBlockSize c.

(** block_reader_impl.h:30-45, BlockReadInfo; [cur] is currentDataPacketIter as an index
    (the length of the queue is end()), [outv] and [outd] what was written to the
    buffers in this call *)
Record info := { queue : list dpkt; cur : nat; prev : Z; written : Z; remaining : Z; outv : list Z; outd : list Z }.

(** block_reader_impl.h:87-121, the loop of rewindQueue; None: the iterator is moved
    before the first packet *)
Fixpoint rewind (q : list dpkt) (c : nat) (r p : Z) : option (nat * Z) :=
  let sz (j : nat) := match nth_error q j with Some x => size x | None => 0 end in
  if r >? sz c then match c with O => None | S c' => rewind q c' (r - sz c) p end
  else if p <? r then match c with O => None | S c' => rewind q c' (r - p) (sz c') end
  else Some (c, p - r).

(** block_reader_impl.h:123-130, trimQueue; None: division by zero, or the packet the
    reader stands on is removed *)
Definition trim (ov n : Z) (q : list dpkt) (c : nat) : option (list dpkt * nat) :=
  if n =? 0 then None
  else
    let packetCount := ov / n + (if ov mod n =? 0 then 0 else 1) in
    let drop := (length q - Z.to_nat packetCount)%nat in
    if (c <? drop)%nat then None else Some (skipn drop q, (c - drop)%nat).

Inductive rresult := Ok (i : info) | Failed | Undef.

(** block_reader_impl.cpp:245-296, readPacketData; [d]: domain values are wanted *)
Definition readPacketData (c : config) (d : bool) (i : info) : rresult :=
  match nth_error (queue i) (cur i) with
  | None => Undef
  | Some p =>
      let n := size p in
      if prev i >? n then Undef
      else
        let t := Z.min (blockSize c - written i mod blockSize c) (n - prev i) in
        let part (l : list Z) := firstn (Z.to_nat t) (skipn (Z.to_nat (prev i)) l) in
        match (if d then dom p else Some []) with
        | None => Failed
        | Some dl =>
            let w := written i + t in
            let pr := prev i + t in
            let rem := w64 (remaining i - t) in
            match
              (if overlap c =? 0 then Some (cur i, pr, rem)
               else if w mod blockSize c =? 0
                    then match rewind (queue i) (cur i) (overlappedBlockSize c) pr with
                         | None => None
                         | Some (c', p') => Some (c', p', if rem =? 0 then rem else w64 (rem + overlappedBlockSize c))
                         end
                    else Some (cur i, pr, rem))
            with
            | None => Undef
            | Some (c', p', rem') =>
                if p' =? n
                then match trim (overlappedBlockSize c) n (queue i) (S c') with
                     | None => Undef
                     | Some (q', c'') => Ok {| queue := q'; cur := c''; prev := 0; written := w; remaining := rem'; outv := outv i ++ part (smp p); outd := outd i ++ part dl |}
                     end
                else Ok {| queue := queue i; cur := c'; prev := p'; written := w; remaining := rem'; outv := outv i ++ part (smp p); outd := outd i ++ part dl |}
            end
        end
  end.

(** block_reader_impl.h:160-166 *)
Definition clean (i : info) : info :=
  {| queue := []; cur := 0; prev := 0; written := 0; remaining := remaining i; outv := outv i; outd := outd i |}.
Definition append (p : dpkt) (i : info) : info :=
  {| queue := queue i ++ [p]; cur := length (queue i); prev := prev i; written := written i; remaining := remaining i; outv := outv i; outd := outd i |}.

Inductive ending := NoEvent | ByEvent (e : packet) | ByFailure | ByUndef | Endless.

(** block_reader_impl.cpp:336-398, the loop of readPackets *)
Fixpoint readPackets (fuel : nat) (c : config) (d : bool) (conn : list packet) (inv : bool) (i : info) : list packet * bool * info * ending :=
  match fuel with
  | O => (conn, inv, i, Endless)
  | S f =>
      if (cur i <? length (queue i))%nat
      then if remaining i =? 0 then (conn, inv, i, NoEvent)
           else match readPacketData c d i with
                | Ok i' => readPackets f c d conn inv i'
                | Failed => (conn, inv, i, ByFailure)
                | Undef => (conn, inv, i, ByUndef)
                end
      else match conn with
           | [] => (conn, inv, i, NoEvent)
           | Data p :: r => readPackets f c d r inv (append p i)
           | e :: r =>
               let inv' := match e with Desc ok => inv || negb ok | _ => inv end in
               if negb (skipEvents c) || inv' || match e with Gap => true | _ => false end
               then (r, inv', clean i, ByEvent e)
               else readPackets f c d r inv' i
           end
  end.

Record state := { conn : list packet; squeue : list dpkt; scur : nat; sprev : Z; swritten : Z; invalid : bool }.
Definition init : state := {| conn := []; squeue := []; scur := 0; sprev := 0; swritten := 0; invalid := false |}.

Record out := { vals : list Z; domain : list Z; count : Z; event : option packet; valid : bool }.
Inductive result := Done | Ignored | Returned (o : out) | Undefined | Hangs.

(** enough rounds for everything that is in the connection and the queue *)
Definition samplesOf (l : list packet) : Z := fold_right Z.add 0 (map (fun p => match p with Data x => size x | _ => 0 end) l).
Definition rounds (c : config) (s : state) : nat :=
  Z.to_nat ((Z.of_nat (length (conn s)) + samplesOf (conn s) + samplesOf (map Data (squeue s)) + 2) * (blockSize c + 2)).

(** block_reader_impl.cpp:400-454, read and readWithDomain *)
Definition doRead (c : config) (s : state) (d : bool) (n : Z) : state * result :=
  if invalid s then (s, Ignored)
  else
    let samplesToRead := if n =? 0 then 0 else w64 (n * overlappedBlockSizeRemainder c + overlappedBlockSize c) in
    let i := {| queue := squeue s; cur := scur s; prev := sprev s; written := swritten s; remaining := samplesToRead; outv := []; outd := [] |} in
    let '(r, inv, i', e) := readPackets (rounds c s) c d (conn s) false i in
    let readSamples := match e with ByFailure => written i' - swritten s | _ => Z.of_nat (length (outv i')) end in
    let ret (ev : option packet) (v : bool) := Returned {| vals := outv i'; domain := outd i'; count := readSamples / blockSize c; event := ev; valid := v |} in
    ({| conn := r; squeue := queue i'; scur := cur i'; sprev := prev i'; swritten := written i'; invalid := inv |},
     match e with
     | NoEvent => ret None (negb inv)
     | ByEvent p => ret (Some p) (negb inv)
     | ByFailure => ret None true
     | ByUndef => Undefined
     | Endless => Hangs
     end).

Inductive op := Receive (p : packet) | Read (n : Z) | ReadWithDomain (n : Z).
Definition step (c : config) (s : state) (o : op) : state * result :=
  match o with
  | Receive p => ({| conn := conn s ++ [p]; squeue := squeue s; scur := scur s; sprev := sprev s; swritten := swritten s; invalid := invalid s |}, Done)
  | Read n => doRead c s false n
  | ReadWithDomain n => doRead c s true n
  end.
(** newest first *)
Fixpoint after (c : config) (h : list op) : state := match h with [] => init | o :: r => fst (step c (after c r) o) end.

(** connection_impl.cpp:315-445 (Conn_Model has the counters behind them) *)
Definition is_event (p : packet) : bool := match p with Data _ => false | _ => true end.
Definition is_gap (p : packet) : bool := match p with Gap => true | _ => false end.
Fixpoint samplesUntil (f : packet -> bool) (l : list packet) : Z :=
  match l with [] => 0 | p :: r => if f p then 0 else match p with Data x => size x | _ => 0 end + samplesUntil f r end.
(** block_reader_impl.cpp:134-142 *)
Definition getAvailableSamples (c : config) (s : state) : Z :=
  match nth_error (squeue s) (scur s) with Some p => w64 (size p - sprev s) | None => 0 end
  + samplesUntil (if skipEvents c then is_gap else is_event) (conn s).
(** block_reader_impl.cpp:465-483 *)
Definition calculateBlockCount (c : config) (s : state) (n : Z) : Z :=
  if n <? blockSize c then
    if existsb is_gap (conn s) then (if n >? 0 then 1 else 0)
    else if negb (skipEvents c) && existsb is_event (conn s) then (if n >? 0 then 1 else 0)
    else 0
  else (n - blockSize c) / overlappedBlockSizeRemainder c + 1.
(** block_reader_impl.cpp:128-132 *)
Definition getAvailableCount (c : config) (s : state) : Z := calculateBlockCount c s (getAvailableSamples c s).
