(** The tail reader.
    core/opendaq/reader/src/tail_reader_impl.cpp, include/opendaq/reader_impl.h.

    How values are converted is left out (SRead_Model has it): a packet is its
    samples, the values and the domain values read separately.  A descriptor
    event is whether the reader stays valid with it.  packetReceived takes the
    packets out of the connection one by one; here each is one operation. *)
From Verif Require Import Base.
Local Open Scope Z_scope.

Inductive packet := Data (smp : list Z) (dom : option (list Z)) | Desc (ok : bool) | OtherEv (n : nat).
Record state := { cache : list packet; cachedSamples : Z; invalid : bool; historySize : Z; skipEvents : bool }.
Definition init (history : Z) (skip : bool) : state := {| cache := []; cachedSamples := 0; invalid := false; historySize := history; skipEvents := skip |}.

Definition cnt (smp : list Z) : Z := Z.of_nat (length smp).

(** tail_reader_impl.h (TailReaderInfo) and what was written to the buffers *)
Record info := { remainingToRead : Z; offset : Z; gotv : list Z; gotd : list Z }.

(** tail_reader_impl.cpp:110-151; None: the exception of a missing domain packet.
    [d]: domain values are wanted. *)
Definition readPacket (d : bool) (i : info) (smp : list Z) (dom : option (list Z)) : option info :=
  if offset i >? cnt smp then Some {| remainingToRead := remainingToRead i; offset := offset i - cnt smp; gotv := gotv i; gotd := gotd i |}
  else
    let remaining := cnt smp - offset i in
    let toRead := Z.min (remainingToRead i) remaining in
    let part (l : list Z) := firstn (Z.to_nat toRead) (skipn (Z.to_nat (offset i)) l) in
    let result (ds : list Z) := {| remainingToRead := remainingToRead i - toRead; offset := 0; gotv := gotv i ++ part smp; gotd := gotd i ++ ds |} in
    if d then match dom with None => None | Some l => Some (result (part l)) end
    else Some (result []).

Inductive ending := NoEvent | ByEvent (e : packet) | Throws.

(** tail_reader_impl.cpp:165-197: the loop.  [kept]: the packets passed that are
    still in the cache, [read]: readCachedSamples.  Events other than descriptor
    changes make handleDescriptorChanged throw (reader_impl.h:452-453,
    event_packet_utils.h:30-31) before they are removed. *)
Fixpoint loop (d skip : bool) (l kept : list packet) (read cached : Z) (inv : bool) (i : info) : list packet * Z * bool * info * ending :=
  match l with
  | [] => (kept, cached, inv, i, NoEvent)
  | Data smp dom :: r =>
      match readPacket d i smp dom with
      | None => (kept ++ l, cached, inv, i, Throws)
      | Some i' => loop d skip r (kept ++ [Data smp dom]) (w64 (read + cnt smp)) cached inv i'
      end
  | Desc ok :: r =>
      let inv' := inv || negb ok in
      let cached' := w64 (cached - read) in
      if negb skip || inv' then (r, cached', inv', i, ByEvent (Desc ok))
      else loop d skip r [] read cached' inv' i
  | OtherEv n :: r => (kept ++ l, cached, inv, i, Throws)
  end.

Record out := { vals : list Z; domain : list Z; event : option packet; valid : bool; sufficient : bool }.
Inductive result := Done | Ignored | Returned (o : out) | Thrown.

(** tail_reader_impl.cpp:153-163, 197-259 *)
Definition doRead (s : state) (d : bool) (n : Z) : state * result :=
  if invalid s then (s, Ignored)
  else if (n >? cachedSamples s) && (n >? historySize s)
  then (s, Returned {| vals := []; domain := []; event := None; valid := true; sufficient := false |})
  else
    let i := {| remainingToRead := n; offset := if cachedSamples s >? n then cachedSamples s - n else 0; gotv := []; gotd := [] |} in
    let '(c, cached, inv, i', e) := loop d (skipEvents s) (cache s) [] 0 (cachedSamples s) false i in
    ({| cache := c; cachedSamples := cached; invalid := inv; historySize := historySize s; skipEvents := skipEvents s |},
     match e with
     | Throws => Thrown
     | NoEvent => Returned {| vals := gotv i'; domain := gotd i'; event := None; valid := negb inv; sufficient := true |}
     | ByEvent p => Returned {| vals := gotv i'; domain := gotd i'; event := Some p; valid := negb inv; sufficient := true |}
     end).

(** tail_reader_impl.cpp:281-304: the oldest data packets are dropped while enough
    samples remain; events stay *)
Fixpoint trim (history : Z) (l : list packet) (available : Z) : list packet * Z :=
  match l with
  | Data smp dom :: r => if w64 (available - cnt smp) >=? history then trim history r (w64 (available - cnt smp)) else (l, available)
  | e :: r => let '(r', a) := trim history r available in (e :: r', a)
  | [] => ([], available)
  end.
(** tail_reader_impl.cpp:261-324 *)
Definition receive (p : packet) (s : state) : state :=
  let '(c, n) :=
    match p with
    | Data smp _ =>
        if cachedSamples s <? historySize s then (cache s ++ [p], w64 (cachedSamples s + cnt smp))
        else let '(c, a) := trim (historySize s) (cache s) (w64 (cachedSamples s + cnt smp)) in (c ++ [p], a)
    | _ => (cache s ++ [p], cachedSamples s)
    end in
  {| cache := c; cachedSamples := n; invalid := invalid s; historySize := historySize s; skipEvents := skipEvents s |}.

Inductive op := Receive (p : packet) | Read (n : Z) | ReadWithDomain (n : Z).
Definition step (s : state) (o : op) : state * result :=
  match o with Receive p => (receive p s, Done) | Read n => doRead s false n | ReadWithDomain n => doRead s true n end.
(** newest first *)
Fixpoint after (history : Z) (skip : bool) (h : list op) : state :=
  match h with [] => init history skip | o :: r => fst (step (after history skip r) o) end.

(** tail_reader_impl.cpp:74-82 *)
Definition getAvailableCount (s : state) : Z := cachedSamples s.
