(** The queue of packet buffers of a packet streaming server and its
    transmission in batches:
    shared/libraries/packet_streaming/src/packet_streaming_server.cpp (queue and
    cacheable groups) and
    shared/libraries/native_streaming_protocol/src/streaming_manager.cpp
    (getStreamingWriteTasks, cachePacketsToLinearBuffer).

    A buffer is its header bytes, payload bytes and group id; packetHeader->size
    is the number of header bytes, packetHeader->payloadSize the number of
    payload bytes (how the two are stored in the header is modelled in the
    Frame files).  Counts and byte sums are size_t and do not wrap here (they
    count objects in memory); the group id counter and the 32-bit sum of
    header and payload size do. *)
From Verif Require Import Base Bytes Frame_Model PStr_Model.
Local Open Scope Z_scope.

Record buf := { hdr : list Z; pay : list Z; gid : Z }.
Record group := { g_count : Z; g_size : Z }.
Record queue := { items : list buf;               (* queue *)
                  groups : list (Z * group);      (* cacheableBuffersGroups *)
                  cur : Z;                        (* currentCacheablePacketGroupId *)
                  nonc : Z;                       (* countOfNonCacheableBuffers *)
                  cmax : Z }.                     (* cacheablePacketPayloadSizeMax *)

(** How a call ends: normally, by a failed linear caching assertion, or by the
    "Size of message payload exceeds limit" exception. *)
Inductive outcome (A : Type) := Done (a : A) | Assertion | TooBig.
Arguments Done {A}. Arguments Assertion {A}. Arguments TooBig {A}.

Definition cacheable (b : buf) : bool := negb (gid b =? 0).
(** packetHeader->size + packetHeader->payloadSize *)
Definition bsize (b : buf) : Z := w32 (zlen (hdr b) + zlen (pay b)).

(** packet_streaming_server.cpp:18-24 *)
Definition queue_init (max : Z) : queue := {| items := []; groups := []; cur := 0; nonc := 0; cmax := max |}.

Definition last_item (l : list buf) : option buf := match rev l with [] => None | b :: _ => Some b end.

(** packet_streaming_server.cpp:273-294: the group id and the new counter *)
Definition getPacketCacheableGroupId (payloadSize : Z) (q : queue) : outcome (Z * Z) :=
  if payloadSize <=? cmax q then
    match last_item (items q) with
    | None => match groups q with
              | [] => Done (1, 1)
              | _ => Assertion
              end
    | Some b =>
        let c1 := if cacheable b then cur q else w64 (cur q + 1) in
        let c2 := if c1 =? 0 then w64 (c1 + 1) else c1 in
        Done (c2, c2)
    end
  else Done (0, cur q).

(** packet_streaming_server.cpp:258-271 *)
Definition queuePacketBuffer (b : buf) (q : queue) : queue :=
  if cacheable b then
    let g := match lookup (gid b) (groups q) with Some g => g | None => {| g_count := 0; g_size := 0 |} end in
    {| items := items q ++ [b];
       groups := assign (gid b) {| g_count := g_count g + 1; g_size := g_size g + bsize b |} (groups q);
       cur := cur q; nonc := nonc q; cmax := cmax q |}
  else {| items := items q ++ [b]; groups := groups q; cur := cur q; nonc := nonc q + 1; cmax := cmax q |}.

(** packet_streaming_server.cpp:146-184, 327-443: every packet buffer is
    created with a fresh group id and queued. *)
Definition add (h p : list Z) (q : queue) : outcome queue :=
  match getPacketCacheableGroupId (zlen p) q with
  | Done (g, c) =>
      Done (queuePacketBuffer {| hdr := h; pay := p; gid := g |}
        {| items := items q; groups := groups q; cur := c; nonc := nonc q; cmax := cmax q |})
  | Assertion => Assertion
  | TooBig => TooBig
  end.

(** packet_streaming_server.cpp:63-108 *)
Definition getNextPacketBuffer (q : queue) : outcome (option (buf * queue)) :=
  match items q with
  | [] => Done None
  | b :: r =>
      if cacheable b then
        match lookup (gid b) (groups q) with
        | None => Assertion
        | Some g =>
            if g_count g =? 0 then Assertion else
            let n := g_count g - 1 in
            if g_size g <? bsize b then Assertion else
            let z := g_size g - bsize b in
            let q' gs := {| items := r; groups := gs; cur := cur q; nonc := nonc q; cmax := cmax q |} in
            if (n =? 0) || (z =? 0) then
              if (n =? 0) && (z =? 0) then Done (Some (b, q' (erase (gid b) (groups q)))) else Assertion
            else Done (Some (b, q' (assign (gid b) {| g_count := n; g_size := z |} (groups q))))
        end
      else
        if nonc q =? 0 then Assertion
        else Done (Some (b, {| items := r; groups := groups q; cur := cur q; nonc := nonc q - 1; cmax := cmax q |}))
  end.

Definition getCountOfCacheableBuffers (g : Z) (q : queue) : Z :=
  match lookup g (groups q) with Some x => g_count x | None => 0 end.
Definition getSizeOfCacheableBuffers (g : Z) (q : queue) : Z :=
  match lookup g (groups q) with Some x => g_size x | None => 0 end.

(** memcpy into a vector of fixed size *)
Definition blit (v : list Z) (pos : Z) (bytes : list Z) : list Z :=
  firstn (Z.to_nat pos) v ++ bytes ++ skipn (Z.to_nat pos + length bytes) v.

(** base_session_handler.cpp:377-388: transport header and packet header *)
Definition headers (b : buf) : outcome (list Z) :=
  if bsize b >? MAX_PAYLOAD_SIZE then TooBig
  else Done (write_header tPacket (bsize b) ++ hdr b).

(** TransportHeader::PACKED_HEADER_SIZE *)
Definition PACKED : Z := 4.

(** streaming_manager.cpp:184-210: the copy loop, [n] buffers to go *)
Fixpoint copy_loop (n : nat) (g : Z) (size : Z) (q : queue) (v : list Z) (pos : Z) : queue * outcome (list Z * Z) :=
  match n with
  | O => (q, Done (v, pos))
  | S n' =>
      match getNextPacketBuffer q with
      | Done None => (q, Assertion)
      | Done (Some (b, q')) =>
          if negb (g =? gid b) then (q', Assertion)
          else if size <? pos + PACKED + zlen (hdr b) + zlen (pay b) then (q', Assertion)
          else match headers b with
               | Done h =>
                   let v1 := blit v pos h in
                   let pos1 := pos + PACKED + zlen (hdr b) in
                   let v2 := if zlen (pay b) >? 0 then blit v1 pos1 (pay b) else v1 in
                   copy_loop n' g size q' v2 (pos1 + zlen (pay b))
               | Assertion => (q', Assertion)
               | TooBig => (q', TooBig)
               end
      | Assertion => (q, Assertion)
      | TooBig => (q, TooBig)
      end
  end.

(** streaming_manager.cpp:165-219: the bytes of the one write task *)
Definition cachePacketsToLinearBuffer (g : Z) (q : queue) : queue * outcome (list Z) :=
  let count := getCountOfCacheableBuffers g q in
  let size := PACKED * count + getSizeOfCacheableBuffers g q in
  if zlen (items q) <? count then (q, Assertion)
  else
    match copy_loop (Z.to_nat count) g size q (repeat 0 (Z.to_nat size)) 0 with
    | (q', Done (v, pos)) => if negb (pos =? size) then (q', Assertion) else (q', Done v)
    | (q', Assertion) => (q', Assertion)
    | (q', TooBig) => (q', TooBig)
    end.

(** base_session_handler.cpp:390-408: one or two write tasks *)
Definition createTasks (b : buf) : outcome (list (list Z)) :=
  match headers b with
  | Done h => Done (h :: if zlen (pay b) >? 0 then [pay b] else [])
  | Assertion => Assertion
  | TooBig => TooBig
  end.

(** streaming_manager.cpp:494-519: the write tasks of all queued buffers.
    The loop ends when the queue is empty; [fuel] bounds its iterations. *)
Fixpoint write_tasks (fuel : nat) (q : queue) (acc : list (list Z)) : queue * outcome (list (list Z)) :=
  match items q with
  | [] => (q, Done acc)
  | b :: _ =>
      match fuel with
      | O => (q, Assertion)
      | S f =>
          if cacheable b then
            match cachePacketsToLinearBuffer (gid b) q with
            | (q', Done v) => write_tasks f q' (acc ++ [v])
            | (q', Assertion) => (q', Assertion)
            | (q', TooBig) => (q', TooBig)
            end
          else
            match getNextPacketBuffer q with
            | Done (Some (b', q')) =>
                match createTasks b' with
                | Done ts => write_tasks f q' (acc ++ ts)
                | Assertion => (q', Assertion)
                | TooBig => (q', TooBig)
                end
            | Done None => (q, Assertion)
            | Assertion => (q, Assertion)
            | TooBig => (q, TooBig)
            end
      end
  end.
Definition getStreamingWriteTasks (q : queue) : queue * outcome (list (list Z)) :=
  write_tasks (length (items q)) q [].

(** What callers do with the queue. *)
Inductive qop := QAdd (h p : list Z) | QNext | QBatch.
Inductive qout := ONone | OBuf (b : option (list Z * list Z)) | OTasks (ts : list (list Z)) | OTooBig | OAssert.

Definition qstep (q : queue) (o : qop) : queue * qout :=
  match o with
  | QAdd h p => match add h p q with Done q' => (q', ONone) | Assertion => (q, OAssert) | TooBig => (q, OTooBig) end
  | QNext => match getNextPacketBuffer q with
             | Done None => (q, OBuf None)
             | Done (Some (b, q')) => (q', OBuf (Some (hdr b, pay b)))
             | Assertion => (q, OAssert)
             | TooBig => (q, OTooBig)
             end
  | QBatch => match getStreamingWriteTasks q with
              | (q', Done ts) => (q', OTasks ts)
              | (q', Assertion) => (q', OAssert)
              | (q', TooBig) => (q', OTooBig)
              end
  end.
Fixpoint qrun (q : queue) (ops : list qop) : queue * list qout :=
  match ops with
  | [] => (q, [])
  | o :: r => let (q1, x) := qstep q o in let (q2, xs) := qrun q1 r in (q2, x :: xs)
  end.
