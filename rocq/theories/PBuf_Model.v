(** Model of the packet buffer (ring allocator for packet memory).
    Source: /repo/core/opendaq/utility/src/packet_buffer_impl.cpp,
            /repo/core/opendaq/utility/include/opendaq/packet_buffer_impl.h
    Pointers are offsets from the start of [data]. *)
From Verif Require Import Base.
Local Open Scope Z_scope.

(** packet_buffer_impl.h:53-67; [oos] is the priority queue as a list sorted by
    std::greater on pairs, i.e. its head is top(). *)
Record pbuf := {
  size : Z; rd : Z; wr : Z; full : bool; underReset : bool; oos : list (Z * Z)
}.

(** packet_buffer_impl.cpp:7-20 *)
Definition pinit (n : Z) : pbuf :=
  {| size := n; rd := 0; wr := 0; full := false; underReset := false; oos := [] |}.

(** std::priority_queue::push with lexicographic order on (address, size) *)
Fixpoint hpush (x : Z * Z) (h : list (Z * Z)) : list (Z * Z) :=
  match h with
  | [] => [x]
  | y :: h' => if (fst x <? fst y) || ((fst x =? fst y) && (snd x <=? snd y)) then x :: h else y :: hpush x h'
  end.

(** The while loop of CleanOosPackets, packet_buffer_impl.cpp:24-32 *)
Fixpoint cleanLoop (r : Z) (f : bool) (h : list (Z * Z)) : Z * bool * list (Z * Z) :=
  match h with
  | [] => (r, f, [])
  | (a, s) :: h' => if r =? a then cleanLoop (r + s) false h' else (r, f, h)
  end.

(** packet_buffer_impl.cpp:22-41 *)
Definition clean (b : pbuf) : pbuf :=
  let '(r, f, h) := cleanLoop (rd b) (full b) (oos b) in
  {| size := size b; rd := if size b <=? r then r - size b else r; wr := wr b; full := f;
     underReset := underReset b; oos := h |}.

Inductive werr := BufferFull | NotAvailable | ResetUnderway | NotExplicit.

(** packet_buffer_impl.cpp:44-101 *)
Definition write (b : pbuf) (n : Z) : (pbuf * Z) + werr :=
  let diff := wr b - rd b in
  let finish (b' : pbuf) (addr w : Z) : pbuf * Z :=
    ({| size := size b'; rd := rd b'; wr := w; full := if w =? rd b' then true else full b';
        underReset := underReset b'; oos := oos b' |}, addr) in
  if (diff =? 0) && full b then inr BufferFull
  else
    let avail := if diff <? 0 then Z.abs diff else size b - wr b in
    if avail <? n then
      if diff <? 0 then inr NotAvailable
      else if rd b <? n then inr NotAvailable
      else
        let b1 := {| size := size b; rd := rd b; wr := wr b; full := full b; underReset := underReset b;
                     oos := hpush (wr b, size b - wr b) (oos b) |} in
        inl (finish (clean b1) 0 n)
    else
      let w := wr b + n in
      inl (finish b (wr b) (if w =? size b then 0 else w)).

(** packet_buffer_impl.cpp:103-123 (the lock is held for the whole body) *)
Definition read (b : pbuf) (start n : Z) : pbuf :=
  let key := if start <? rd b then start + size b else start in
  clean {| size := size b; rd := rd b; wr := wr b; full := full b; underReset := underReset b;
           oos := hpush (key, n) (oos b) |}.

(** A packet created from the buffer and not yet destroyed: its memory address, the byte count its
    deleter will give back, and the bytes its samples occupy according to its descriptor. *)
Record pk := { pk_addr : Z; pk_size : Z; pk_bytes : Z }.

(** The buffer together with its live packets, oldest first. *)
Record sys := { buf : pbuf; live : list pk }.
Definition sinit (n : Z) : sys := {| buf := pinit n; live := [] |}.

Inductive op :=
| Create (explicit : bool) (sampleCount rawSampleSize : Z)
| Release (k : nat)              (* the k-th oldest live packet is destroyed *)
| ResizeBegin                    (* resize() sets underReset and starts waiting *)
| ResizeEnd (n : Z).             (* the waiting resize() checks its condition *)

Inductive out := Created (addr : Z) | CreateFailed (e : werr) | Released | Waiting | Resized.

(** packet_buffer_impl.cpp:125-159; [packetSize] is computed in size_t *)
Definition createPacket (s : sys) (explicit : bool) (cnt raw : Z) : sys * out :=
  if negb explicit then (s, CreateFailed NotExplicit)
  else if underReset (buf s) then (s, CreateFailed ResetUnderway)
  else
    let n := w64 (cnt * raw) in
    match write (buf s) n with
    | inr e => (s, CreateFailed e)
    | inl (b, a) => ({| buf := b; live := live s ++ [{| pk_addr := a; pk_size := n; pk_bytes := cnt * raw |}] |}, Created a)
    end.

Definition remove_nth {A} (k : nat) (l : list A) : list A := firstn k l ++ skipn (S k) l.

(** The deleter installed at packet_buffer_impl.cpp:152-155. Destroying a packet that does not exist is a no-op. *)
Definition release (s : sys) (k : nat) : sys * out :=
  match nth_error (live s) k with
  | None => (s, Released)
  | Some p => ({| buf := read (buf s) (pk_addr p) (pk_size p); live := remove_nth k (live s) |}, Released)
  end.

(** packet_buffer_impl.cpp:161-182, split at the wait *)
Definition resizeBegin (s : sys) : sys * out :=
  ({| buf := {| size := size (buf s); rd := rd (buf s); wr := wr (buf s); full := full (buf s);
                underReset := true; oos := oos (buf s) |}; live := live s |}, Waiting).
Definition resizeEnd (s : sys) (n : Z) : sys * out :=
  if underReset (buf s) && (rd (buf s) =? wr (buf s)) && negb (full (buf s)) then
    ({| buf := {| size := n; rd := 0; wr := 0; full := full (buf s); underReset := false; oos := oos (buf s) |};
        live := live s |}, Resized)
  else (s, Waiting).

Definition step (s : sys) (o : op) : sys * out :=
  match o with
  | Create e c r => createPacket s e c r
  | Release k => release s k
  | ResizeBegin => resizeBegin s
  | ResizeEnd n => resizeEnd s n
  end.

Definition run (s : sys) (ops : list op) : sys := fold_left (fun s o => fst (step s o)) ops s.

(** packet_buffer_impl.cpp:184-205; division by a zero sample size is undefined: [None] *)
Definition getMaxAvailableContinousSampleCount (b : pbuf) (raw : Z) : option Z :=
  if raw =? 0 then None else
  let fromEnd := size b - wr b in
  let fromStart := rd b in
  let c1 := if fromStart <=? fromEnd then fromEnd / raw else fromStart / raw in
  let c2 := if (wr b =? rd b) && full b then 0 else c1 in
  Some (if wr b <? rd b then (rd b - wr b) / raw else c2).

(** packet_buffer_impl.cpp:207-227 *)
Definition getAvailableSampleCount (b : pbuf) (raw : Z) : option Z :=
  if raw =? 0 then None else
  let c1 := (size b - rd b) / raw in
  let c2 := if (wr b =? rd b) && full b then 0 else c1 in
  Some (if wr b <? rd b then (rd b - wr b) / raw else c2).
