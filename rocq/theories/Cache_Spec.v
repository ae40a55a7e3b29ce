(** Vocabulary of C20. *)
From Verif Require Import Base Bytes PStr_Model Cache_Model.
Local Open Scope Z_scope.

(** One packet on the wire: a 32-bit little-endian transport header (message
    type 1 in the top 4 bits, size in the low 28 bits), the packet header,
    the payload. *)
Definition frame (m : list Z * list Z) : list Z :=
  le 4 (1 * 268435456 + (zlen (fst m) + zlen (snd m))) ++ fst m ++ snd m.
Definition stream (ms : list (list Z * list Z)) : list Z := concat (map frame ms).

(** A buffer fits the 28-bit size field. *)
Definition fits (m : list Z * list Z) : Prop := zlen (fst m) + zlen (snd m) <= 268435455.
(** Packet headers are not empty and shorter than 256 bytes (their size is a
    byte), payload sizes leave room for the header in 32 bits. *)
Definition wf (m : list Z * list Z) : Prop :=
  0 < zlen (fst m) < 256 /\ zlen (fst m) + zlen (snd m) < 4294967296.

(** The plain FIFO queue behind it. *)
Inductive plain_op := PAdd (m : list Z * list Z) | PNext | PBatch.
Inductive plain_out := XNone | XBuf (m : option (list Z * list Z)) | XBytes (s : list Z).
Definition plain_step (q : list (list Z * list Z)) (o : plain_op) : list (list Z * list Z) * plain_out :=
  match o with
  | PAdd m => (q ++ [m], XNone)
  | PNext => match q with [] => ([], XBuf None) | m :: r => (r, XBuf (Some m)) end
  | PBatch => ([], XBytes (stream q))
  end.
Fixpoint plain_run (q : list (list Z * list Z)) (ops : list plain_op) : list (list Z * list Z) * list plain_out :=
  match ops with
  | [] => (q, [])
  | o :: r => let (q1, x) := plain_step q o in let (q2, xs) := plain_run q1 r in (q2, x :: xs)
  end.

(** The write tasks of a batch: a maximal run of small packets (payload at
    most [max]) is copied into one task; any other packet gets one task for
    its headers and one for its payload, if there is any. *)
Definition small (max : Z) (m : list Z * list Z) : bool := zlen (snd m) <=? max.
Definition head_task (m : list Z * list Z) : list Z :=
  le 4 (1 * 268435456 + (zlen (fst m) + zlen (snd m))) ++ fst m.
Fixpoint batch (max : Z) (ms : list (list Z * list Z)) : list (list Z) :=
  match ms with
  | [] => []
  | m :: r =>
      if small max m then
        match r with
        | m' :: _ => if small max m'
                     then match batch max r with t :: ts => (frame m ++ t) :: ts | [] => [frame m] end
                     else frame m :: batch max r
        | [] => [frame m]
        end
      else head_task m :: (match snd m with [] => [] | _ => [snd m] end) ++ batch max r
  end.

Definition msg_of (b : buf) : list Z * list Z := (hdr b, pay b).

(** The observer sees bytes, not write tasks. *)
Definition see (o : qout) : option plain_out :=
  match o with
  | ONone => Some XNone
  | OBuf m => Some (XBuf m)
  | OTasks ts => Some (XBytes (concat ts))
  | OTooBig | OAssert => None
  end.
Definition plain (o : qop) : plain_op :=
  match o with QAdd h p => PAdd (h, p) | QNext => PNext | QBatch => PBatch end.
