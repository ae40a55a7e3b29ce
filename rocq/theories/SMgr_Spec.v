(** Vocabulary of C16, C17, C39, C40.  Histories are read newest first. *)
From Verif Require Import Base Bytes PStr_Model SMgr_Model.
Local Open Scope Z_scope.

(** ** What a history means *)

(** The signal is currently offered. *)
Fixpoint registered (s : Z) (h : list op) : bool :=
  match h with
  | [] => false
  | AddSignal x :: r => (x =? s) || registered s r
  | RemoveSignals l :: r => negb (mem s l) && registered s r
  | _ :: r => registered s r
  end.

(** How many signals have ever been added. *)
Fixpoint added (h : list op) : Z :=
  match h with
  | [] => 0
  | AddSignal x :: r => added r + if registered x r then 0 else 1
  | _ :: r => added r
  end.

(** The number given to the signal when it was added. *)
Fixpoint number (s : Z) (h : list op) : Z :=
  match h with
  | [] => 0
  | AddSignal x :: r => if (x =? s) && negb (registered s r) then w32 (added r + 1) else number s r
  | _ :: r => number s r
  end.

(** The client has asked for streaming and has not disconnected since. *)
Fixpoint connected (c : Z) (h : list op) : bool :=
  match h with
  | [] => false
  | Init x _ :: r => (x =? c) || connected c r
  | Disconnect x :: r => negb (x =? c) && connected c r
  | _ :: r => connected c r
  end.

(** Who is subscribed to the signal, in order of subscription. *)
Fixpoint subscribers (s : Z) (h : list op) : list Z :=
  match h with
  | [] => []
  | RemoveSignals l :: r => if mem s l then [] else subscribers s r
  | Subscribe c x _ :: r =>
      if (x =? s) && registered s r && negb (mem c (subscribers s r)) then subscribers s r ++ [c] else subscribers s r
  | Unsubscribe c x :: r => if x =? s then del c (subscribers s r) else subscribers s r
  | Disconnect c :: r => del c (subscribers s r)
  | _ :: r => subscribers s r
  end.

(** The packets of a signal among those of one operation, in order. *)
Definition carried (s : Z) (o : op) : list packet :=
  match o with
  | Send x p => if x =? s then [p] else []
  | Process l => map snd (filter (fun e => fst e =? s) l)
  | _ => []
  end.

(** The latest value and domain descriptor announced for the signal since it
    was added. *)
Definition announce (k : option Z * option Z) (p : packet) : option Z * option Z :=
  match p with
  | PDesc v d => (match v with Some _ => v | None => fst k end, match d with Some _ => d | None => snd k end)
  | _ => k
  end.
Fixpoint latest (s : Z) (h : list op) : option Z * option Z :=
  match h with
  | [] => (None, None)
  | RemoveSignals l :: r => if mem s l then (None, None) else latest s r
  | o :: r => if registered s r then fold_left announce (carried s o) (latest s r) else latest s r
  end.

(** ** Histories of a well-behaved environment *)

Definition is_desc (p : packet) : bool := match p with PDesc (Some _) _ => true | _ => false end.
Definition is_data (p : packet) : bool := match p with PData _ => true | _ => false end.

(** Since the signal last got its first subscriber a descriptor was sent. *)
Fixpoint described (s : Z) (h : list op) : bool :=
  match h with
  | [] => false
  | o :: r => match subscribers s r with
              | [] => false
              | _ => match o with
                     | RemoveSignals l => negb (mem s l) && described s r
                     | _ => described s r || existsb is_desc (carried s o)
                     end
              end
  end.

(** Data only after a descriptor. *)
Fixpoint desc_first (seen : bool) (l : list packet) : bool :=
  match l with
  | [] => true
  | p :: r => (negb (is_data p) || seen) && desc_first (seen || is_desc p) r
  end.

(** Clients subscribe after they asked for streaming; creating a reader does
    not fail; the reader of a signal delivers its descriptor before data; the
    packets of a batch are of signals on offer. *)
Definition polite (o : op) (h : list op) : Prop :=
  match o with
  | Subscribe c s ok => connected c h = true /\ ok = true
  | Send s _ => subscribers s h = [] \/ desc_first (described s h) (carried s o) = true
  | Process l => forall s, In s (map fst l) ->
        registered s h = true /\ (subscribers s h = [] \/ desc_first (described s h) (carried s o) = true)
  | _ => True
  end.
Fixpoint valid (h : list op) : Prop :=
  match h with [] => True | o :: r => polite o r /\ valid r end.

(** ** Observations *)

(** start (true) and stop (false) requests for one signal *)
Definition edge (s : Z) (o : out) : list bool :=
  match o with
  | Started x => if x =? s then [true] else []
  | Stopped x => if x =? s then [false] else []
  | _ => []
  end.
Fixpoint edges (cache thr : Z) (s : Z) (h : list op) : list bool :=
  match h with
  | [] => []
  | o :: r => edges cache thr s r ++ flat_map (edge s) (says cache thr r o)
  end.
Fixpoint alternate (next : bool) (l : list bool) : Prop :=
  match l with [] => True | b :: r => b = next /\ alternate (negb next) r end.
Definition running (l : list bool) : bool := last l false.

(** what one client was sent since it last asked for streaming *)
Definition sent_to (c : Z) (o : out) : list (Z * packet) :=
  match o with Sent x n p => if x =? c then [(n, p)] else [] | _ => [] end.
Definition begins (c : Z) (o : op) : bool := match o with Init x _ => x =? c | _ => false end.
Fixpoint sent (cache thr : Z) (c : Z) (h : list op) : list (Z * packet) :=
  match h with
  | [] => []
  | o :: r => (if begins c o && negb (connected c r) then [] else sent cache thr c r) ++ flat_map (sent_to c) (says cache thr r o)
  end.

(** what it should be sent: each packet of a signal it is subscribed to, and
    the latest descriptors when it joins other subscribers *)
Definition due1 (c : Z) (h : list op) (e : Z * packet) : list (Z * packet) :=
  if mem c (subscribers (fst e) h) then [(number (fst e) h, snd e)] else [].
Definition due (c : Z) (h : list op) (o : op) : list (Z * packet) :=
  match o with
  | Send s p => due1 c h (s, p)
  | Process l => flat_map (due1 c h) l
  | Subscribe x s _ =>
      if x =? c then
        if mem c (subscribers s h) then []
        else match subscribers s h, latest s h with
             | _ :: _, (Some v, d) => [(number s h, PDesc (Some v) d)]
             | _, _ => []
             end
      else []
  | _ => []
  end.
Fixpoint all_due (c : Z) (h : list op) : list (Z * packet) :=
  match h with
  | [] => []
  | o :: r => (if begins c o && negb (connected c r) then [] else all_due c r) ++ due c r o
  end.

(** packets accepted but not yet written to the client's connection *)
Definition pending (cache thr c : Z) (h : list op) : list (Z * packet) :=
  match lookup c (servers (after cache thr h)) with Some v => queue v | None => [] end.

(** the signals a client has been told about *)
Definition tell (c : Z) (k : list (Z * Z)) (o : out) : list (Z * Z) :=
  match o with
  | Available x n s => if x =? c then k ++ [(n, s)] else k
  | Unavailable x n s => if x =? c then filter (fun e => negb ((fst e =? n) && (snd e =? s))) k else k
  | _ => k
  end.
Fixpoint told (cache thr c : Z) (h : list op) : list (Z * Z) :=
  match h with
  | [] => []
  | o :: r => fold_left (tell c) (says cache thr r o) (if begins c o && negb (connected c r) then [] else told cache thr c r)
  end.
