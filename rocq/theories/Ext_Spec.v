(** What is expected of signals of a client that are connected to input ports of a device.

    A user of the client sees two things: the domain signal of each signal, and the signal
    each port is connected to. From these follow the signals the client has to send, the
    signals there are at the device, and where packets go. *)
From Coq Require Import List Arith.
From Verif Require Import Ext_Model.
Import ListNotations.

(** what the user sees *)
Record view := View { v_dom : sig -> option sig; v_conn : port -> option sig }.

(** [s] is needed at the device: it is connected to a port, or is the domain signal of one
    that is *)
Definition needed (v : view) (s : sig) : Prop :=
  (exists p, v_conn v p = Some s) \/ (exists p s2, v_conn v p = Some s2 /\ v_dom v s2 = Some s).

(** domain signals have no domain signal *)
Definition flat (d : sig -> option sig) : Prop := forall s t, d s = Some t -> d t = None.

Definition put {A} (f : nat -> A) (i : nat) (a : A) : nat -> A := fun j => if Nat.eq_dec j i then a else f j.
(** what each operation does, as the user sees it *)
Definition effect (o : op) (v : view) : view :=
  match o with
  | OConnect p s _ => View (v_dom v) (put (v_conn v) p (Some s))
  | ODisconnect p | OServerDisconnect p => View (v_dom v) (put (v_conn v) p None)
  | OSetDomain s d => View (put (v_dom v) s d) (v_conn v)
  end.

(** replacing [old] by [s] at port [p] is safe: the old signal stays connected elsewhere,
    or what the two signals have in common stays needed without port [p] *)
Definition with_domain (v : view) (s : sig) : list sig := s :: match v_dom v s with Some d => [d] | None => [] end.
Definition safe_replace (v : view) (p : port) (old s : sig) : Prop :=
  let without := View (v_dom v) (put (v_conn v) p None) in
  (exists q, q <> p /\ v_conn v q = Some old) \/
  (forall o, In o (with_domain v s) -> In o (with_domain v old) -> needed without o).

(** the operations for which all is well *)
Definition allowed (o : op) (v : view) : Prop :=
  match o with
  | OConnect p s ok =>
      ok = true /\ (forall old, v_conn v p = Some old -> old <> s -> safe_replace v p old s)
  | ODisconnect p | OServerDisconnect p => True
  | OSetDomain s d =>
      flat (put (v_dom v) s d) /\ forall p, v_conn v p <> Some s
  end.
Fixpoint all_allowed (h : list op) (v : view) : Prop :=
  match h with
  | [] => True
  | o :: h => allowed o v /\ all_allowed h (effect o v)
  end.
Definition after (h : list op) (v : view) : view := fold_left (fun v o => effect o v) h v.

(** what there is at the device under the name of [s] *)
Definition mirrored (x : st) (s : sig) (m : mirror) : Prop :=
  exists n, mirrors x n = Some m /\ m_sig m = s.
(** the device's port is connected to the mirror of [s] *)
Definition device_port (x : st) (p : port) (s : sig) : Prop :=
  exists n m, In (p, n) (sport x) /\ mirrors x n = Some m /\ m_sig m = s.

(** client and device agree with what the user sees *)
Record agrees (rd : bool) (v : view) (x : st) : Prop := Agrees {
  (* nothing is on its way *)
  ag_up : up x = [];
  ag_down : down x = [];
  (* the client's ports *)
  ag_client : forall p, cport x p = v_conn v p;
  (* the client holds the needed signals, reads them, and no others *)
  ag_held : forall s, (exists e, prod x s = Some e /\ e_held e = true) <-> needed v s;
  ag_read : rd = true -> forall s, (exists e, prod x s = Some e /\ e_read e = true) <-> needed v s;
  (* the device has the needed signals and no others, each once and with its domain *)
  ag_there : forall s, (exists m, mirrored x s m) <-> needed v s;
  ag_once : forall n n' m m', mirrors x n = Some m -> mirrors x n' = Some m' -> m_sig m = m_sig m' -> n = n';
  ag_domain : forall n m, mirrors x n = Some m ->
    match v_dom v (m_sig m), m_dom m with
    | Some d, Some k => exists md, mirrors x k = Some md /\ m_sig md = d
    | None, None => True
    | _, _ => False
    end;
  (* the device's ports *)
  ag_device : forall p s, device_port x p s <-> v_conn v p = Some s;
  (* a packet goes to the ports connected to its signal, once to each, under its name *)
  ag_packet : forall s p s', In (p, s') (deliver rd s x) <-> v_conn v p = Some s /\ s' = s;
  ag_packet_once : forall s, NoDup (deliver rd s x) }.
