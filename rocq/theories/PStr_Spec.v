(** Vocabulary of C18 and C19. *)
From Verif Require Import Base PStr_Model.
Local Open Scope Z_scope.

(** ** Histories the server can see

    A packet object keeps its id and its domain packet; a domain packet is
    older than the packets it belongs to (packet ids come from one counter);
    a packet object that has been destroyed, or whose only reference was
    handed over in an accepted call, is neither sent again nor used as a
    domain packet (a packet keeps its domain packet alive).  [dead] are those
    ids; [desc] are the signals that have announced a descriptor (a data call
    on another signal is refused with an exception). *)
Fixpoint valid (world : Z -> pkt) (dead desc : list Z) (ops : list op) : Prop :=
  match ops with
  | [] => True
  | OEvent sig (EvDesc (Some _) _) :: r => valid world dead (sig :: desc) r
  | OData sig p last :: r =>
      p = world (pid p) /\ ~ In (pid p) dead /\
      (forall d, dom p = Some d -> ~ In d dead /\ d < pid p) /\
      valid world (if last && mem sig desc then pid p :: dead else dead) desc r
  | ODestroy x :: r => ~ In x dead /\ valid world (x :: dead) desc r
  | _ :: r => valid world dead desc r
  end.

(** ** Descriptor events

    A descriptor event is worth passing on when it tells the receiver
    something new, or when the receiver does not have both descriptors of the
    signal yet. *)
Definition is_news (known told : option Z) : bool :=
  match told, known with
  | None, _ => false
  | Some _, None => true
  | Some a, Some b => negb (a =? b)
  end.
Definition missing (known : option Z) : bool := match known with None => true | Some _ => false end.
Definition noteworthy (sig : Z) (v d : option Z) (cd cm : list (Z * Z)) : bool :=
  is_news (lookup sig cd) v || is_news (lookup sig cm) d || missing (lookup sig cd) || missing (lookup sig cm).

(** What was announced for a signal, and what the receiver was told. *)
Definition later (told known : option Z) : option Z := match told with Some _ => told | None => known end.
Fixpoint announced (sig : Z) (ops : list op) (k : option Z * option Z) : option Z * option Z :=
  match ops with
  | [] => k
  | OEvent g (EvDesc v d) :: r => announced sig r (if g =? sig then (later v (fst k), later d (snd k)) else k)
  | _ :: r => announced sig r k
  end.
Fixpoint heard (sig : Z) (l : list (Z * item)) (k : option Z * option Z) : option Z * option Z :=
  match l with
  | [] => k
  | (g, IEvent (EvDesc v d)) :: r => heard sig r (if g =? sig then (later v (fst k), later d (snd k)) else k)
  | _ :: r => heard sig r k
  end.

(** ** The ideal channel

    No deduplication, no releases, no forgetting: each packet is a message of
    its own.  The object for packet [x] is built when [x] arrives the first
    time - or, if its domain packet has not been built yet, when that one is -
    with the descriptor announced for its signal; later arrivals of the same
    packet deliver the same object. *)
Record pending := { p_sig : Z; p_pkt : pkt; p_extra : list Z }.
Record ideal := { i_out : list (Z * item); i_data : list (Z * Z); i_dom : list (Z * Z);
                  built : list (Z * cpkt); pend : list pending }.
Definition ideal_init : ideal := {| i_out := []; i_data := []; i_dom := []; built := []; pend := [] |}.

Definition emit (x : Z * item) (s : ideal) : ideal :=
  {| i_out := i_out s ++ [x]; i_data := i_data s; i_dom := i_dom s; built := built s; pend := pend s |}.
Definition set_built (b : list (Z * cpkt)) (s : ideal) : ideal :=
  {| i_out := i_out s; i_data := i_data s; i_dom := i_dom s; built := b; pend := pend s |}.
Definition set_pend (p : list pending) (s : ideal) : ideal :=
  {| i_out := i_out s; i_data := i_data s; i_dom := i_dom s; built := built s; pend := p |}.

Definition pends_on (x : Z) (w : pending) : bool :=
  match dom (p_pkt w) with Some d => d =? x | None => false end.

Fixpoint deliver (fuel : nat) (sig : Z) (p : pkt) (domp : option cpkt) (s : ideal) : option (ideal * cpkt) :=
  match fuel with
  | O => None
  | S f =>
      match lookup sig (i_data s) with
      | None => None
      | Some desc =>
          let k := CP (pid p) (body p) desc domp in
          let s1 := set_built (assign (pid p) k (built s)) (emit (sig, IData k) s) in
          let ws := filter (pends_on (pid p)) (pend s1) in
          let s2 := set_pend (filter (fun w => negb (pends_on (pid p) w)) (pend s1)) s1 in
          option_map (fun s3 => (s3, k))
            (fold_opt (fun s w =>
                   match deliver f (p_sig w) (p_pkt w) (Some k) s with
                   | Some (s', k') => Some (fold_left (fun s g => emit (g, IData k') s) (p_extra w) s')
                   | None => None
                   end) ws s2)
      end
  end.

Definition is_pending (x : Z) (w : pending) : bool := pid (p_pkt w) =? x.

Definition ideal_data (sig : Z) (p : pkt) (s : ideal) : option ideal :=
  match lookup (pid p) (built s) with
  | Some k => Some (emit (sig, IData k) s)
  | None =>
      if existsb (is_pending (pid p)) (pend s) then
        Some (set_pend (map (fun w => if is_pending (pid p) w
                 then {| p_sig := p_sig w; p_pkt := p_pkt w; p_extra := p_extra w ++ [sig] |} else w) (pend s)) s)
      else
        let go d := option_map fst (deliver (S (length (pend s))) sig p d s) in
        match dom p with
        | None => go None
        | Some d => match lookup d (built s) with
                    | Some k => go (Some k)
                    | None => Some (set_pend (pend s ++ [{| p_sig := sig; p_pkt := p; p_extra := [] |}]) s)
                    end
        end
  end.

Definition ideal_event (sig : Z) (e : event) (s : ideal) : ideal :=
  match e with
  | EvOther _ => s
  | EvDesc v d =>
      let s' := {| i_out := i_out s; i_data := assign_opt sig v (i_data s);
                   i_dom := assign_opt sig d (i_dom s); built := built s; pend := pend s |} in
      if noteworthy sig v d (i_data s) (i_dom s) then emit (sig, IEvent e) s' else s'
  end.

(** The ideal channel ignores destruction and flushing; it refuses what the
    server refuses: data on a signal without a descriptor. *)
Definition ideal_step (s : ideal) (o : op) : option ideal :=
  match o with
  | OEvent sig e => Some (ideal_event sig e s)
  | OData sig p _ => match lookup sig (i_data s) with None => Some s | Some _ => ideal_data sig p s end
  | ODestroy _ | OFlush => Some s
  end.
Definition ideal_run (ops : list op) : option ideal := fold_opt ideal_step ops ideal_init.

(** ** The whole system: all buffers of the server, in order, to the client *)
Definition system (threshold : nat) (ops : list op) : server * option client :=
  let (s, bs) := server_run threshold server_init ops in (s, client_run bs client_init).

(** ** What a plain observer expects when domain packets come first *)

Definition fresh_id (p : pkt) (built : list (Z * cpkt)) : bool :=
  match lookup (pid p) built with None => true | Some _ => false end.

(** Direct reading of a history: every accepted data call delivers exactly
    one packet on its signal, right then. *)
Fixpoint direct (ops : list op) (cd cm : list (Z * Z)) (blt : list (Z * cpkt)) : list (Z * item) :=
  match ops with
  | [] => []
  | OEvent sig (EvDesc v d) :: r =>
      (if noteworthy sig v d cd cm then [(sig, IEvent (EvDesc v d))] else [])
      ++ direct r (assign_opt sig v cd) (assign_opt sig d cm) blt
  | OEvent _ (EvOther _) :: r => direct r cd cm blt
  | OData sig p _ :: r =>
      match lookup sig cd with
      | None => direct r cd cm blt
      | Some desc =>
          let k := match lookup (pid p) blt with
                   | Some k => k
                   | None => CP (pid p) (body p) desc
                               (match dom p with Some d => lookup d blt | None => None end)
                   end in
          (sig, IData k) :: direct r cd cm (assign (pid p) k blt)
      end
  | _ :: r => direct r cd cm blt
  end.

(** Domain packets come first: the domain packet of every accepted data
    packet was accepted earlier. *)
Fixpoint domain_first (seen : list Z) (desc : list Z) (ops : list op) : Prop :=
  match ops with
  | [] => True
  | OEvent sig (EvDesc (Some _) _) :: r => domain_first seen (sig :: desc) r
  | OData sig p _ :: r =>
      if mem sig desc then
        (forall d, dom p = Some d -> In d seen) /\ domain_first (pid p :: seen) desc r
      else domain_first seen desc r
  | _ :: r => domain_first seen desc r
  end.

(** The data the client outputs is the data of the server's packets. *)
Inductive renders (world : Z -> pkt) : Z -> cpkt -> Prop :=
| renders_leaf : forall x desc, dom (world x) = None ->
    renders world x (CP x (body (world x)) desc None)
| renders_node : forall x d desc k, dom (world x) = Some d -> renders world d k ->
    renders world x (CP x (body (world x)) desc (Some k)).

(** Accepted data calls of packet [x] on signal [sig]. *)
Fixpoint calls (sig x : Z) (desc : list Z) (ops : list op) : nat :=
  match ops with
  | [] => 0
  | OEvent g (EvDesc (Some _) _) :: r => calls sig x (g :: desc) r
  | OData g p _ :: r =>
      ((if (mem g desc && (g =? sig)%Z && (pid p =? x)%Z)%bool then 1 else 0) + calls sig x desc r)%nat
  | _ :: r => calls sig x desc r
  end.

Definition is_out (sig x : Z) (e : Z * item) : bool :=
  (fst e =? sig) && match snd e with IData (CP s _ _ _) => s =? x | _ => false end.
Definition delivered (sig x : Z) (l : list (Z * item)) : nat := length (filter (is_out sig x) l).

(** Deliveries still to be made for waiting buffers. *)
Definition waiting_for (sig x : Z) (ws : list wbuf) : nat :=
  fold_right (fun w n => ((if (pid (w_pkt w) =? x)%Z
      then (if (w_sig w =? sig)%Z then 1 else 0) + count_occ Z.eq_dec (w_extra w) sig else 0) + n)%nat) 0%nat ws.

(** Packets the server still refers to after a history: accepted, not
    destroyed, not handed over with their last reference. *)
Fixpoint live (desc alive : list Z) (ops : list op) : list Z :=
  match ops with
  | [] => alive
  | OEvent g (EvDesc (Some _) _) :: r => live (g :: desc) alive r
  | OData g p last :: r =>
      if mem g desc
      then live desc (if last then del (pid p) alive else pid p :: del (pid p) alive) r
      else live desc alive r
  | ODestroy x :: r => live desc (del x alive) r
  | _ :: r => live desc alive r
  end.

(** Packets whose last reference is handed over after they had already been
    sent have no domain packet. *)
Fixpoint plain_handover (seen desc : list Z) (ops : list op) : Prop :=
  match ops with
  | [] => True
  | OEvent g (EvDesc (Some _) _) :: r => plain_handover seen (g :: desc) r
  | OData g p last :: r =>
      if mem g desc
      then (last = true -> In (pid p) seen -> dom p = None) /\ plain_handover (pid p :: seen) desc r
      else plain_handover seen desc r
  | _ :: r => plain_handover seen desc r
  end.
