(** What a consumer may rely on, in terms of the items it takes out of its
    connection and the calls made on the signals. *)
From Coq Require Import List Bool Arith.
From Verif Require Import Sig_Model.
Import ListNotations.

(** The descriptors a consumer holds after reading the items [l]: those of the
    last event that carried each of them; [None] when no event carried it yet. *)
Fixpoint known_value (l : list item) (v : option (option desc)) : option (option desc) :=
  match l with
  | [] => v
  | IEv (Some d) _ :: l => known_value l (Some d)
  | _ :: l => known_value l v
  end.
Fixpoint known_domain (l : list item) (v : option (option desc)) : option (option desc) :=
  match l with
  | [] => v
  | IEv _ (Some d) :: l => known_domain l (Some d)
  | _ :: l => known_domain l v
  end.

(** The data packets among the items. *)
Fixpoint data (l : list item) : list pkt :=
  match l with
  | [] => []
  | IPk p :: l => p :: data l
  | IEv _ _ :: l => data l
  end.

(** The items taken out so far come from a connection made while the signal
    had these descriptors. *)
Definition starts_with (l : list item) (v d : option desc) : Prop :=
  exists rest, l = IEv (Some v) (Some d) :: rest.

(** Histories whose calls are not cut in two. *)
Definition whole (o : op) : Prop :=
  match o with Copy _ _ | Put _ => False | _ => True end.

(** Read off the history (latest call last): is connection [k] made? Only the
    calls on [k] and the removal of its signal matter. *)
Inductive Linked : list op -> conn -> Prop :=
| L_connect : forall h k, Linked (h ++ [Connect k]) k
| L_other : forall h k o, Linked h k -> o <> Disconnect k -> o <> Remove (k_sig k) ->
    Linked (h ++ [o]) k.

(** Is the signal active? It is at the start. *)
Inductive Active : list op -> sid -> Prop :=
| A_nil : forall s, Active [] s
| A_set : forall h s, Active (h ++ [SetActive s true]) s
| A_other : forall h s o, Active h s -> (forall b, o <> SetActive s b) -> Active (h ++ [o]) s.

(** The packets a call hands to a signal. *)
Definition packets_of (o : op) (s : sid) : list pkt :=
  match o with
  | Send t p => if Nat.eqb t s then [p] else []
  | SendMany t ps => if Nat.eqb t s then ps else []
  | _ => []
  end.

(** [Sent h k ps]: the packets sent through the signal of [k] in [h] while [k]
    was made and the signal was active, in order. *)
Inductive Sent : list op -> conn -> list pkt -> Prop :=
| S_nil : forall k, Sent [] k []
| S_yes : forall h k o l, Sent h k l -> Linked h k -> Active h (k_sig k) ->
    Sent (h ++ [o]) k (l ++ packets_of o (k_sig k))
| S_no : forall h k o l, Sent h k l -> ~ (Linked h k /\ Active h (k_sig k)) ->
    Sent (h ++ [o]) k l.

(** [Describes h d0 s v]: [v] is the descriptor last given to [s] (with a
    sample type other than Null), [d0 s] if none. *)
Inductive Describes (d0 : sid -> option desc) : list op -> sid -> option desc -> Prop :=
| D_nil : forall s, Describes d0 [] s (d0 s)
| D_set : forall h s v n, (v = None \/ n = false) -> Describes d0 (h ++ [SetDesc s v n]) s v
| D_other : forall h s v o, Describes d0 h s v ->
    (forall w n, o = SetDesc s w n -> w <> None /\ n = true) ->
    Describes d0 (h ++ [o]) s v.

(** The current domain descriptor of [s] in a state. *)
Definition DomainDesc (st : state) (s : sid) (v : option desc) : Prop :=
  match s_dom (st_sig st s) with
  | Some d => v = s_desc (st_sig st d)
  | None => v = None
  end.

(** A call that leaves the consumers of all signals aware of the domain: the
    domain signal of a signal with consumers is not replaced, a domain signal
    is not removed while one of its value signals has consumers, and the
    descriptor of a domain signal is not set while a value signal of it that
    has consumers is inactive. *)
Definition has_consumers (st : state) (s : sid) : Prop := s_conns (st_sig st s) <> [].
Definition careful (st : state) (o : op) : Prop :=
  match o with
  | SetDomain s _ => ~ has_consumers st s
  | Remove d => forall s, s <> d -> s_dom (st_sig st s) = Some d -> ~ has_consumers st s
  | SetDesc d _ _ => forall s, s_dom (st_sig st s) = Some d -> has_consumers st s ->
                               s_active (st_sig st s) = true
  | Copy _ _ | Put _ => False
  | _ => True
  end.
Inductive Careful (d0 : sid -> option desc) : list op -> Prop :=
| Ca_nil : Careful d0 []
| Ca_step : forall h o, Careful d0 h -> careful (run (init d0) h) o -> Careful d0 (h ++ [o]).

(** A list of notes that starts with [true] and alternates. *)
Inductive Alternates : bool -> list bool -> Prop :=
| Al_nil : forall b, Alternates b []
| Al_cons : forall b l, Alternates (negb b) l -> Alternates b (b :: l).

Definition listened (l : list bool) : bool := last l false.

(** The last value, from the history: public and kept signals remember the
    last packet they were given while active ([SendMany]: of its packets only
    the last counts) if it has samples, or the value set by hand. *)
Definition flag_of (f : op -> option bool) (h : list op) : bool :=
  fold_left (fun b o => match f o with Some c => c | None => b end) h true.
Definition public_of (h : list op) (s : sid) : bool :=
  flag_of (fun o => match o with SetPublic t b => if Nat.eqb t s then Some b else None | _ => None end) h.
Definition keep_of (h : list op) (s : sid) : bool :=
  flag_of (fun o => match o with KeepLast t b => if Nat.eqb t s then Some b else None | _ => None end) h.
Definition last_packet (o : op) (s : sid) : option pkt :=
  match o with
  | Send t p | Copy t p => if Nat.eqb t s then Some p else None
  | SendMany t ps => if Nat.eqb t s then nth_error ps (length ps - 1) else None
  | _ => None
  end.

Inductive LastValue : list op -> sid -> option nat -> Prop :=
| LV_nil : forall s, LastValue [] s None
| LV_packet : forall h s o p, last_packet o s = Some p -> Active h s ->
    public_of h s = true -> keep_of h s = true -> 0 < p_count p ->
    LastValue (h ++ [o]) s (Some (p_id p))
| LV_hand : forall h s v, LastValue (h ++ [SetLast s v]) s (Some v)
| LV_drop : forall h s o, (exists b, o = SetPublic s b \/ o = KeepLast s b) ->
    public_of (h ++ [o]) s && keep_of (h ++ [o]) s = false ->
    LastValue (h ++ [o]) s None
| LV_other : forall h s o v, LastValue h s v ->
    (forall w, o <> SetLast s w) ->
    (forall p, last_packet o s = Some p -> Active h s -> public_of h s = true ->
               keep_of h s = true -> p_count p = 0) ->
    ((exists b, o = SetPublic s b \/ o = KeepLast s b) ->
       public_of (h ++ [o]) s && keep_of (h ++ [o]) s = true) ->
    LastValue (h ++ [o]) s v.
