(** What the users of a multi reader see. *)
From Coq Require Import List Bool ZArith.
From Verif Require Import MRead_Model.
Import ListNotations.
Open Scope Z_scope.

(** The signals of a reader, as (used, divider, ticks between two samples). *)
Definition shape := (bool * Z * Z)%type.

(** The packets that arrive, in order, with the signal they arrive at. *)
Definition arrivals (o : op) : list (nat * pkt) :=
  match o with
  | Push i p => [(i, p)]
  | Read _ _ _ (Some bs) => concat bs
  | _ => []
  end.
Definition arrived (h : list op) : list (nat * pkt) := flat_map arrivals h.
Definition of_signal (i : nat) (l : list (nat * pkt)) : list pkt :=
  map snd (filter (fun x => Nat.eqb (fst x) i) l).

(** A signal sends a sample every [d] ticks without holes between two events:
    each packet starts where the previous one ended ([e], None after an event). *)
Fixpoint without_holes (d : Z) (e : option Z) (ps : list pkt) : Prop :=
  match ps with
  | [] => True
  | Data a c :: ps => 0 <= c /\ (e = None \/ e = Some a) /\ without_holes d (Some (a + d * c)) ps
  | _ :: ps => without_holes d None ps
  end.
Definition steady (ss : list shape) (h : list op) : Prop :=
  forall i k d, nth_error ss i = Some (true, k, d) -> without_holes d None (of_signal i (arrived h)).
(** No descriptor that the reader refuses. *)
Definition accepted (h : list op) : Prop :=
  forall i null ok, In (i, Desc null ok) (arrived h) -> ok = true.
(** Calls with sensible arguments: no negative count, and no null buffers for a
    read with domain. *)
Definition sensible (o : op) : Prop :=
  match o with
  | Read dom nul n _ => 0 <= n /\ (dom = true -> nul = false)
  | Skip n => 0 <= n
  | _ => True
  end.
(** The signals have rates that divide a common rate of one sample per [D] ticks,
    and the first one is used. *)
Definition matched (D : Z) (ss : list shape) : Prop :=
  0 < D /\ (exists k d rest, ss = (true, k, d) :: rest)
  /\ (forall u k d, In (u, k, d) ss -> 0 < k /\ d = D * k).

(** [n] ticks, [d] apart, beginning with [t]. *)
Fixpoint every (d t : Z) (n : nat) : list Z :=
  match n with O => [] | S n => t :: every d (t + d) n end.

(** A piece of [n] samples of the common rate beginning at time [T]: signal by
    signal the expected tick, what is handed out and the tick expected next. *)
Inductive piece (n T : Z) : list shape -> list Z -> list (list Z) -> list Z -> Prop :=
| piece_nil : piece n T [] [] [] []
| piece_used k d ss t ts w nx :
    T <= t < T + d -> piece n T ss ts w nx ->
    piece n T ((true, k, d) :: ss) (t :: ts) (every d t (Z.to_nat (n / k)) :: w) ((t + d * (n / k)) :: nx)
| piece_unused k d ss t ts w nx :
    piece n T ss ts w nx -> piece n T ((false, k, d) :: ss) (t :: ts) ([] :: w) (t :: nx).

(** What was asked for. *)
Definition asked (o : op) : Z := match o with Read _ _ n _ => n | Skip n => n | _ => 0 end.

(** The story told by the calls: between two events, the pieces handed out follow
    one another without a hole or an overlap, all signals together; the first
    begins at a multiple of [g]. [None]: nothing handed out yet. Events of unused
    signals are reported and change nothing. *)
Inductive story (D g : Z) (ss : list shape) : option (Z * list Z) -> list (op * outcome) -> Prop :=
| story_end m : story D g ss m []
| story_quiet m o x l :
    x = Done \/ x = Rejected \/ (exists n, x = AvailIs n) -> story D g ss m l -> story D g ss m ((o, x) :: l)
| story_event m o w to evs l :
    (forall y, In y w -> y = []) -> to <> Stale ->
    (exists i e k d, In (i, e) evs /\ nth_error ss i = Some (true, k, d)) ->
    story D g ss None l -> story D g ss m ((o, Got 0 w to evs true) :: l)
| story_aside m o w to evs l :
    (forall y, In y w -> y = []) -> to <> Stale ->
    (forall i e, In (i, e) evs -> exists k d, nth_error ss i = Some (false, k, d)) ->
    story D g ss m l -> story D g ss m ((o, Got 0 w to evs true) :: l)
| story_piece m o n w to l T ts nx :
    0 < n <= asked o -> to <> Stale ->
    m = Some (T, ts) \/ (m = None /\ (g | T)) ->
    piece n T ss ts w nx -> story D g ss (Some (T + D * n, nx)) l ->
    story D g ss m ((o, Got n w to [] true) :: l).

(** Every count handed out is a multiple of the divider of every used signal. *)
Definition whole (ss : list shape) (xs : list outcome) : Prop :=
  forall n w to evs ok k d, In (Got n w to evs ok) xs -> In (true, k, d) ss -> (k | n).

(** The packets of a signal: a descriptor, then data without holes from [a] up to [b]. *)
Definition recording (d a b : Z) (ps : list pkt) : Prop :=
  exists null ds, ps = Desc null true :: ds /\ ds <> []
  /\ (forall p, In p ds -> exists x c, p = Data x c /\ 0 < c)
  /\ (exists c ds', ds = Data a c :: ds')
  /\ without_holes d None ds
  /\ b = a + d * fold_right (fun p n => match p with Data _ c => c + n | _ => n end) 0 ds.
(** The smallest multiple of [g] that is not before [m]. *)
Definition first_multiple (g m T : Z) : Prop := (g | T) /\ m <= T < m + g.
(** The latest of some times. *)
Definition latest (l : list Z) (m : Z) : Prop := In m l /\ forall x, In x l -> x <= m.
