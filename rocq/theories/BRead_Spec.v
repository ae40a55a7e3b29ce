(** Vocabulary of C23: an ideal reader that knows nothing of packets being kept,
    rewound and trimmed.  Between two events that it returns, the received samples
    are one sequence; block number k starts at sample k * (blockSize - overlap). *)
From Verif Require Import Base BRead_Model.
Local Open Scope Z_scope.

(** the events the reader returns: all, or only gaps when it skips events *)
Definition ends_segment (skip : bool) (p : packet) : bool :=
  match p with Data _ => false | Gap => true | _ => negb skip end.
(** the packets up to the next such event, and that event with what follows *)
Fixpoint segment (skip : bool) (l : list packet) : list packet * option (packet * list packet) :=
  match l with
  | [] => ([], None)
  | p :: r => if ends_segment skip p then ([], Some (p, r)) else let '(a, b) := segment skip r in (p :: a, b)
  end.
Definition values_of (l : list packet) : list Z := flat_map (fun p => match p with Data x => smp x | _ => [] end) l.
Definition domains_of (l : list packet) : list Z := flat_map (fun p => match p with Data x => match dom x with Some d => d | None => [] end | _ => [] end) l.

(** samples of a block that are shared with the one before *)
Definition shared (c : config) : Z := blockSize c * overlap c / 100.
Definition hop (c : config) : Z := blockSize c - shared c.
Definition len {A : Type} (l : list A) : Z := Z.of_nat (length l).
(** block number k of a sequence of samples *)
Definition block (c : config) (l : list Z) (k : nat) : list Z :=
  firstn (Z.to_nat (blockSize c)) (skipn (Z.to_nat (Z.of_nat k * hop c)) l).

Record ideal := { stream : list packet; next : nat; dead : bool }.
Definition istart : ideal := {| stream := []; next := 0; dead := false |}.
Definition iread (c : config) (s : ideal) (d : bool) (n : nat) : ideal * result :=
  if dead s then (s, Ignored)
  else
    let '(seg, rest) := segment (skipEvents c) (stream s) in
    let ks := seq (next s) n in
    let v := flat_map (block c (values_of seg)) ks in
    let enough := match n with O => true | S m => (Z.of_nat (next s + m) * hop c + blockSize c <=? len (values_of seg)) end in
    let used_up := Z.of_nat (next s + n) * hop c =? len (values_of seg) in
    let ret (e : option packet) (ok : bool) :=
      Returned {| vals := v; domain := if d then flat_map (block c (domains_of seg)) ks else []; count := len v / blockSize c; event := e; valid := ok |} in
    match rest with
    | Some (e, r) =>
        if negb enough || used_up
        then let ok := match e with Desc ok => ok | _ => true end in ({| stream := r; next := 0; dead := negb ok |}, ret (Some e) ok)
        else ({| stream := stream s; next := next s + n; dead := false |}, ret None true)
    | None => ({| stream := stream s; next := next s + n; dead := false |}, ret None true)
    end.
Definition istep (c : config) (s : ideal) (o : op) : ideal * result :=
  match o with
  | Receive p => ({| stream := stream s ++ [p]; next := next s; dead := dead s |}, Done)
  | Read n => iread c s false (Z.to_nat n)
  | ReadWithDomain n => iread c s true (Z.to_nat n)
  end.
Fixpoint iafter (c : config) (h : list op) : ideal := match h with [] => istart | o :: r => fst (istep c (iafter c r) o) end.

(** ** Conditions *)
Definition well_configured (c : config) : Prop := 0 < blockSize c < two64 /\ 0 <= overlap c < 100 /\ blockSize c * overlap c < two64.
Definition packets_of (h : list op) : list packet := flat_map (fun o => match o with Receive p => [p] | _ => [] end) h.
Definition good_packet (p : packet) : Prop :=
  match p with Data x => smp x <> [] /\ (forall d, dom x = Some d -> length d = length (smp x)) | _ => True end.
(** what the packets must be: anything without overlap; with overlap they must all
    have one size, no larger than the distance of two blocks *)
Definition fitting (c : config) (l : list packet) : Prop :=
  shared c = 0 \/ exists z, 0 < z <= hop c /\ Forall (fun p => match p with Data x => len (smp x) = z | _ => True end) l.
Definition domains_there (l : list packet) : Prop := Forall (fun p => match p with Data x => dom x <> None | _ => True end) l.
(** a reader that skips events is not invalidated by a descriptor *)
Definition stays_valid (c : config) (l : list packet) : Prop := skipEvents c = true -> ~ In (Desc false) l.
(** no more blocks are asked for than the reader says there are *)
Fixpoint asks_available (c : config) (h : list op) : Prop :=
  match h with
  | [] => True
  | o :: r =>
      match o with
      | Receive _ => True
      | Read n => 0 <= n <= getAvailableCount c (after c r)
      | ReadWithDomain n => 0 <= n <= getAvailableCount c (after c r) /\ domains_there (packets_of r)
      end /\ asks_available c r
  end.
Definition good_history (c : config) (h : list op) : Prop :=
  well_configured c /\ Forall good_packet (packets_of h) /\ fitting c (packets_of h) /\ stays_valid c (packets_of h) /\
  len (values_of (packets_of h)) < two64 /\ asks_available c h.

(** ** A stream of data packets only *)
Definition only_data (h : list op) : Prop := forall p, In p (packets_of h) -> exists x, p = Data x.
(** all samples received, oldest first *)
Definition received_values (h : list op) : list Z := values_of (rev (packets_of h)).
(** the values returned by all reads, oldest first *)
Fixpoint returned_values (c : config) (h : list op) : list Z :=
  match h with
  | [] => []
  | o :: r => returned_values c r ++ match snd (step c (after c r) o) with Returned x => vals x | _ => [] end
  end.
(** the blocks asked for by all reads *)
Definition asked (h : list op) : nat := fold_right (fun o a => (match o with Receive _ => 0 | Read n | ReadWithDomain n => Z.to_nat n end + a)%nat) 0%nat h.
