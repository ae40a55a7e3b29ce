(** Vocabulary of C22. *)
From Verif Require Import Base TRead_Model.
Local Open Scope Z_scope.

(** the packets received, oldest first *)
Definition received (h : list op) : list packet := rev (flat_map (fun o => match o with Receive p => [p] | _ => [] end) h).
Definition is_data (p : packet) : bool := match p with Data _ _ => true | _ => false end.
(** the packets after the last event *)
Fixpoint since_event (l : list packet) : list packet :=
  match l with
  | [] => []
  | p :: r => if forallb is_data l then l else since_event r
  end.
Definition values_of (l : list packet) : list Z := flat_map (fun p => match p with Data smp _ => smp | _ => [] end) l.
Definition domains_of (l : list packet) : list Z := flat_map (fun p => match p with Data _ (Some d) => d | _ => [] end) l.
(** all samples received since the last event *)
Definition recent (h : list op) : list Z := values_of (since_event (received h)).
Definition recent_domain (h : list op) : list Z := domains_of (since_event (received h)).
(** the last k elements *)
Definition last_of {A : Type} (k : Z) (l : list A) : list A := skipn (length l - Z.to_nat k) l.

Definition num_samples (l : list packet) : Z := Z.of_nat (length (values_of l)).
(** ** Conditions *)
(** a domain packet has as many samples as its packet *)
Definition well_formed (p : packet) : Prop := match p with Data smp (Some d) => length d = length smp | _ => True end.
Definition descriptor_or_data (p : packet) : Prop := match p with OtherEv _ => False | _ => True end.
Definition good_packets (h : list op) : Prop :=
  Forall (fun p => well_formed p /\ descriptor_or_data p) (received h) /\ num_samples (received h) < two64.
Definition sizes_ok (o : op) : Prop := match o with Read n | ReadWithDomain n => 0 <= n < two64 | _ => True end.
Definition events_in (l : list packet) : nat := length (filter (fun p => negb (is_data p)) l).
(** a reader that skips events meets at most one per call *)
Fixpoint calm (history : Z) (skip : bool) (h : list op) : Prop :=
  match h with
  | [] => True
  | o :: r => sizes_ok o /\ match o with Receive _ => True | _ => skip = true -> (events_in (cache (after history skip r)) <= 1)%nat end /\ calm history skip r
  end.
Definition has_domain (p : packet) : Prop := match p with Data _ (Some _) => True | _ => False end.
Definition events_of (l : list packet) : list packet := filter (fun p => negb (is_data p)) l.
(** the events returned by the reads, oldest first *)
Fixpoint returned_events (history : Z) (skip : bool) (h : list op) : list packet :=
  match h with
  | [] => []
  | o :: r =>
      returned_events history skip r ++
      match snd (step (after history skip r) o) with
      | Returned x => match event x with Some e => [e] | None => [] end
      | _ => []
      end
  end.
Definition reading (d : bool) (n : Z) : op := if d then ReadWithDomain n else Read n.
