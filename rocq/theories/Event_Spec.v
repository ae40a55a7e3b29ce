(** Vocabulary of C32.  Calls are read oldest first. *)
From Verif Require Import Base Event_Model.

(** The event has been frozen. *)
Fixpoint is_frozen (h : list op) : bool :=  (* newest first *)
  match h with [] => false | Freeze :: _ => true | _ :: r => is_frozen r end.

(** first occurrence of x removed / silenced *)
Fixpoint drop_first (x : Z) (l : list (Z * bool)) : list (Z * bool) :=
  match l with [] => [] | a :: r => if (fst a =? x)%Z then r else a :: drop_first x r end.
Fixpoint silence_first (x : Z) (b : bool) (l : list (Z * bool)) : list (Z * bool) :=
  match l with [] => [] | a :: r => if (fst a =? x)%Z then (x, b) :: r else a :: silence_first x b r end.

(** The handlers added and not removed since, with whether each is muted, in
    the order of addition; history newest first. *)
Fixpoint subscribed (h : list op) : list (Z * bool) :=
  match h with
  | [] => []
  | o :: r =>
      let s := subscribed r in
      match o with
      | Add x => if is_frozen r then s else s ++ [(hid x, false)]
      | Remove x => if is_frozen r then s else drop_first (hid x) s
      | Clear => if is_frozen r then s else []
      | MuteOne x => silence_first (hid x) true s
      | UnmuteOne x => silence_first (hid x) false s
      | _ => s
      end
  end.
Fixpoint is_muted (h : list op) : bool :=
  match h with [] => false | Mute :: _ => true | Unmute :: _ => false | _ :: r => is_muted r end.

(** the handlers to be called *)
Definition audience (h : list op) : list Z :=
  if is_muted h then [] else map fst (filter (fun e => negb (snd e)) (subscribed h)).

(** handlers mentioned by a call *)
Definition mentions (o : op) : list handler :=
  match o with Add x | Remove x | MuteOne x | UnmuteOne x => [x] | _ => [] end.
(** different handlers have different hash codes *)
Definition no_collisions (l : list op) : Prop :=
  forall x y, In x (flat_map mentions l) -> In y (flat_map mentions l) -> (hid x = hid y <-> hhash x = hhash y).

(** What the handlers called at nesting level n are. *)
Definition called_at (n : nat) (o : out) : list Z :=
  match o with Called m h => if Nat.eqb m n then [hid h] else [] | _ => [] end.
Definition calls (n : nat) (os : list out) : list Z := flat_map (called_at n) os.

(** What handlers do while the event is being triggered: nothing that changes
    who is subscribed or muted, except adding handlers; they may trigger the
    event again. *)
Definition gentle (o : op) : bool :=
  match o with Add _ | Trigger | Return _ | Mute | Unmute => true | _ => false end.
Definition unchanging (o : op) : bool :=
  match o with Trigger | Return _ | Mute | Unmute => true | _ => false end.
Fixpoint additions (l : list op) : list Z :=
  match l with [] => [] | Add x :: r => hid x :: additions r | _ :: r => additions r end.

(** The event after a history, newest call first. *)
Fixpoint after (h : list op) : event :=
  match h with [] => new_event | o :: r => fst (step (after r) o) end.

(** The trigger call made after h is still in progress after p. *)
Definition in_progress (h p : list op) : Prop :=
  length (stack (after h)) < length (stack (fst (run (after h) (Trigger :: p)))).
(** its nesting level *)
Definition level_of (h : list op) : nat := S (length (stack (after h))).
