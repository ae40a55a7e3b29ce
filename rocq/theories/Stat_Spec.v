(** What the theorems about the statistics and trigger blocks say. *)
From Verif Require Import Base Stat_Model.
Local Open Scope Z_scope.

(** ** The stream *)

(** packets: the offset and the samples *)
Definition packet := (Z * list Z)%type.

(** the samples of a packet with their ticks *)
Definition ticks (d : Z) (p : packet) : list (Z * Z) :=
  map (fun i => (fst p + Z.of_nat i * d, nth i (snd p) 0)) (seq 0 (length (snd p))).
Definition stream (d : Z) (ps : list packet) : list (Z * Z) := concat (map (ticks d) ps).

(** the stretches of a stream without gaps: the tick of the first sample and
    the samples *)
Fixpoint stretches (d : Z) (s : list (Z * Z)) : list (Z * list Z) :=
  match s with
  | [] => []
  | (t, v) :: r =>
    match stretches d r with
    | (t', l) :: gs => if t' =? t + d then (t, v :: l) :: gs else (t, [v]) :: (t', l) :: gs
    | [] => [(t, [v])]
    end
  end.

(** n samples from position i on *)
Definition slice (l : list Z) (i n : nat) : list Z := firstn n (skipn i l).

(** the results of a stretch: for each block that is complete one, in order *)
Definition results_of (c : conf) (g : Z * list Z) (os : list out) : Prop :=
  forall i,
    match nth_error os i with
    | Some o =>
      (i * remainder c + blockSize c <= length (snd g))%nat /\
      o = {| when := stamp_of c (fst g + Z.of_nat (i * remainder c) * delta c);
             avg := average (kind c) (blockSize c) (slice (snd g) (i * remainder c) (blockSize c));
             rms := rootMeanSquare (kind c) (blockSize c) (slice (snd g) (i * remainder c) (blockSize c)) |}
    | None => (length (snd g) < i * remainder c + blockSize c)%nat
    end.
(** the results of all stretches *)
Definition results (c : conf) (gs : list (Z * list Z)) (os : list out) : Prop :=
  exists oss, Forall2 (results_of c) gs oss /\ os = concat oss.

(** just configured *)
Definition ready (s : st) (c : conf) : Prop :=
  valid s = true /\ cf s = Some c /\ buf s = [] /\ next s = None /\ hist s = [].
(** the configuration of a block of b samples of which o percent overlap *)
Definition configured (c : conf) (b o d a : Z) (k : sample) (f : domain_type) : Prop :=
  Z.of_nat (blockSize c) = b /\ Z.of_nat (remainder c) = b - b * o / 100 /\ delta c = d /\ start c = a /\ kind c = k /\ form c = f.
Definition sensible (c : conf) : Prop := (1 <= remainder c <= blockSize c)%nat /\ outDelta c = delta c * Z.of_nat (remainder c).

(** ** Triggers *)

(** at the domain value t the trigger is on: the last change up to t says so *)
Definition on (changes : list (bool * Z)) (t : Z) : Prop :=
  exists before t' later, changes = before ++ (true, t') :: later /\ t' <= t /\ Forall (fun e => t < snd e) later.
(** changes in the order of time *)
Definition in_order (changes : list (bool * Z)) : Prop :=
  forall i j a b, (i < j)%nat -> nth_error changes i = Some a -> nth_error changes j = Some b -> snd a <= snd b.

(** what happens while the block is running *)
Definition changes_of (h : list op) : list (bool * Z) :=
  flat_map (fun o => match o with TriggerData b t => [(b, t)] | _ => [] end) h.
Definition packets_of (h : list op) : list packet :=
  flat_map (fun o => match o with Input off l => [(off, l)] | _ => [] end) h.
Definition running (o : op) : Prop :=
  match o with Input _ _ => True | TriggerData _ _ => True | _ => False end.
(** the domain values of the stream go up *)
Fixpoint rising (s : list (Z * Z)) : Prop :=
  match s with
  | [] => True
  | (t, _) :: r => Forall (fun e => t < fst e) r /\ rising r
  end.
(** no change of the trigger arrives after a sample it concerns *)
Definition on_time (a d : Z) (h : list op) : Prop :=
  forall before off l later b t t' v,
    h = before ++ Input off l :: later -> In (TriggerData b t) later -> In (t', v) (ticks d (off, l)) -> a + t' < t.

(** [l] has the elements of [s] for which P holds, in order *)
Inductive selected {A : Type} (P : A -> Prop) : list A -> list A -> Prop :=
| sel_nil : selected P [] []
| sel_take x s l : P x -> selected P s l -> selected P (x :: s) (x :: l)
| sel_skip x s l : ~ P x -> selected P s l -> selected P (x :: s) l.

(** ** Numbers *)

Definition sum (l : list Z) : Z := fold_right Z.add 0 l.
Definition in_type (k : sample) (v : Z) : Prop := lowest k <= v <= highest k.

(** ** The trigger block *)

(** the state after a sample, with a fixed threshold *)
Definition above (thr : Z) (v : option Z) (was : bool) : bool :=
  match v with Some x => thr <=? x | None => was end.
Fixpoint states (thr : Z) (was : bool) (l : list (Z * option Z)) : list bool :=
  match l with [] => [] | (_, v) :: r => above thr v was :: states thr (above thr v was) r end.
(** the changes of the state with their domain values *)
Fixpoint flips (was : bool) (l : list (Z * option Z)) (ss : list bool) : list (bool * Z) :=
  match l, ss with
  | (t, _) :: r, s :: ss' => if Bool.eqb s was then flips was r ss' else (s, t) :: flips s r ss'
  | _, _ => []
  end.

Definition sizes (l : list Z) : Z := sum (map Z.abs l).
Definition squares (l : list Z) : list Z := map (fun v => v * v) l.
(** the largest square that can be formed from a sample *)
Definition largest_square (k : sample) : Z :=
  match k with U32 => 2 ^ 32 - 1 | U64 => 2 ^ 64 - 1 | I64 => 2 ^ 63 - 1 | _ => 2 ^ 31 - 1 end.
(** the largest sum *)
Definition largest_sum (k : sample) : Z :=
  match k with
  | U8 => 2 ^ 16 - 1 | I8 => 2 ^ 15 - 1 | U16 => 2 ^ 32 - 1 | I16 => 2 ^ 31 - 1
  | U32 | U64 => 2 ^ 64 - 1 | I32 | I64 => 2 ^ 63 - 1
  end.
