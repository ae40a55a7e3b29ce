(** The statistics and trigger function blocks:
    examples/modules/ref_fb_module/modules/ref_fb_module/src/statistics_fb_impl.cpp,
    src/trigger_fb_impl.cpp and include/ref_fb_module/statistics_fb_impl.h.
    Simplified: ticks are unbounded integers (the code uses 64-bit numbers and
    takes the largest one for "no packet yet"); the product BlockSize * Overlap
    is divided exactly (the code goes through double); floating point samples
    are left out; both output signals are active; log messages and component
    statuses are left out. *)
From Verif Require Import Base.
Local Open Scope Z_scope.

(** ** Arithmetic on samples *)

(** sample_type.h, the integer ones *)
Inductive sample := U8 | I8 | U16 | I16 | U32 | I32 | U64 | I64.
Definition bits (k : sample) : Z :=
  match k with U8 | I8 => 8 | U16 | I16 => 16 | U32 | I32 => 32 | U64 | I64 => 64 end.
Definition signed (k : sample) : bool := match k with I8 | I16 | I32 | I64 => true | _ => false end.

(** statistics_fb_impl.h:80-94: the type the sums have *)
Definition aggregate (k : sample) : sample :=
  match k with U8 => U16 | I8 => I16 | U16 => U32 | I16 => I32 | U32 => U64 | I32 => I64 | U64 => U64 | I64 => I64 end.

Definition lowest (k : sample) : Z := if signed k then - 2 ^ (bits k - 1) else 0.
Definition highest (k : sample) : Z := if signed k then 2 ^ (bits k - 1) - 1 else 2 ^ bits k - 1.
Definition within (k : sample) (z : Z) : bool := (lowest k <=? z) && (z <=? highest k).
(** conversion to an integer type *)
Definition convert (k : sample) (z : Z) : Z :=
  let m := z mod 2 ^ bits k in if signed k && (2 ^ (bits k - 1) <=? m) then m - 2 ^ bits k else m.

(** [None]: undefined behaviour *)
Definition checked (k : sample) (z : Z) : option Z := if within k z then Some z else None.

(** val * val (statistics_fb_impl.cpp:509): types below int are multiplied as int *)
Definition square (k : sample) (v : Z) : option Z :=
  match k with
  | U32 | U64 => Some (convert k (v * v))
  | I64 => checked I64 (v * v)
  | _ => checked I32 (v * v)
  end.

(** acc += x on the type of the sums (statistics_fb_impl.cpp:507-509): 16 bits
    are added as int and converted back, unsigned sums wrap, others overflow *)
Definition add (k : sample) (acc x : Z) : option Z :=
  match k with
  | U16 | I16 | U32 | U64 => Some (convert k (acc + x))
  | _ => checked k (acc + x)
  end.

(** sum / static_cast<AggT>(blockSize) (statistics_fb_impl.cpp:513 and 515) *)
Definition divide (k : sample) (sum : Z) (n : nat) : option Z :=
  let d := convert k (Z.of_nat n) in
  if d =? 0 then None else checked k (Z.quot sum d).

Fixpoint total (k : sample) (f : Z -> option Z) (l : list Z) (acc : Z) : option Z :=
  match l with
  | [] => Some acc
  | v :: r => match f v with
              | None => None
              | Some x => match add (aggregate k) acc x with None => None | Some a => total k f r a end
              end
  end.

(** statistics_fb_impl.cpp:501-513 *)
Definition average (k : sample) (n : nat) (l : list Z) : option Z :=
  match total k (fun v => Some v) l 0 with
  | None => None
  | Some s => match divide (aggregate k) s n with None => None | Some q => Some (convert k q) end
  end.
(** statistics_fb_impl.cpp:502-515.  The root of a negative number is not a
    number, and converting that or a number that is too large is undefined.
    Simplified: the root of the double is rounded down exactly. *)
Definition rootMeanSquare (k : sample) (n : nat) (l : list Z) : option Z :=
  match total k (square k) l 0 with
  | None => None
  | Some s => match divide (aggregate k) s n with
              | None => None
              | Some q => if q <? 0 then None else checked k (Z.sqrt q)
              end
  end.

(** ** The statistics block *)

Inductive domain_type := Implicit | Explicit | ExplicitRange.   (** statistics_fb_impl.h:96-101 *)

(** a value descriptor: of an integer sample type without dimensions, or one
    the block refuses *)
Inductive value_descriptor := Samples (k : sample) | Refused.
(** a domain descriptor: 64-bit integers with a linear rule, or one the block
    refuses *)
Inductive domain_descriptor := Linear (delta start : Z) | Other.

Record conf := {
  blockSize : nat;
  remainder : nat;      (** overlappedBlockSizeRemainder *)
  delta : Z;            (** inputDeltaTicks *)
  outDelta : Z;         (** outputDeltaTicks *)
  start : Z;
  kind : sample;
  form : domain_type }.

Record st := {
  p_block : Z;          (** the property BlockSize: any integer *)
  p_overlap : Z;        (** the property Overlap: 0 to 99 *)
  p_form : domain_type;
  values : option value_descriptor;
  domain : option domain_descriptor;
  valid : bool;
  cf : option conf;     (** [None]: not configured, the members are not all set *)
  buf : list Z;         (** calcBuf *)
  next : option Z;      (** nextExpectedDomainValue *)
  hist : list (bool * Z);  (** triggerHistory, oldest first *)
  nested : bool }.      (** there is a nested trigger *)

(** statistics_fb_impl.cpp:13-39 and 96-117.  [valid] is not initialised
    (statistics_fb_impl.h:163) but no data arrives before a descriptor. *)
Definition created : st :=
  {| p_block := 10; p_overlap := 0; p_form := Implicit; values := None; domain := None; valid := false; cf := None;
     buf := []; next := None; hist := []; nested := false |}.

(** statistics_fb_impl.cpp:161-166; the size is a 64-bit unsigned number *)
Definition size_of (z : Z) : nat := Z.to_nat (w64 z).
Definition overlapped (block : nat) (overlap : Z) : nat := Z.to_nat (w64 (Z.of_nat block * overlap) / 100).
Definition make_conf (s : st) (d a : Z) (k : sample) : conf :=
  let b := size_of (p_block s) in
  let r := (b - overlapped b (p_overlap s))%nat in
  {| blockSize := b; remainder := r; delta := d; outDelta := d * Z.of_nat r; start := a; kind := k; form := p_form s |}.

(** statistics_fb_impl.cpp:136-224.  Simplified: when it fails half-way the
    members it would have set count as not set. *)
Definition configure (s : st) : st :=
  match values s, domain s with
  | Some (Samples k), Some (Linear d a) =>
    {| p_block := p_block s; p_overlap := p_overlap s; p_form := p_form s; values := values s; domain := domain s;
       valid := true; cf := Some (make_conf s d a k); buf := []; next := None; hist := []; nested := nested s |}
  | _, _ =>
    {| p_block := p_block s; p_overlap := p_overlap s; p_form := p_form s; values := values s; domain := domain s;
       valid := false; cf := None; buf := buf s; next := next s; hist := hist s; nested := nested s |}
  end.

(** statistics_fb_impl.cpp:119-134 *)
Definition set_properties (s : st) (b o : Z) (f : domain_type) : st :=
  configure {| p_block := b; p_overlap := o; p_form := f; values := values s; domain := domain s; valid := valid s; cf := cf s;
               buf := buf s; next := next s; hist := hist s; nested := nested s |}.
(** statistics_fb_impl.cpp:333-342 *)
Definition descriptors (s : st) (v : option value_descriptor) (d : option domain_descriptor) : st :=
  configure {| p_block := p_block s; p_overlap := p_overlap s; p_form := p_form s;
               values := match v with Some _ => v | None => values s end;
               domain := match d with Some _ => d | None => domain s end; valid := valid s; cf := cf s;
               buf := buf s; next := next s; hist := hist s; nested := nested s |}.

Definition with_valid (s : st) (v : bool) : st :=
  {| p_block := p_block s; p_overlap := p_overlap s; p_form := p_form s; values := values s; domain := domain s; valid := v;
     cf := cf s; buf := buf s; next := next s; hist := hist s; nested := nested s |}.
Definition with_hist (s : st) (h : list (bool * Z)) : st :=
  {| p_block := p_block s; p_overlap := p_overlap s; p_form := p_form s; values := values s; domain := domain s; valid := valid s;
     cf := cf s; buf := buf s; next := next s; hist := h; nested := nested s |}.
Definition with_data (s : st) (b : list Z) (n : option Z) : st :=
  {| p_block := p_block s; p_overlap := p_overlap s; p_form := p_form s; values := values s; domain := domain s; valid := valid s;
     cf := cf s; buf := b; next := n; hist := hist s; nested := nested s |}.
Definition with_nested (s : st) (b : bool) : st :=
  {| p_block := p_block s; p_overlap := p_overlap s; p_form := p_form s; values := values s; domain := domain s; valid := valid s;
     cf := cf s; buf := buf s; next := next s; hist := hist s; nested := b |}.

(** what is sent: the domain value, the average and the root mean square of a
    block; [None] is undefined behaviour *)
Inductive stamp := At (t : Z) | Between (a b : Z) | Unwritten.
Record out := { when : stamp; avg : option Z; rms : option Z }.

(** statistics_fb_impl.cpp:517-531, 379-381; with a 16-bit unsigned input the
    explicit domain is not written (line 607) *)
Definition stamp_of (c : conf) (tick : Z) : stamp :=
  match form c with
  | Implicit => At (start c + tick)
  | Explicit => match kind c with U16 => Unwritten | _ => At (tick + start c) end
  | ExplicitRange => Between (tick + start c) (tick + start c + delta c * Z.of_nat (blockSize c) - 1)
  end.

(** statistics_fb_impl.cpp:495-533: the output number i *)
Definition calc_one (c : conf) (data : list Z) (first : Z) (i : nat) : out :=
  let block := firstn (blockSize c) (skipn (i * remainder c) data) in
  {| when := stamp_of c (first + Z.of_nat i * outDelta c);
     avg := average (kind c) (blockSize c) block;
     rms := rootMeanSquare (kind c) (blockSize c) block |}.
Definition calc (c : conf) (data : list Z) (first : Z) (n : nat) : list out := map (calc_one c data first) (seq 0 n).

(** statistics_fb_impl.cpp:279-304 *)
Definition output_start (c : conf) (b : list Z) (n : option Z) (off : Z) : Z * bool :=
  match n with
  | None => (off, false)
  | Some e => if off =? e then (off + (- Z.of_nat (length b)) * delta c, false) else (off, true)
  end.

(** statistics_fb_impl.cpp:357-417; [None] is a division by zero *)
Definition calculate (c : conf) (b : list Z) (n : option Z) (off : Z) (l : list Z) : option (list Z * option Z * list out) :=
  let first := fst (output_start c b n off) in
  let data := (if snd (output_start c b n off) then [] else b) ++ l in
  let n' := Some (off + Z.of_nat (length l) * delta c) in
  if (length data <? blockSize c)%nat then Some (data, n', [])
  else match remainder c with
       | O => None
       | r => let count := ((length data - blockSize c) / r + 1)%nat in
              Some (skipn (count * r) data, n', calc c data first count)
       end.

(** ** The trigger history *)

(** statistics_fb_impl.h:53-69 *)
Fixpoint state_at (h : list (bool * Z)) (t : Z) (acc : bool) : bool :=
  match h with
  | [] => acc
  | (b, d) :: r => if d <=? t then state_at r t b else acc
  end.
Definition triggered (h : list (bool * Z)) (t : Z) : bool := state_at h t false.
(** statistics_fb_impl.h:40-47 *)
Fixpoint drop_to (h : list (bool * Z)) (t : Z) : list (bool * Z) :=
  match h with
  | [] => []
  | (b, d) :: r => if d <? t then drop_to r t else h
  end.

(** statistics_fb_impl.cpp:439-443 and 457-460: goes on while the state is
    [want]; the flag tells that the domain value behind the last one was read *)
Fixpoint advance (h : list (bool * Z)) (want : bool) (l : list (Z * Z)) : list (Z * Z) * list (Z * Z) * bool :=
  match l with
  | [] => ([], [], true)
  | (t, v) :: r =>
    if Bool.eqb (triggered h t) want
    then let '(a, b, o) := advance h want r in ((t, v) :: a, b, o)
    else ([], l, false)
  end.

(** the domain values and samples of a packet *)
Fixpoint timed (d off : Z) (l : list Z) : list (Z * Z) :=
  match l with [] => [] | v :: r => (off, v) :: timed d (off + d) r end.

(** the result of handling a packet *)
Record result := {
  after : st;
  outs : list out;
  past_end : bool;      (** memory behind the domain values was read *)
  crash : bool }.       (** division by zero, or members that were never set *)

Definition calculate_and_send (s : st) (c : conf) (off : Z) (l : list Z) : result :=
  match calculate c (buf s) (next s) off l with
  | Some (b, n, o) => {| after := with_data s b n; outs := o; past_end := false; crash := false |}
  | None => {| after := s; outs := []; past_end := false; crash := true |}
  end.

(** statistics_fb_impl.cpp:431-478; the history is asked with the domain
    values, the packets made carry offsets ([start] is what lies between) *)
Fixpoint triggered_parts (fuel : nat) (s : st) (c : conf) (l : list (Z * Z)) : result :=
  match fuel with
  | O => {| after := s; outs := []; past_end := false; crash := false |}
  | S f =>
    match l with
    | [] => {| after := s; outs := []; past_end := false; crash := false |}
    | _ =>
      let '(off_part, l1, o1) := advance (hist s) false l in
      let s1 := match off_part with
                | [] => s
                | _ => with_hist s (drop_to (hist s) (fst (last off_part (0, 0))))
                end in
      match l1 with
      | [] => {| after := s1; outs := []; past_end := o1; crash := false |}
      | (t, _) :: _ =>
        let '(on_part, l2, o2) := advance (hist s1) true l1 in
        let r1 := calculate_and_send s1 c (t - start c) (map snd on_part) in
        if crash r1 then {| after := after r1; outs := outs r1; past_end := o1 || o2; crash := true |}
        else let r2 := triggered_parts f (after r1) c l2 in
             {| after := after r2; outs := outs r1 ++ outs r2; past_end := o1 || o2 || past_end r2; crash := crash r2 |}
      end
    end
  end.

(** statistics_fb_impl.cpp:419-485, a packet with its offset and samples *)
Definition input (s : st) (off : Z) (l : list Z) : result :=
  if valid s then
    match cf s with
    | None => {| after := s; outs := []; past_end := false; crash := true |}
    | Some c => if nested s then triggered_parts (S (length l)) s c (timed (delta c) (start c + off) l)
                else calculate_and_send s c off l
    end
  else {| after := s; outs := []; past_end := false; crash := false |}.

(** statistics_fb_impl.cpp:306-331: the value descriptor is of a type the
    block could take as input; the domain is of type Int64 *)
Definition trigger_descriptors (s : st) (v : option bool) (d : option bool) : st :=
  match v with
  | Some true => with_valid s false
  | _ => match d with Some false => with_valid s false | _ => with_valid s true end
  end.
(** statistics_fb_impl.cpp:344-355, statistics_fb_impl.h:35-39 *)
Definition trigger_data (s : st) (b : bool) (t : Z) : st := with_hist s (hist s ++ [(b, t)]).

Inductive op :=
| SetProperties (b o : Z) (f : domain_type)
| Descriptors (v : option value_descriptor) (d : option domain_descriptor)
| Input (off : Z) (l : list Z)
| AddTrigger
| RemoveTrigger
| TriggerDescriptors (v d : option bool)
| TriggerData (b : bool) (t : Z).

Definition only (s : st) : result := {| after := s; outs := []; past_end := false; crash := false |}.
Definition step (s : st) (o : op) : result :=
  match o with
  | SetProperties b p f => only (set_properties s b p f)
  | Descriptors v d => only (descriptors s v d)
  | Input off l => input s off l
  | AddTrigger => only (with_nested s true)
  | RemoveTrigger => only (with_nested s false)
  | TriggerDescriptors v d => only (trigger_descriptors s v d)
  | TriggerData b t => only (trigger_data s b t)
  end.

(** operations in order until one crashes *)
Fixpoint run (s : st) (h : list op) : result :=
  match h with
  | [] => only s
  | o :: r =>
    let a := step s o in
    if crash a then a
    else let b := run (after a) r in
         {| after := after b; outs := outs a ++ outs b; past_end := past_end a || past_end b; crash := crash b |}
  end.

(** ** The trigger block *)

(** trigger_fb_impl.cpp:182-207 with 155-180: samples with their domain values
    and a threshold; [None] is not a number.  Simplified: samples and
    threshold are integers. *)
Record trigger := { active : bool; threshold : Z }.
Definition crossed (g : trigger) (v : option Z) : bool :=
  match v with
  | None => false
  | Some x => if active g then x <? threshold g else threshold g <=? x
  end.
Fixpoint trigger_packet (g : trigger) (l : list (Z * option Z)) : trigger * list (bool * Z) :=
  match l with
  | [] => (g, [])
  | (t, v) :: r =>
    if crossed g v
    then let g' := {| active := negb (active g); threshold := threshold g |} in
         let p := trigger_packet g' r in (fst p, (active g', t) :: snd p)
    else trigger_packet g r
  end.
Fixpoint trigger_packets (g : trigger) (ps : list (list (Z * option Z))) : trigger * list (bool * Z) :=
  match ps with
  | [] => (g, [])
  | p :: r => let a := trigger_packet g p in
              let b := trigger_packets (fst a) r in (fst b, snd a ++ snd b)
  end.
