(** Vocabulary of C21: the stream as a sequence of items, and an ideal reader
    that takes items from its front. *)
From Verif Require Import Base SRead_Model.
Local Open Scope nat_scope.

(** A sample with its domain value and its domain offset; a packet without
    samples; an event. *)
Inductive item := Sample (v : list Z) (d : option (list Z)) (at_ : Z) | Nothing (domain_packet : bool) (at_ : Z) | Event (e : event).

Definition offset_at (d : option dom) (i : nat) : Z :=
  match d with Some dm => match doff dm with Some o => (o + Z.of_nat i * ddelta dm)%Z | None => 0%Z end | None => 0%Z end.
(** samples of one packet from the i-th on *)
Fixpoint samples_from (i : nat) (smp : list (list Z)) (d : option dom) : list item :=
  match smp with
  | [] => []
  | v :: r => Sample v (option_map (fun dm => nth i (dsmp dm) []) d) (offset_at d i) :: samples_from (S i) r d
  end.
Definition items (p : packet) : list item :=
  match p with
  | Ev e => [Event e]
  | Data [] d => [Nothing (match d with Some _ => true | None => false end) (offset_at d 0)]
  | Data smp d => samples_from 0 smp d
  end.
Definition stream (l : list packet) : list item := flat_map items l.

(** The descriptors in force at the reader's position, its types, its validity *)
Record mode := { vtype : option nat; dtype : option nat; vdesc : option desc; ddesc : option desc; good : bool }.
Definition new_mode (vt dt : option nat) : mode := {| vtype := vt; dtype := dt; vdesc := None; ddesc := None; good := true |}.
Definition type_for (t : option nat) (p : par) : option nat :=
  match p with Is d => Some (match t with Some t => t | None => ty d end) | _ => t end.
Definition in_force (old : option desc) (p : par) : option desc := match p with Is d => Some d | _ => old end.
Definition converts_b (t : option nat) (p : par) : bool :=
  match p with Is d => if in_dec Nat.eq_dec (match t with Some t => t | None => ty d end) (oks d) then true else false | _ => true end.
Definition meet (e : event) (m : mode) : mode :=
  match e with
  | Desc v d => {| vtype := type_for (vtype m) v; dtype := type_for (dtype m) d; vdesc := in_force (vdesc m) v; ddesc := in_force (ddesc m) d;
                   good := good m && converts_b (vtype m) v && converts_b (dtype m) d |}
  | _ => m
  end.
(** a reader that skips events still reports gaps and what makes it invalid *)
Definition reported (skip : bool) (e : event) (m : mode) : bool :=
  negb skip || negb (good m) || match e with Gap _ => true | _ => false end.

(** Take up to n samples, up to the next reported event, which is taken too. *)
Record taken := { got : list item; told : option event; rest : list item; then_ : mode }.
Definition cons_item (x : item) (t : taken) : taken := {| got := x :: got t; told := told t; rest := rest t; then_ := then_ t |}.
Fixpoint take (skip : bool) (n : nat) (l : list item) (m : mode) : taken :=
  match l with
  | [] => {| got := []; told := None; rest := []; then_ := m |}
  | Event e :: r =>
      let m' := meet e m in
      if reported skip e m' then {| got := [Event e]; told := Some e; rest := r; then_ := m' |} else cons_item (Event e) (take skip n r m')
  | Nothing b a :: r => match n with 0 => {| got := []; told := None; rest := l; then_ := m |} | _ => cons_item (Nothing b a) (take skip n r m) end
  | Sample v d a :: r => match n with 0 => {| got := []; told := None; rest := l; then_ := m |} | S k => cons_item (Sample v d a) (take skip k r m) end
  end.

Definition sample_values (l : list item) : list (list Z) := flat_map (fun x => match x with Sample v _ _ => [v] | _ => [] end) l.
Definition sample_domains (l : list item) : list (list Z) := flat_map (fun x => match x with Sample _ (Some d) _ => [d] | _ => [] end) l.
Definition events_in (l : list item) : list event := flat_map (fun x => match x with Event e => [e] | _ => [] end) l.
Definition first_at (l : list item) : option Z :=
  match flat_map (fun x => match x with Sample _ _ a | Nothing _ a => [a] | Event _ => [] end) l with a :: _ => Some a | [] => None end.

(** The ideal reader: what it has not taken yet, and its mode. *)
Record ideal := { left_ : list item; now : mode }.
Definition answer (v d : bool) (t : taken) : result :=
  Returned {| count := length (sample_values (got t)); vals := if v then concat (sample_values (got t)) else [];
              domain := if d then concat (sample_domains (got t)) else []; status := told t; valid := good (then_ t); first := first_at (got t) |}.
Definition ideal_read (skip v d : bool) (n : nat) (i : ideal) : ideal * result :=
  if good (now i) then let t := take skip n (left_ i) (now i) in ({| left_ := rest t; now := then_ t |}, answer v d t)
  else (i, Ignored).
Definition param (d : option desc) : par := match d with Some d => Is d | None => Unchanged end.
Definition ideal_step (skip : bool) (i : ideal) (o : op) : ideal * result :=
  match o with
  | Enqueue p => ({| left_ := left_ i ++ items p; now := now i |}, Done)
  | Read n => ideal_read skip true false n i
  | ReadWithDomain n => ideal_read skip true true n i
  | SkipSamples n => ideal_read skip false false n i
  | FromExisting vt dt =>
      ({| left_ := left_ i; now := meet (Desc (param (vdesc (now i))) (param (ddesc (now i)))) (new_mode vt dt) |}, Done)
  end.
Fixpoint ideal_after (skip : bool) (vt dt : option nat) (h : list op) : ideal :=
  match h with [] => {| left_ := []; now := new_mode vt dt |} | o :: r => fst (ideal_step skip (ideal_after skip vt dt r) o) end.

(** ** Conditions *)
(** values per sample *)
Definition per (d : desc) : nat := fold_right Nat.mul 1 (dims d).
(** a descriptor may follow: the signal does not go back from array samples to
    scalar ones, and a null descriptor comes only when there was none *)
Definition may_follow (old : option desc) (p : par) : Prop :=
  match p with
  | Unchanged => True
  | Null => old = None
  | Is d => match old with Some o => dims d = [] -> dims o = [] | None => True end
  end.
(** data packets agree with the descriptors before them *)
Fixpoint well_typed (v d : option desc) (l : list packet) : Prop :=
  match l with
  | [] => True
  | Ev (Desc v' d') :: r => may_follow v v' /\ may_follow d d' /\ well_typed (in_force v v') (in_force d d') r
  | Ev _ :: r => well_typed v d r
  | Data smp dm :: r =>
      (exists x, v = Some x /\ Forall (fun s => length s = per x) smp)
      /\ (forall y, dm = Some y -> d = Some (dd y) /\ length (dsmp y) = length smp /\ Forall (fun s => length s = per (dd y)) (dsmp y))
      /\ well_typed v d r
  end.
(** the packets received, oldest first *)
Definition received (h : list op) : list packet := rev (flat_map (fun o => match o with Enqueue p => [p] | _ => [] end) h).

Definition descriptor_change (x : item) : Prop := match x with Event (Desc _ _) => True | _ => False end.
Definition without_domain (x : item) : Prop := match x with Sample _ None _ | Nothing false _ => True | _ => False end.
(** domain values are read only while the pending packets have them; a reader is
    made from another one only while no descriptor change is pending *)
Definition call_ok (i : ideal) (o : op) : Prop :=
  match o with
  | ReadWithDomain n => forall x, In x (left_ i) -> ~ without_domain x
  | FromExisting vt dt => forall x, In x (left_ i) -> ~ descriptor_change x
  | _ => True
  end.
Fixpoint calls_ok (skip : bool) (vt dt : option nat) (h : list op) : Prop :=
  match h with [] => True | o :: r => call_ok (ideal_after skip vt dt r) o /\ calls_ok skip vt dt r end.

(** ** What a history returned, oldest first *)
Fixpoint results (skip : bool) (vt dt : option nat) (h : list op) : list result :=
  match h with [] => [] | o :: r => results skip vt dt r ++ [snd (step (after skip vt dt r) o)] end.
Definition returned_values (r : result) : list Z := match r with Returned o => vals o | _ => [] end.
Definition returned_domain (r : result) : list Z := match r with Returned o => domain o | _ => [] end.
Definition returned_count (r : result) : nat := match r with Returned o => count o | _ => 0 end.
Definition returned_events (r : result) : list event := match r with Returned o => match status o with Some e => [e] | None => [] end | _ => [] end.
Definition total (l : list nat) : nat := fold_right Nat.add 0 l.
Definition skips_samples (o : op) : Prop := match o with SkipSamples _ => True | _ => False end.
Definition reads_values_only (o : op) : Prop := match o with Read _ | SkipSamples _ => True | _ => False end.
