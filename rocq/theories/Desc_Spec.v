(** What a user expects of data descriptors, stated with the lists and
    dictionaries they handed over and what these contain. *)
From Verif Require Import Base Desc_Model.
Local Open Scope Z_scope.

Definition two_64 : Z := 18446744073709551616.
Definition reachable (s : st) : Prop := exists ops, s = run initial ops.

(** ** Reading *)
Definition Items (h : heap) (a : addr) (l : list val) : Prop := exists b, nth_error h a = Some {| frozen := b; what := CList l |}.
Definition Entries (h : heap) (a : addr) (l : list (key * val)) : Prop := exists b, nth_error h a = Some {| frozen := b; what := CDict l |}.
(** can never be written again *)
Definition Unchangeable (h : heap) (a : addr) : Prop := exists c, nth_error h a = Some {| frozen := true; what := c |}.
(** the value stored for a key is the first one *)
Inductive Value : list (key * val) -> key -> val -> Prop :=
| Value_here : forall k v l, Value ((k, v) :: l) k v
| Value_later : forall k k' v v' l, k' <> k -> Value l k v -> Value ((k', v') :: l) k v.

(** ** Types *)
Inductive Real : sample -> Prop :=
| R1 : Real Float32 | R2 : Real Float64 | R3 : Real UInt8 | R4 : Real Int8 | R5 : Real UInt16 | R6 : Real Int16 | R7 : Real UInt32
| R8 : Real Int32 | R9 : Real UInt64 | R10 : Real Int64.
Inductive Bytes : sample -> Z -> Prop :=
| B1 : forall k, In k [UInt8; Int8] -> Bytes k 1
| B2 : forall k, In k [UInt16; Int16] -> Bytes k 2
| B4 : forall k, In k [Float32; UInt32; Int32] -> Bytes k 4
| B8 : forall k, In k [Float64; UInt64; Int64; ComplexFloat32] -> Bytes k 8
| B16 : forall k, In k [RangeInt64; ComplexFloat64] -> Bytes k 16
| B0 : forall k, In k [Undefined; Binary; String; Struct; Null] -> Bytes k 0.

(** ** Dimensions *)
Inductive SameKind : list val -> Prop :=
| Strings : forall l, Forall (fun v => exists z, v = VStr z) l -> SameKind l
| Numbers : forall l, Forall (fun v => exists z, v = VNum z) l -> SameKind l
| Ranges : forall l, Forall (fun v => exists a b, v = VRange a b) l -> SameKind l.
Inductive DimLength (h : heap) : val -> Z -> Prop :=
| by_number : forall d l n,
    dr_type (dm_rule d) = DLinear \/ dr_type (dm_rule d) = DLogarithmic ->
    Entries h (dr_params (dm_rule d)) l -> Value l KSize (VNum n) -> DimLength h (VDim d) (n mod two_64)
| by_labels : forall d l b ls,
    dr_type (dm_rule d) = DList -> Entries h (dr_params (dm_rule d)) l -> Value l KList (VRef b) -> Items h b ls -> SameKind ls ->
    DimLength h (VDim d) (Z.of_nat (length ls)).

(** ** Consistent descriptors *)
Definition has_rule (f : fields) (t : rule_type) : Prop := exists r, rule f = Some r /\ ru_type r = t.
Definition ConsistentStruct (f : fields) (fs : list val) : Prop :=
  kind f = Struct /\ has_rule f RExplicit /\ unit_ f = None /\ scale f = None /\ range f = None /\ resolution f = None /\
  origin f = Some [] /\ (exists c t, name f = Some (c :: t)) /\ Forall (fun v => exists d, v = VDesc d) fs.
Definition ConsistentPlain (h : heap) (f : fields) (dl : list val) : Prop :=
  rule f <> None /\
  (has_rule f RLinear -> Real (kind f) \/ kind f = RangeInt64) /\
  (has_rule f RConstant -> (Real (kind f) \/ kind f = RangeInt64) /\ reference f = None) /\
  (forall i z, reference f = Some i -> in_offset i = Some z -> z <> 0 -> Real (kind f) \/ kind f = Undefined) /\
  (forall s, scale f = Some s ->
     has_rule f RExplicit /\ resolution f = None /\ origin f = Some [] /\ dl = [] /\ reference f = None /\
     (sc_out s = SFloat32 /\ kind f = Float32 \/ sc_out s = SFloat64 /\ kind f = Float64) /\ Real (sc_in s) /\
     (sc_type s = CLinear -> exists l a b, Entries h (sc_params s) l /\ Value l KScale (VNum a) /\ Value l KOffset (VNum b))).
Definition Consistent (h : heap) (f : fields) (dl fs : list val) : Prop :=
  (fs <> [] /\ ConsistentStruct f fs \/ fs = [] /\ ConsistentPlain h f dl) /\
  Forall (fun v => exists n, DimLength h v n) dl.

(** ** Sizes *)
Fixpoint product (l : list Z) : Z := match l with [] => 1 | n :: r => n * product r end.
Fixpoint sum (l : list Z) : Z := match l with [] => 0 | n :: r => n + sum r end.
(** the type whose samples are on the wire *)
Definition RawKind (f : fields) (k : sample) : Prop := match scale f with Some s => k = sc_in s | None => k = kind f end.
Definition Sizes (f : fields) (fs : list val) (count : Z) (d : desc) : Prop :=
  match fs with
  | [] => forall b r k, Bytes (kind f) b -> RawKind f k -> Bytes k r -> b * count < two_64 -> r * count < two_64 ->
          sampleSize d = b * count /\ (has_rule f RExplicit -> rawSampleSize d = r * count) /\ (~ has_rule f RExplicit -> rawSampleSize d = 0)
  | _ => forall parts, fs = map VDesc parts ->
         sum (map sampleSize parts) * count < two_64 -> sum (map rawSampleSize parts) * count < two_64 ->
         sampleSize d = sum (map sampleSize parts) * count /\ rawSampleSize d = sum (map rawSampleSize parts) * count
  end.

(** what the calculators hold is what the parameters say *)
Definition RuleNumbers (h : heap) (d : desc) : Prop :=
  forall r a, rule (d_fields d) = Some r -> ru_type r = RLinear -> ru_params r = Some a -> ruleCalc d <> None ->
  Unchangeable h a /\ exists l x y, Entries h a l /\ Value l KDelta (VNum x) /\ Value l KStart (VNum y) /\ ruleCalc d = Some (Some (x, y)).
Definition ScaleNumbers (h : heap) (d : desc) : Prop :=
  forall x, scale (d_fields d) = Some x -> sc_type x = CLinear -> 
  exists l u v, Entries h (sc_params x) l /\ Value l KScale (VNum u) /\ Value l KOffset (VNum v) /\ scaleCalc d = Some (Some (u, v)).

(** contents of every list and dictionary, frozen or not *)
Definition SameContents (h h' : heap) : Prop :=
  length h' = length h /\
  forall a c, nth_error h a = Some c -> exists c', nth_error h' a = Some c' /\ what c' = what c /\ (frozen c = true -> frozen c' = true).

(** nothing that the descriptor looks at and that can be changed has been *)
Definition Untouched (h h' : heap) (f : fields) (dl fs : list val) : Prop :=
  Items h' (structs f) fs /\
  (forall v n, In v dl -> DimLength h v n -> DimLength h' v n) /\
  (forall x l, scale f = Some x -> Entries h (sc_params x) l -> Entries h' (sc_params x) l).
