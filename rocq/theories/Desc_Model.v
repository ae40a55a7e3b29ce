(** Data descriptors and what they are made of: core/opendaq/signal/src/
    data_descriptor_impl.cpp, data_descriptor_builder_impl.cpp, dimension_impl.cpp,
    dimension_rule_impl.cpp, data_rule_impl.cpp, scaling_impl.cpp with their builders,
    scaling_calc.h and data_rule_calc.h (what the calculators remember).
    Lists and dictionaries are objects that several owners share and that can
    be frozen; everything else that a descriptor has cannot change and is a
    value.  Simplified: numbers are integers; units, ranges, tick resolutions
    and strings are opaque; error codes are merged where a null pointer makes
    the code throw instead of returning an error. *)
From Verif Require Import Base.
Local Open Scope Z_scope.

(** sample_type.h:20-44 *)
Inductive sample :=
  Undefined | Float32 | Float64 | UInt8 | Int8 | UInt16 | Int16 | UInt32 | Int32 | UInt64 | Int64
| RangeInt64 | ComplexFloat32 | ComplexFloat64 | Binary | String | Struct | Null.
Definition rank (k : sample) : Z :=
  match k with
  | Undefined => 0 | Float32 => 1 | Float64 => 2 | UInt8 => 3 | Int8 => 4 | UInt16 => 5 | Int16 => 6 | UInt32 => 7 | Int32 => 8
  | UInt64 => 9 | Int64 => 10 | RangeInt64 => 11 | ComplexFloat32 => 12 | ComplexFloat64 => 13 | Binary => 14 | String => 15
  | Struct => 16 | Null => 17
  end.
Definition sample_eqb (a b : sample) : bool := rank a =? rank b.
Inductive scaled := SInvalid | SFloat32 | SFloat64.
(** sample_type_traits.h:361-401 *)
Definition getSampleSize (k : sample) : Z :=
  match k with
  | UInt8 | Int8 => 1
  | UInt16 | Int16 => 2
  | Float32 | UInt32 | Int32 => 4
  | Float64 | UInt64 | Int64 | ComplexFloat32 => 8
  | RangeInt64 | ComplexFloat64 => 16
  | _ => 0
  end.
(** sample_type_traits.h:442-455 *)
Definition convertScaled (k : scaled) : sample :=
  match k with SFloat32 => Float32 | SFloat64 => Float64 | SInvalid => Undefined end.

Inductive rule_type := ROther | RLinear | RConstant | RExplicit.       (** data_rule.h:34-40 *)
Inductive dim_type := DOther | DLinear | DLogarithmic | DList.          (** dimension_rule.h:34-40 *)
Inductive scaling_type := COther | CLinear.                              (** scaling.h:35-39 *)
Definition is_explicit (t : rule_type) : bool := match t with RExplicit => true | _ => false end.

Definition addr := nat.
Bind Scope nat_scope with addr.
Definition text := list Z.

Record dim_rule := { dr_type : dim_type; dr_params : addr }.
Record dim := { dm_rule : dim_rule; dm_unit : option Z; dm_name : option text }.
Record data_rule := { ru_type : rule_type; ru_params : option addr }.
Record scaling := { sc_in : sample; sc_out : scaled; sc_type : scaling_type; sc_params : addr }.
(** the reference domain info: its offset and the rest *)
Record info := { in_offset : option Z; in_rest : Z }.

(** what the builder holds and the descriptor takes over *)
Record fields := {
  dims : addr;                 (** a list *)
  name : option text;
  kind : sample;
  unit_ : option Z;
  range : option Z;
  rule : option data_rule;
  scale : option scaling;
  origin : option text;
  resolution : option Z;
  structs : addr;              (** a list: the struct fields *)
  metadata : addr;             (** a dictionary *)
  reference : option info }.

(** data_descriptor_impl.h: the fields, the sizes, and the numbers the
    calculators copied *)
Record desc := {
  d_fields : fields;
  sampleSize : Z;
  rawSampleSize : Z;
  ruleCalc : option (option (Z * Z));       (** delta and start of a linear rule *)
  scaleCalc : option (option (Z * Z)) }.    (** scale and offset of a linear scaling *)

Inductive val := VNum (z : Z) | VStr (z : Z) | VRange (a b : Z) | VRef (a : addr) | VDim (d : dim) | VDesc (d : desc) | VNull | VObj.
Inductive key := KDelta | KStart | KSize | KBase | KScale | KOffset | KList | KOther (n : nat).
Definition key_eqb (a b : key) : bool :=
  match a, b with
  | KDelta, KDelta | KStart, KStart | KSize, KSize | KBase, KBase | KScale, KScale | KOffset, KOffset | KList, KList => true
  | KOther n, KOther m => (n =? m)%nat
  | _, _ => false
  end.
Inductive content := CList (l : list val) | CDict (l : list (key * val)).
Record cell := { frozen : bool; what : content }.
Definition heap := list cell.

Inductive err := Frozen | InvalidParameters | InvalidLabels | Incomplete | InvalidSampleType | InvalidState | InvalidParameter
               | UnknownRule | NoInterface | NotFound.
Inductive res (A : Type) := Ok (a : A) | Err (e : err).
Arguments Ok {A} a.
Arguments Err {A} e.

(** ** Lists and dictionaries *)
Definition asList (h : heap) (a : addr) : option (list val) :=
  match nth_error h a with Some {| what := CList l |} => Some l | _ => None end.
Definition asDict (h : heap) (a : addr) : option (list (key * val)) :=
  match nth_error h a with Some {| what := CDict l |} => Some l | _ => None end.
Fixpoint replace (h : heap) (a : addr) (c : cell) : heap :=
  match h, a with
  | [], _ => []
  | _ :: r, O => c :: r
  | x :: r, S n => x :: replace r n c
  end.
(** listobject_impl.h, dictobject_impl.h: freeze *)
Definition freeze (h : heap) (a : addr) : heap :=
  match nth_error h a with Some c => replace h a {| frozen := true; what := what c |} | None => h end.
Fixpoint lookup (l : list (key * val)) (k : key) : option val :=
  match l with [] => None | (k', v) :: r => if key_eqb k' k then Some v else lookup r k end.
Fixpoint assign (l : list (key * val)) (k : key) (v : val) : list (key * val) :=
  match l with [] => [(k, v)] | (k', v') :: r => if key_eqb k' k then (k', v) :: r else (k', v') :: assign r k v end.
Definition delete (l : list (key * val)) (k : key) : list (key * val) := filter (fun p => negb (key_eqb (fst p) k)) l.
Definition number (v : option val) : option Z := match v with Some (VNum z) => Some z | _ => None end.
(** hasKey and the value is a number *)
Definition isNumber (l : list (key * val)) (k : key) : bool := match number (lookup l k) with Some _ => true | None => false end.
Definition numberAt (l : list (key * val)) (k : key) : Z := match number (lookup l k) with Some z => z | None => 0 end.

(** ** Dimension rules and dimensions *)

(** dimension_rule_impl.cpp getLabelType; the kinds of labels *)
Definition label (v : val) : Z := match v with VStr _ => 1 | VNum _ => 2 | VRange _ _ => 3 | _ => 0 end.
(** listLabelsValid *)
Definition labelsValid (l : list val) : bool :=
  match l with
  | [] => true
  | v :: _ => negb (label v =? 0) && forallb (fun w => label w =? label v) l
  end.
(** verifyParametersInternal *)
Definition verifyDimRule (h : heap) (t : dim_type) (a : addr) : option err :=
  match asDict h a with
  | None => Some Incomplete
  | Some l =>
    match t with
    | DLinear => if (length l =? 3)%nat && (isNumber l KDelta && isNumber l KStart && isNumber l KSize) then None else Some InvalidParameters
    | DLogarithmic => if (length l =? 4)%nat && (isNumber l KDelta && isNumber l KStart && isNumber l KSize && isNumber l KBase)
                      then None else Some InvalidParameters
    | DList => match lookup l KList with
               | Some (VRef b) => match asList h b with
                                  | Some ls => if labelsValid ls then None else Some InvalidLabels
                                  | None => Some InvalidParameters
                                  end
               | _ => Some InvalidParameters
               end
    | DOther => None
    end
  end.
(** DimensionRuleImpl::DimensionRuleImpl(ruleType, params) *)
Definition newDimRule (h : heap) (t : dim_type) (a : addr) : heap * res dim_rule :=
  match verifyDimRule h t a with
  | Some e => (h, Err e)
  | None => (freeze h a, Ok {| dr_type := t; dr_params := a |})
  end.
(** dimension_impl.cpp getSize; a size is a 64-bit unsigned number *)
Definition dimSize (h : heap) (d : dim) : res Z :=
  match dr_type (dm_rule d) with
  | DOther => Err UnknownRule
  | t =>
    match verifyDimRule h t (dr_params (dm_rule d)) with
    | Some e => Err e
    | None =>
      match asDict h (dr_params (dm_rule d)) with
      | None => Err Incomplete
      | Some l =>
        match t with
        | DList => match lookup l KList with
                   | Some (VRef b) => match asList h b with Some ls => Ok (Z.of_nat (length ls)) | None => Err NoInterface end
                   | _ => Err NoInterface
                   end
        | _ => Ok (w64 (numberAt l KSize))
        end
      end
    end
  end.

(** ** Data rules *)

(** data_rule_impl.cpp verifyParametersInternal *)
Definition verifyDataRule (h : heap) (t : rule_type) (a : option addr) : option err :=
  match a with
  | None => if is_explicit t then None else Some Incomplete
  | Some a =>
    match asDict h a with
    | None => Some Incomplete
    | Some l =>
      match t with
      | RLinear => if (length l =? 2)%nat && (isNumber l KDelta && isNumber l KStart) then None else Some InvalidParameters
      | RConstant => if (length l =? 0)%nat then None else Some InvalidParameters
      | _ => None
      end
    end
  end.
Definition newDataRule (h : heap) (t : rule_type) (a : option addr) : heap * res data_rule :=
  match verifyDataRule h t a with
  | Some e => (h, Err e)
  | None => (match a with Some b => freeze h b | None => h end, Ok {| ru_type := t; ru_params := a |})
  end.

(** ** Scalings *)

(** scaling_impl.cpp verifyParametersInternal *)
Definition verifyScaling (h : heap) (i : sample) (t : scaling_type) (a : option addr) : option err :=
  match a with
  | None => Some Incomplete
  | Some a =>
    match asDict h a with
    | None => Some Incomplete
    | Some l =>
      if rank Int64 <? rank i then Some InvalidSampleType
      else match t with
           | CLinear => if (length l =? 2)%nat && (isNumber l KScale && isNumber l KOffset) then None else Some InvalidParameters
           | COther => None
           end
    end
  end.
(** The three constructors.  [built]: made by a builder; only then the
    parameters are frozen, the other constructors ask the argument they have
    moved from (scaling_impl.cpp:41-44). *)
Definition newScaling (h : heap) (built : bool) (i : sample) (o : scaled) (t : scaling_type) (a : option addr) : heap * res scaling :=
  match verifyScaling h i t a, a with
  | None, Some b => (if built then freeze h b else h, Ok {| sc_in := i; sc_out := o; sc_type := t; sc_params := b |})
  | Some e, _ => (h, Err e)
  | None, None => (h, Err Incomplete)
  end.

(** ** Descriptors *)

Definition is_empty (t : option text) : bool := match t with Some [] => true | _ => false end.
Definition none {A : Type} (o : option A) : bool := match o with None => true | Some _ => false end.

(** data_descriptor_impl.cpp validate, the branch with struct fields *)
Definition structValid (f : fields) : bool :=
  sample_eqb (kind f) Struct && match rule f with Some r => is_explicit (ru_type r) | None => false end && none (unit_ f) && none (scale f)
  && none (range f) && none (resolution f) && is_empty (origin f) && match name f with Some (_ :: _) => true | _ => false end.

(** ... and without; [n] is the number of dimensions *)
Definition plainValid (f : fields) (n : nat) : option err :=
  match rule f with
  | None => Some Incomplete
  | Some r =>
    match scale f with
    | Some s =>
      if negb (sample_eqb (kind f) (convertScaled (sc_out s))) then Some InvalidSampleType
      else if negb (is_explicit (ru_type r)) || negb (none (resolution f)) || negb (is_empty (origin f)) then Some InvalidState
      else if (0 <? n)%nat then Some InvalidState
      else None
    | None => None
    end
  end.
Definition plainValid2 (f : fields) (r : data_rule) : option err :=
  if match ru_type r with RLinear => rank RangeInt64 <? rank (kind f) | _ => false end then Some InvalidSampleType
  else if match reference f with
          | Some i => match in_offset i with Some z => negb (z =? 0) && (rank RangeInt64 <=? rank (kind f)) | None => false end
          | None => false
          end then Some InvalidSampleType
  else if match ru_type r with RConstant => negb (none (reference f)) | _ => false end then Some InvalidParameter
  else if negb (none (scale f)) && negb (none (reference f)) then Some InvalidParameter
  else None.

(** metadata: the dictionary and its values are frozen *)
Definition freezeValues (h : heap) (l : list (key * val)) : heap :=
  fold_left (fun g p => match snd p with VRef a => freeze g a | _ => g end) l h.
Definition freezeParts (h : heap) (f : fields) (strct : bool) : heap :=
  let h1 := if strct then freeze h (structs f) else h in
  let h2 := freeze h1 (dims f) in
  let h3 := freeze h2 (metadata f) in
  freezeValues h3 (match asDict h3 (metadata f) with Some l => l | None => [] end).

(** createDataRuleCalcTyped (data_rule_calc.h:444-482) *)
Definition ruleCalcType (k : sample) : bool := (0 <? rank k) && (rank k <=? rank RangeInt64).
Definition makeRuleCalc (h : heap) (f : fields) : res (option (option (Z * Z))) :=
  match rule f with
  | Some r =>
    match ru_type r with
    | RLinear => if ruleCalcType (kind f)
                 then match ru_params r with
                      | Some a => match asDict h a with
                                  | Some l => Ok (Some (Some (numberAt l KDelta, numberAt l KStart)))
                                  | None => Err NoInterface
                                  end
                      | None => Err NoInterface
                      end
                 else Err InvalidSampleType
    | RConstant => if ruleCalcType (kind f) then Ok (Some None) else Err InvalidSampleType
    | _ => Ok None
    end
  | None => Ok None
  end.
(** createScalingCalcTyped (scaling_calc.h): the constructor reads the
    parameters of a linear scaling; one that is missing or no number makes it
    throw *)
Definition scalingCalcType (s : scaling) : bool :=
  (0 <? rank (sc_in s)) && (rank (sc_in s) <=? rank Int64) && match sc_out s with SInvalid => false | _ => true end.
Definition makeScaleCalc (h : heap) (f : fields) : res (option (option (Z * Z))) :=
  match scale f with
  | Some s =>
    if scalingCalcType s
    then match sc_type s with
         | CLinear => match asDict h (sc_params s) with
                      | Some l => if isNumber l KScale && isNumber l KOffset then Ok (Some (Some (numberAt l KScale, numberAt l KOffset)))
                                  else Err NotFound
                      | None => Err NoInterface
                      end
         | COther => Ok (Some None)
         end
    else Err InvalidSampleType
  | None => Ok None
  end.

(** calculateSampleMemSize: the number of elements *)
Fixpoint elementCount (h : heap) (l : list val) (acc : Z) : res Z :=
  match l with
  | [] => Ok (if acc =? 0 then 1 else acc)
  | VDim d :: r => match dimSize h d with Ok n => elementCount h r (w64 (acc * n)) | Err e => Err e end
  | _ :: _ => Err NoInterface
  end.
Fixpoint fieldSizes (l : list val) (a b : Z) : res (Z * Z) :=
  match l with
  | [] => Ok (a, b)
  | VDesc d :: r => fieldSizes r (w64 (a + sampleSize d)) (w64 (b + rawSampleSize d))
  | _ :: _ => Err NoInterface
  end.
Definition sizes (h : heap) (f : fields) (ds fs : list val) : res (Z * Z) :=
  match elementCount h ds 1 with
  | Err e => Err e
  | Ok n =>
    match fs with
    | [] => let raw := match scale f with Some s => sc_in s | None => kind f end in
            let explicit := match rule f with Some r => is_explicit (ru_type r) | None => true end in
            Ok (w64 (getSampleSize (kind f) * n), if explicit then w64 (getSampleSize raw * n) else 0)
    | _ => match fieldSizes fs 0 0 with Ok (a, b) => Ok (w64 (a * n), w64 (b * n)) | Err e => Err e end
    end
  end.

(** DataDescriptorImpl::DataDescriptorImpl: validate, initCalcs and the sizes *)
Definition build (h : heap) (f : fields) : heap * res desc :=
  match asList h (dims f), asList h (structs f) with
  | Some ds, Some fs =>
    match fs with
    | _ :: _ =>
      if structValid f then
        let h' := freezeParts h f true in
        match sizes h' f ds fs with
        | Ok (a, b) => (h', Ok {| d_fields := f; sampleSize := a; rawSampleSize := b; ruleCalc := None; scaleCalc := None |})
        | Err e => (h', Err e)
        end
      else (h, Err InvalidState)
    | [] =>
      match plainValid f (length ds), rule f with
      | None, Some r =>
        match plainValid2 f r with
        | Some e => (h, Err e)
        | None =>
          let h' := freezeParts h f false in
          match makeRuleCalc h' f, makeScaleCalc h' f with
          | Ok rc, Ok sc =>
            match sizes h' f ds fs with
            | Ok (a, b) => (h', Ok {| d_fields := f; sampleSize := a; rawSampleSize := b; ruleCalc := rc; scaleCalc := sc |})
            | Err e => (h', Err e)
            end
          | Err e, _ => (h', Err e)
          | _, Err e => (h', Err e)
          end
        end
      | Some e, _ => (h, Err e)
      | None, None => (h, Err Incomplete)
      end
    end
  | _, _ => (h, Err NoInterface)
  end.

(** ** Histories *)

Record st := {
  hp : heap;
  drs : list dim_rule;
  dms : list dim;
  rus : list data_rule;
  scs : list scaling;
  bs : list fields;
  ds : list desc }.
Definition initial : st := {| hp := []; drs := []; dms := []; rus := []; scs := []; bs := []; ds := [] |}.

(** arguments: objects are given by their position *)
Inductive arg := ANum (z : Z) | AStr (z : Z) | ARange (a b : Z) | ARef (a : addr) | ADim (i : nat) | ADesc (i : nat) | ANull | AObj.
Definition resolve (s : st) (a : arg) : option val :=
  match a with
  | ANum z => Some (VNum z)
  | AStr z => Some (VStr z)
  | ARange x y => Some (VRange x y)
  | ARef x => match nth_error (hp s) x with Some _ => Some (VRef x) | None => None end
  | ADim i => option_map VDim (nth_error (dms s) i)
  | ADesc i => option_map VDesc (nth_error (ds s) i)
  | ANull => Some VNull
  | AObj => Some VObj
  end.
Fixpoint resolveAll (s : st) (l : list arg) : option (list val) :=
  match l with
  | [] => Some []
  | a :: r => match resolve s a, resolveAll s r with Some v, Some vs => Some (v :: vs) | _, _ => None end
  end.

(** data_descriptor_builder_impl.cpp: the setters *)
Inductive change :=
| SetDims (a : option addr)
| SetName (t : option text)
| SetSampleType (k : sample)
| SetUnit (u : option Z)
| SetRange (r : option Z)
| SetRule (i : option nat)
| SetOrigin (t : option text)
| SetResolution (r : option Z)
| SetScaling (i : option nat)
| SetMetadata (a : option addr)
| SetStructFields (a : option addr)
| SetReference (i : option info).

Inductive op :=
| NewList (l : list arg)
| NewDict
| WriteList (a : addr) (l : list arg)       (** any sequence of changes of a list ends with some contents *)
| DictSet (a : addr) (k : key) (v : arg)
| DictDelete (a : addr) (k : key)
| Freeze (a : addr)
| NewDimRule (t : dim_type) (a : addr)
| NewDim (i : nat) (u : option Z) (n : option text)
| NewDataRule (t : rule_type) (a : option addr)
| NewScaling (built : bool) (i : sample) (o : scaled) (t : scaling_type) (a : option addr)
| NewBuilder
| CopyBuilder (i : nat)                      (** DataDescriptorBuilderCopy *)
| Change (i : nat) (c : change)
| Build (i : nat).

Definition with_heap (s : st) (h : heap) : st :=
  {| hp := h; drs := drs s; dms := dms s; rus := rus s; scs := scs s; bs := bs s; ds := ds s |}.
Definition with_builders (s : st) (b : list fields) : st :=
  {| hp := hp s; drs := drs s; dms := dms s; rus := rus s; scs := scs s; bs := b; ds := ds s |}.
Fixpoint set_nth {A : Type} (l : list A) (i : nat) (x : A) : list A :=
  match l, i with [], _ => [] | _ :: r, O => x :: r | y :: r, S n => y :: set_nth r n x end.

(** write access to a list or dictionary *)
Definition write (h : heap) (a : addr) (f : content -> option content) : heap * res unit :=
  match nth_error h a with
  | None => (h, Err NotFound)
  | Some c => if frozen c then (h, Err Frozen)
              else match f (what c) with
                   | Some x => (replace h a {| frozen := false; what := x |}, Ok tt)
                   | None => (h, Err NoInterface)
                   end
  end.

Definition with_dims (f : fields) (a : addr) : fields :=
  {| dims := a; name := name f; kind := kind f; unit_ := unit_ f; range := range f; rule := rule f; scale := scale f; origin := origin f;
     resolution := resolution f; structs := structs f; metadata := metadata f; reference := reference f |}.
Definition with_structs (f : fields) (a : addr) : fields :=
  {| dims := dims f; name := name f; kind := kind f; unit_ := unit_ f; range := range f; rule := rule f; scale := scale f; origin := origin f;
     resolution := resolution f; structs := a; metadata := metadata f; reference := reference f |}.
Definition with_metadata (f : fields) (a : addr) : fields :=
  {| dims := dims f; name := name f; kind := kind f; unit_ := unit_ f; range := range f; rule := rule f; scale := scale f; origin := origin f;
     resolution := resolution f; structs := structs f; metadata := a; reference := reference f |}.
Definition fresh (c : content) : cell := {| frozen := false; what := c |}.
Definition pick {A : Type} (l : list A) (i : option nat) : option (option A) :=
  match i with None => Some None | Some n => match nth_error l n with Some x => Some (Some x) | None => None end end.

(** one setter; a null list or dictionary stands for a new empty one *)
Definition changed (s : st) (f : fields) (c : change) : option (heap * fields) :=
  let h := hp s in
  match c with
  | SetDims None => Some (h ++ [fresh (CList [])], with_dims f (length h))
  | SetDims (Some a) => match asList h a with Some _ => Some (h, with_dims f a) | None => None end
  | SetStructFields None => Some (h ++ [fresh (CList [])], with_structs f (length h))
  | SetStructFields (Some a) => match asList h a with Some _ => Some (h, with_structs f a) | None => None end
  | SetMetadata None => Some (h ++ [fresh (CDict [])], with_metadata f (length h))
  | SetMetadata (Some a) => match asDict h a with Some _ => Some (h, with_metadata f a) | None => None end
  | SetName t => Some (h, {| dims := dims f; name := t; kind := kind f; unit_ := unit_ f; range := range f; rule := rule f; scale := scale f;
      origin := origin f; resolution := resolution f; structs := structs f; metadata := metadata f; reference := reference f |})
  | SetSampleType k => Some (h, {| dims := dims f; name := name f; kind := k; unit_ := unit_ f; range := range f; rule := rule f; scale := scale f;
      origin := origin f; resolution := resolution f; structs := structs f; metadata := metadata f; reference := reference f |})
  | SetUnit u => Some (h, {| dims := dims f; name := name f; kind := kind f; unit_ := u; range := range f; rule := rule f; scale := scale f;
      origin := origin f; resolution := resolution f; structs := structs f; metadata := metadata f; reference := reference f |})
  | SetRange r => Some (h, {| dims := dims f; name := name f; kind := kind f; unit_ := unit_ f; range := r; rule := rule f; scale := scale f;
      origin := origin f; resolution := resolution f; structs := structs f; metadata := metadata f; reference := reference f |})
  | SetRule i => match pick (rus s) i with
      | Some r => Some (h, {| dims := dims f; name := name f; kind := kind f; unit_ := unit_ f; range := range f; rule := r; scale := scale f;
          origin := origin f; resolution := resolution f; structs := structs f; metadata := metadata f; reference := reference f |})
      | None => None end
  | SetOrigin t => Some (h, {| dims := dims f; name := name f; kind := kind f; unit_ := unit_ f; range := range f; rule := rule f; scale := scale f;
      origin := t; resolution := resolution f; structs := structs f; metadata := metadata f; reference := reference f |})
  | SetResolution r => Some (h, {| dims := dims f; name := name f; kind := kind f; unit_ := unit_ f; range := range f; rule := rule f; scale := scale f;
      origin := origin f; resolution := r; structs := structs f; metadata := metadata f; reference := reference f |})
  | SetScaling i => match pick (scs s) i with
      | Some x => Some (h, {| dims := dims f; name := name f; kind := kind f; unit_ := unit_ f; range := range f; rule := rule f; scale := x;
          origin := origin f; resolution := resolution f; structs := structs f; metadata := metadata f; reference := reference f |})
      | None => None end
  | SetReference i => Some (h, {| dims := dims f; name := name f; kind := kind f; unit_ := unit_ f; range := range f; rule := rule f; scale := scale f;
      origin := origin f; resolution := resolution f; structs := structs f; metadata := metadata f; reference := i |})
  end.

(** DataDescriptorBuilderImpl(): an explicit rule with an empty (frozen)
    dictionary, empty lists and an empty dictionary *)
Definition newBuilder (h : heap) : heap * fields :=
  (h ++ [fresh (CList []); {| frozen := true; what := CDict [] |}; fresh (CList []); fresh (CDict [])],
   {| dims := length h; name := Some []; kind := Undefined; unit_ := None; range := None;
      rule := Some {| ru_type := RExplicit; ru_params := Some (length h + 1)%nat |}; scale := None; origin := Some []; resolution := None;
      structs := (length h + 2)%nat; metadata := (length h + 3)%nat; reference := None |}).

Definition note (e : err) (s : st) : st * res unit := (s, Err e).
Definition step (s : st) (o : op) : st * res unit :=
  match o with
  | NewList l => match resolveAll s l with
                 | Some vs => (with_heap s (hp s ++ [fresh (CList vs)]), Ok tt)
                 | None => note NotFound s
                 end
  | NewDict => (with_heap s (hp s ++ [fresh (CDict [])]), Ok tt)
  | WriteList a l => match resolveAll s l with
                     | Some vs => let w := write (hp s) a (fun c => match c with CList _ => Some (CList vs) | CDict _ => None end) in
                                  (with_heap s (fst w), snd w)
                     | None => note NotFound s
                     end
  | DictSet a k v => match resolve s v with
                     | Some x => let w := write (hp s) a (fun c => match c with CDict l => Some (CDict (assign l k x)) | CList _ => None end) in
                                 (with_heap s (fst w), snd w)
                     | None => note NotFound s
                     end
  | DictDelete a k => let w := write (hp s) a (fun c => match c with CDict l => Some (CDict (delete l k)) | CList _ => None end) in
                      (with_heap s (fst w), snd w)
  | Freeze a => (with_heap s (freeze (hp s) a), Ok tt)
  | NewDimRule t a =>
    match newDimRule (hp s) t a with
    | (h, Ok r) => ({| hp := h; drs := drs s ++ [r]; dms := dms s; rus := rus s; scs := scs s; bs := bs s; ds := ds s |}, Ok tt)
    | (h, Err e) => note e (with_heap s h)
    end
  | NewDim i u n =>
    match nth_error (drs s) i with
    | Some r => ({| hp := hp s; drs := drs s; dms := dms s ++ [{| dm_rule := r; dm_unit := u; dm_name := n |}]; rus := rus s; scs := scs s;
                    bs := bs s; ds := ds s |}, Ok tt)
    | None => note Incomplete s
    end
  | NewDataRule t a =>
    match newDataRule (hp s) t a with
    | (h, Ok r) => ({| hp := h; drs := drs s; dms := dms s; rus := rus s ++ [r]; scs := scs s; bs := bs s; ds := ds s |}, Ok tt)
    | (h, Err e) => note e (with_heap s h)
    end
  | NewScaling b i o t a =>
    match newScaling (hp s) b i o t a with
    | (h, Ok x) => ({| hp := h; drs := drs s; dms := dms s; rus := rus s; scs := scs s ++ [x]; bs := bs s; ds := ds s |}, Ok tt)
    | (h, Err e) => note e (with_heap s h)
    end
  | NewBuilder => (with_builders (with_heap s (fst (newBuilder (hp s)))) (bs s ++ [snd (newBuilder (hp s))]), Ok tt)
  | CopyBuilder i => match nth_error (ds s) i with
                     | Some d => (with_builders s (bs s ++ [d_fields d]), Ok tt)
                     | None => note NotFound s
                     end
  | Change i c => match nth_error (bs s) i with
                  | Some f => match changed s f c with
                              | Some (h, f') => (with_builders (with_heap s h) (set_nth (bs s) i f'), Ok tt)
                              | None => note NoInterface s
                              end
                  | None => note NotFound s
                  end
  | Build i => match nth_error (bs s) i with
               | Some f => match build (hp s) f with
                           | (h, Ok d) => ({| hp := h; drs := drs s; dms := dms s; rus := rus s; scs := scs s; bs := bs s; ds := ds s ++ [d] |}, Ok tt)
                           | (h, Err e) => note e (with_heap s h)
                           end
               | None => note NotFound s
               end
  end.
Fixpoint run (s : st) (h : list op) : st := match h with [] => s | o :: r => run (fst (step s o)) r end.

(** getLabels of a dimension is left out; equality of descriptors compares
    what the getters return and is left out as well. *)
