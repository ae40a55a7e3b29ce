(** Model of data rule calculation and of the value accessors of data packets.
    Sources: /repo/core/opendaq/signal/include/opendaq/data_rule_calc.h,
             /repo/core/opendaq/signal/include/opendaq/data_packet_impl.h,
             /repo/core/opendaq/signal/include/opendaq/reference_domain_offset_adder.h *)
From Verif Require Import Base.
Local Open Scope Z_scope.

(** The arithmetic of a sample type T. A value of T is represented by an integer code: the number
    itself for integer types, the bit pattern for floating-point types. *)
Record arith := { a_of : Z -> Z; a_add : Z -> Z -> Z; a_mul : Z -> Z -> Z }.

(** Integer sample types: [bits] wide, results reduced into the range of the type. C++ leaves signed
    overflow of 32- and 64-bit types undefined; the model wraps there, as the generated code does. *)
Definition wrapT (sgn : bool) (bits x : Z) : Z :=
  let m := 2 ^ bits in
  if sgn then (x + m / 2) mod m - m / 2 else x mod m.
Definition int_arith (sgn : bool) (bits : Z) : arith :=
  {| a_of := wrapT sgn bits; a_add := fun x y => wrapT sgn bits (x + y); a_mul := fun x y => wrapT sgn bits (x * y) |}.

Inductive res (A : Type) := Ok (a : A) | Err | UB.
Arguments Ok {A} _. Arguments Err {A}. Arguments UB {A}.

(** data_rule_calc.h:264-272 calculateLinearRule (typed); [delta], [start] as parsed at 101-113 *)
Definition linearAt (T : arith) (delta start offset : Z) (i : nat) : Z :=
  let scale := a_of T delta in
  let off := a_add T (a_of T offset) (a_of T start) in
  a_add T (a_mul T scale (a_of T (Z.of_nat i))) off.
Definition calculateLinearRule (T : arith) (delta start offset : Z) (n : nat) : list Z :=
  map (linearAt T delta start offset) (seq 0 n).
(** data_rule_calc.h:341-349 *)
Definition calculateLinearSample (T : arith) (delta start offset : Z) (i : nat) : Z :=
  let scale := a_of T delta in
  let off := a_add T (a_of T offset) (a_of T start) in
  a_add T (a_mul T scale (a_of T (Z.of_nat i))) off.
(** data_rule_calc.h:390-394 *)
Definition calculateLastLinearSample (T : arith) (delta start offset : Z) (n : nat) : Z :=
  calculateLinearSample T delta start offset (n - 1).

(** The constant rule input: initial value and the (position, value) entries that fit the input
    (data_rule_calc.h:277-285). *)
Definition entry : Type := nat * Z.

(** The while loop, data_rule_calc.h:287-308. Output is written front to back, so it is the list
    written so far; writing at or past [n] is outside the output buffer: [UB]. *)
Fixpoint constLoop (n : nat) (written : list Z) (constant : Z) (es : list entry) : res (list Z) :=
  if (length written <? n)%nat then
    match es with
    | [] => Ok (written ++ repeat constant (n - length written))
    | (upTo, next) :: es' =>
        if (n <? upTo)%nat then UB
        else constLoop n (written ++ repeat constant (upTo - length written)) next es'
    end
  else Ok written.
Definition calculateConstantRule (n : nat) (init : Z) (es : list entry) : res (list Z) := constLoop n [] init es.

(** The while loop, data_rule_calc.h:366-387; the loop condition holds on every turn because
    currentSampleIndex is 0 or a position below sampleIndex. *)
Fixpoint constSampleLoop (i : nat) (constant : Z) (es : list entry) : Z :=
  match es with
  | [] => constant
  | (upTo, next) :: es' => if (i <=? upTo)%nat then constant else constSampleLoop i next es'
  end.
Definition calculateConstantSample (i : nat) (init : Z) (es : list entry) : Z := constSampleLoop i init es.

(** data_rule_calc.h:397-436, the backwards walk *)
Fixpoint lastLoop (n : nat) (res_es : list entry) (init : Z) : Z :=
  match res_es with
  | [] => init
  | (upTo, v) :: es' => if (upTo <? n - 1)%nat then v else lastLoop n es' init
  end.
Definition calculateLastConstantSample (n : nat) (init : Z) (es : list entry) : Z := lastLoop n (rev es) init.

(** Data packets. *)
Inductive rule := Linear (delta start offset : Z) | Constant (init : Z) (es : list entry).

(** data_packet_impl.h:319-351. [scaling] is the linear post-scaling applied to one raw value,
    [refOff] the reference domain offset of the descriptor, [isInt] whether the sample type is one
    of the integer types the offset adder supports. *)
Record packet := {
  p_T : arith; p_isInt : bool; p_count : nat; p_raw : list Z;
  p_rule : option rule; p_scaling : option (Z -> Z); p_refOff : option Z
}.

(** data_packet_impl.h:340-351 updateCalcFlags *)
Definition hasReferenceDomainOffset (p : packet) : bool :=
  match p_refOff p with Some o => negb (o =? 0) | None => false end.
Definition hasRawDataOnly (p : packet) : bool :=
  match p_scaling p, p_rule p with None, None => negb (hasReferenceDomainOffset p) | _, _ => false end.

(** reference_domain_offset_adder.h:47-52 and 67-110 *)
Definition addOffset (p : packet) (off : Z) (l : list Z) : res (list Z) :=
  if p_isInt p then Ok (map (fun x => a_add (p_T p) x (a_of (p_T p) off)) l) else Err.

Definition rule_data (p : packet) (r : rule) : res (list Z) :=
  match r with
  | Linear d s o => Ok (calculateLinearRule (p_T p) d s o (p_count p))
  | Constant i es => calculateConstantRule (p_count p) i es
  end.

(** data_packet_impl.h:577-645 getData, first call (no cached result) *)
Definition getData (p : packet) : res (list Z) :=
  if hasRawDataOnly p then Ok (p_raw p)
  else if (p_count p =? 0)%nat then Ok []
  else
    let base := match p_scaling p, p_rule p with
                | Some f, _ => Ok (map f (p_raw p))
                | None, Some r => rule_data p r
                | None, None => Ok (p_raw p)
                end in
    match base with
    | Ok l => if hasReferenceDomainOffset p
              then match p_refOff p with Some o => addOffset p o l | None => Ok l end
              else Ok l
    | e => e
    end.

(** data_packet_impl.h:717-750 getRawValueByIndex; a buffer left unwritten and then read is [UB] *)
Definition getRawValueByIndex (p : packet) (i : nat) : res Z :=
  let raw := match nth_error (p_raw p) i with Some x => Ok x | None => UB end in
  if (p_count p <=? i)%nat then Err
  else if hasRawDataOnly p then raw
  else match p_scaling p, p_rule p with
       | Some _, _ => raw
       | None, Some (Linear d s o) =>
           Ok (if (i =? p_count p - 1)%nat then calculateLastLinearSample (p_T p) d s o (p_count p)
               else calculateLinearSample (p_T p) d s o i)
       | None, Some (Constant c es) =>
           Ok (if (i =? p_count p - 1)%nat then calculateLastConstantSample (p_count p) c es
               else calculateConstantSample i c es)
       | None, None => UB
       end.

(** data_packet_impl.h:758-777 with buildObjectFromDescriptor, 202-245 *)
Definition getValueByIndex (p : packet) (i : nat) : res Z :=
  match getRawValueByIndex p i with
  | Ok x =>
      let y := match p_scaling p with Some f => f x | None => x end in
      match p_refOff p with
      | Some o => match addOffset p o [y] with Ok [z] => Ok z | Ok _ => UB | Err => Err | UB => UB end
      | None => Ok y
      end
  | e => e
  end.
(** data_packet_impl.h:752-756; sampleCount - 1 wraps for an empty packet and is then out of range *)
Definition getLastValue (p : packet) : res Z :=
  if (p_count p =? 0)%nat then Err else getValueByIndex p (p_count p - 1).
