(** Ratios: core/coretypes/src/ratio_impl.cpp, core/coretypes/include/coretypes/
    ctutils.h (simplify), ratio_ptr.h and simplified_ratio_ptr.h (arithmetic).
    Int is a signed 64-bit integer; signed overflow and std::gcd of the
    smallest Int are undefined behaviour, a separate outcome here.
    A ratio object is its address (the default hash code), numerator and
    denominator.  Conversions to Int, Bool and String are not modelled. *)
From Verif Require Import Base.
From Coq Require Import SpecFloat.
Local Open Scope Z_scope.

Definition int_min : Z := - 2 ^ 63.
Definition int_max : Z := 2 ^ 63 - 1.

Record ratio := { addr : Z; rnum : Z; rden : Z }.

(** a value, an exception, or undefined behaviour *)
Inductive result (A : Type) := Val (a : A) | Throws | Undefined.
Arguments Val {A}. Arguments Throws {A}. Arguments Undefined {A}.

(** signed 64-bit multiplication *)
Definition mul64 (a b : Z) : result Z :=
  if (int_min <=? a * b) && (a * b <=? int_max) then Val (a * b) else Undefined.

(** std::gcd<Int, Int>: undefined when |a| or |b| is not an Int *)
Definition gcd64 (a b : Z) : result Z :=
  if (a =? int_min) || (b =? int_min) then Undefined else Val (Z.gcd a b).

(** ctutils.h:494-503 (in-place update returned as a pair) *)
Definition simplify64 (num den : Z) : result (Z * Z) :=
  match gcd64 num den with
  | Val g => if g <=? 1 then Val (num, den) else Val (Z.quot num g, Z.quot den g)
  | Throws => Throws
  | Undefined => Undefined
  end.

(** ratio_impl.cpp:11-22; [a] is the address of the new object *)
Definition create (a num den : Z) : result ratio :=
  if den =? 0 then Throws else Val {| addr := a; rnum := num; rden := den |}.

(** ratio_impl.cpp:48-58 *)
Definition simplify (a : Z) (r : ratio) : result ratio :=
  match simplify64 (rnum r) (rden r) with
  | Val (n, d) => create a n d
  | Throws => Throws
  | Undefined => Undefined
  end.

(** ratio_impl.cpp:141-173, [other] being a ratio *)
Definition equals (r other : ratio) : result bool :=
  match simplify64 (rnum r) (rden r) with
  | Val (n, d) => match simplify 0 other with
                  | Val o => Val (if negb (n =? rnum o) then false else if negb (d =? rden o) then false else true)
                  | Throws => Throws
                  | Undefined => Undefined
                  end
  | Throws => Throws
  | Undefined => Undefined
  end.

(** intfs.h:277-283 (RatioImpl does not override it) *)
Definition getHashCode (r : ratio) : Z := addr r.

(** ratio_impl.cpp:60-66: IEEE double division of the two converted Ints *)
Definition to_double (z : Z) : spec_float := binary_normalize 53 1024 z 0 false.
Definition toFloat (r : ratio) : spec_float := SFdiv 53 1024 (to_double (rnum r)) (to_double (rden r)).

(** ratio_impl.cpp:175-206 compareTo on another ratio; objectptr.h:1086-1107:
    operator== on pointers uses it.  Only the equality outcome is modelled. *)
Definition pointer_equal (x y : ratio) : bool :=
  let diff := SFsub 53 1024 (toFloat x) (toFloat y) in
  negb (SFltb (S754_zero false) diff) && negb (SFltb diff (S754_zero false)).

(** ratio_ptr.h:168-174 and 203-209 *)
Definition times (a : Z) (x y : ratio) : result ratio :=
  if rden x =? 0 then Throws else if rden y =? 0 then Throws
  else match mul64 (rnum x) (rnum y), mul64 (rden x) (rden y) with
       | Val n, Val d => create a n d
       | _, _ => Undefined
       end.
Definition over (a : Z) (x y : ratio) : result ratio :=
  if rden x =? 0 then Throws else if rnum y =? 0 then Throws
  else match mul64 (rnum x) (rden y), mul64 (rden x) (rnum y) with
       | Val n, Val d => create a n d
       | _, _ => Undefined
       end.

(** simplified_ratio_ptr.h:87-102 *)
Definition cross (num den : Z) : result (Z * Z) :=
  if (1 <? num) && (1 <? den) then simplify64 num den else Val (num, den).
Definition multiplySimplified (a num1 den1 num2 den2 : Z) : result ratio :=
  if den1 =? 0 then Throws else if den2 =? 0 then Throws
  else match cross num1 den2 with
       | Val (num1, den2) =>
         match cross num2 den1 with
         | Val (num2, den1) =>
           match mul64 num1 num2, mul64 den1 den2 with
           | Val n, Val d => match simplify64 n d with
                             | Val (n, d) => create a n d
                             | Throws => Throws
                             | Undefined => Undefined
                             end
           | _, _ => Undefined
           end
         | Throws => Throws
         | Undefined => Undefined
         end
       | Throws => Throws
       | Undefined => Undefined
       end.
(** simplified_ratio_ptr.h:36-39 and 104-113 *)
Definition stimes (a : Z) (x y : ratio) : result ratio := multiplySimplified a (rnum x) (rden x) (rnum y) (rden y).
Definition sover (a : Z) (x y : ratio) : result ratio := multiplySimplified a (rnum x) (rden x) (rden y) (rnum y).
