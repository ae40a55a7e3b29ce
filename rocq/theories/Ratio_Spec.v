(** Vocabulary of C31. *)
From Verif Require Import Base Ratio_Model.
Local Open Scope Z_scope.

(** an Int other than the smallest one *)
Definition ordinary (z : Z) : Prop := - 9223372036854775808 < z < 9223372036854775808.
(** a ratio with such parts and a denominator *)
Definition proper (r : ratio) : Prop := ordinary (rnum r) /\ ordinary (rden r) /\ rden r <> 0.

(** x and y are the same rational number *)
Definition same_value (x y : ratio) : Prop := rnum x * rden y = rnum y * rden x.
(** z is the rational number x * y; x / y *)
Definition is_product (x y z : ratio) : Prop := rnum x * rnum y * rden z = rnum z * (rden x * rden y).
Definition is_quotient (x y z : ratio) : Prop := rnum x * rden y * rden z = rnum z * (rden x * rnum y).

(** lowest terms: nothing but 1 and -1 divides both *)
Definition lowest_terms (r : ratio) : Prop := forall k, 0 <= k -> (k | rnum r) -> (k | rden r) -> k = 1.
