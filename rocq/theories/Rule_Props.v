(** C07, C08, C38: values of data packets. Statements only. *)
From Verif Require Import Base Rule_Model Rule_Spec Rule_Proofs.
Local Open Scope Z_scope.

(** C07: element [i] of the data of a linear packet of any integer type is the representative in the
    type's range of delta*i + start + offset. *)
Theorem c07_linear_element : forall sgn bits n delta start offset i, 1 <= bits -> (i < n)%nat ->
  exists v, nth_error (calculateLinearRule (int_arith sgn bits) delta start offset n) i = Some v /\
    in_range sgn bits v /\ congruent bits v (delta * Z.of_nat i + start + offset).
Proof.
  intros. eexists. split; [apply linear_array; assumption|]. apply linear_closed. assumption.
Qed.
(** ... hence the exact value whenever it fits the type. *)
Theorem c07_linear_exact : forall sgn bits n delta start offset i, 1 <= bits -> (i < n)%nat ->
  in_range sgn bits (delta * Z.of_nat i + start + offset) ->
  nth_error (calculateLinearRule (int_arith sgn bits) delta start offset n) i = Some (delta * Z.of_nat i + start + offset).
Proof.
  intros sgn bits n delta start offset i Hb Hi Hr. rewrite linear_array by assumption. f_equal.
  destruct (linear_closed sgn bits delta start offset i Hb). eapply congruent_range_eq; eauto.
Qed.
(** Single values (and the last value) agree with the array, for every integer type and every
    reference domain offset; for other types as long as the offset is not zero. *)
Theorem c07_linear_value_agrees : forall sgn bits n delta start offset ref l i, 1 <= bits ->
  let p := linear_packet (int_arith sgn bits) true n delta start offset ref in
  getData p = Ok l -> (i < n)%nat -> value_agrees p l i.
Proof. intros. apply linear_values_int; assumption. Qed.
Theorem c07_linear_last_agrees : forall sgn bits n delta start offset ref l, 1 <= bits ->
  let p := linear_packet (int_arith sgn bits) true n delta start offset ref in
  getData p = Ok l -> (0 < n)%nat -> exists v, nth_error l (n - 1) = Some v /\ getLastValue p = Ok v.
Proof.
  intros sgn bits n delta start offset ref l Hb p HD Hn. unfold getLastValue. subst p. cbn [linear_packet p_count].
  replace (n =? 0)%nat with false by lia.
  apply linear_values_int; auto. lia.
Qed.
Theorem c07_linear_value_agrees_any_type : forall T isInt n delta start offset ref l i, ref <> Some 0 ->
  let p := linear_packet T isInt n delta start offset ref in
  getData p = Ok l -> (i < n)%nat -> value_agrees p l i.
Proof. intros. apply linear_values; assumption. Qed.
(** A zero reference offset on a non-integer type: the array is readable, no single value is. *)
Theorem c07_zero_reference_offset_refuted : exists T n d s o l,
  let p := linear_packet T false n d s o (Some 0) in getData p = Ok l /\ l <> [] /\ getLastValue p = Err.
Proof. exists (int_arith true 64), 2%nat, 1, 0, 0, [0; 1]. split; [reflexivity|split; [discriminate|reflexivity]]. Qed.

(** C08: for changes in order and inside the packet the array holds the described value everywhere. *)
Theorem c08_constant_array : forall n init es, ordered es -> inside n es ->
  exists l, calculateConstantRule n init es = Ok l /\ length l = n /\
    forall i, (i < n)%nat -> nth_error l i = Some (value_at init es i).
Proof. exact const_array. Qed.
(** Single values agree with the array at every index that is not itself a change position. *)
Theorem c08_constant_value_agrees_partial : forall T n init es i l, ordered es -> inside n es -> (i < n)%nat ->
  Forall (fun e => fst e <> i) es ->
  getData (constant_packet T n init es) = Ok l -> value_agrees (constant_packet T n init es) l i.
Proof. exact constant_values. Qed.
(** At a change position they do not: neither the indexed nor the last value. *)
Theorem c08_value_at_change_refuted : exists n init es i l, ordered es /\ inside n es /\ (i < n - 1)%nat /\
  getData (constant_packet (int_arith true 64) n init es) = Ok l /\
  ~ value_agrees (constant_packet (int_arith true 64) n init es) l i.
Proof.
  exists 4%nat, 5, [(1%nat, 9)], 1%nat, [5; 9; 9; 9]. repeat split; try (repeat constructor; lia); try reflexivity; try lia.
  intros (v & A & B). cbn in A, B. congruence.
Qed.
Theorem c08_last_value_at_change_refuted : exists n init es l v, ordered es /\ inside n es /\
  getData (constant_packet (int_arith true 64) n init es) = Ok l /\ nth_error l (n - 1) = Some v /\
  getLastValue (constant_packet (int_arith true 64) n init es) <> Ok v.
Proof.
  exists 2%nat, 5, [(1%nat, 9)], [5; 9], 9. repeat split; try (repeat constructor; lia); try reflexivity. discriminate.
Qed.
(** A change position beyond the packet writes outside the output buffer. *)
Theorem c08_position_beyond_packet_refuted : exists n init es,
  getData (constant_packet (int_arith true 64) n init es) = UB.
Proof. exists 2%nat, 5, [(3%nat, 9)]. reflexivity. Qed.

(** C38: explicit data, with or without post-scaling. *)
Theorem c38_explicit_value_agrees_partial : forall p l i, explicit_ok p -> getData p = Ok l -> (i < p_count p)%nat -> value_agrees p l i.
Proof. exact explicit_values. Qed.
(** Index out of range is always refused. *)
Theorem c38_out_of_range : forall p i, (p_count p <= i)%nat -> getValueByIndex p i = Err.
Proof. intros p i H. unfold getValueByIndex, getRawValueByIndex. replace (p_count p <=? i)%nat with true by lia. reflexivity. Qed.
(** Explicit data with only a reference domain offset: a single value is read from unwritten memory. *)
Theorem c38_reference_offset_only_refuted : exists p l, p_rule p = None /\ p_scaling p = None /\
  length (p_raw p) = p_count p /\ getData p = Ok l /\ l = [8; 9] /\ getValueByIndex p 0 = UB.
Proof.
  exists {| p_T := int_arith true 64; p_isInt := true; p_count := 2; p_raw := [1; 2]; p_rule := None; p_scaling := None; p_refOff := Some 7 |}, [8; 9].
  repeat split.
Qed.

Example ex_linear : getData (linear_packet (int_arith false 8) true 4 100 10 3 (Some 1)) = Ok [14; 114; 214; 58].
Proof. reflexivity. Qed.
Example ex_linear_value : getLastValue (linear_packet (int_arith false 8) true 4 100 10 3 (Some 1)) = Ok 58.
Proof. reflexivity. Qed.
Example ex_const : ordered [(1%nat, 9); (3%nat, 7)] /\ inside 5 [(1%nat, 9); (3%nat, 7)] /\
  calculateConstantRule 5 2 [(1%nat, 9); (3%nat, 7)] = Ok [2; 9; 9; 7; 7] /\
  getLastValue (constant_packet (int_arith true 64) 5 2 [(1%nat, 9); (3%nat, 7)]) = Ok 7.
Proof. repeat split; repeat constructor; cbn; lia. Qed.
Example ex_explicit : let p := {| p_T := int_arith true 64; p_isInt := true; p_count := 2; p_raw := [1; 2]; p_rule := None;
                                  p_scaling := Some (fun x => 2 * x); p_refOff := Some 7 |} in
  explicit_ok p /\ getData p = Ok [9; 11] /\ getValueByIndex p 1 = Ok 11.
Proof. cbv zeta. split; [|split; reflexivity]. repeat split. right. split; [eexists; reflexivity|reflexivity]. Qed.

Print Assumptions c07_linear_element.
Print Assumptions c07_linear_exact.
Print Assumptions c07_linear_value_agrees.
Print Assumptions c07_linear_last_agrees.
Print Assumptions c07_linear_value_agrees_any_type.
Print Assumptions c07_zero_reference_offset_refuted.
Print Assumptions c08_constant_array.
Print Assumptions c08_constant_value_agrees_partial.
Print Assumptions c08_value_at_change_refuted.
Print Assumptions c08_last_value_at_change_refuted.
Print Assumptions c08_position_beyond_packet_refuted.
Print Assumptions c38_explicit_value_agrees_partial.
Print Assumptions c38_out_of_range.
Print Assumptions c38_reference_offset_only_refuted.
