(** C53: lists, dictionaries and values. *)
From Verif Require Import Base Cont_Model Cont_Spec Cont_Proofs Cont_Eq Cont_Data Cont_Clone.
From Coq Require Import SpecFloat.
Local Open Scope Z_scope.

(** In every state of a list each operation does what it does to a sequence; a
    frozen list never changes and stays frozen. *)
Theorem c53_lists_are_sequences : forall l o,
  let l' := fst (fst (lstep l o)) in
  let r := snd (fst (lstep l o)) in
  (lfrozen l = false -> seq_step o (litems l) (litems l') r) /\
  (lfrozen l = true -> frozen_step o (litems l) (litems l') r) /\
  lfrozen l' = match o with LFreeze => true | _ => lfrozen l end.
Proof.
  intros l o. cbv zeta. split; [|split].
  - intros F. now apply step_unfrozen.
  - intros F. now apply step_frozen.
  - apply step_flag.
Qed.

(** For every history of a list and every object: the references the list took
    and was given, less those it gave up and handed out, are the places the
    object has in the list; when the list is destroyed nothing is left over. *)
Theorem c53_list_references : forall os a,
  let x := lrun lnew os in
  let rs := snd (fst x) in
  balance a (snd x) + occurs a (l_in os rs) - occurs a (all_out rs) = occurs a (litems (fst (fst x))) /\
  balance a (snd x ++ l_dispose (fst (fst x))) + occurs a (l_in os rs) - occurs a (all_out rs) = 0.
Proof.
  intros os a. cbv zeta. pose proof (run_refs a os lnew) as H. cbv zeta in H. cbn [lnew litems occurs] in H.
  unfold l_dispose. rewrite balance_app, balance_release. split; lia.
Qed.

(** The same for the keys and values of a dictionary. *)
Theorem c53_dictionary_references : forall os a,
  let x := drun dnew os in
  let rs := snd (fst x) in
  balance a (snd x) - occurs a (all_out rs) = occurs a (held (dents (fst (fst x)))) /\
  balance a (snd x ++ d_dispose (fst (fst x))) - occurs a (all_out rs) = 0.
Proof.
  intros os a. cbv zeta. pose proof (drun_refs a os dnew) as H. cbv zeta in H. cbn [dnew dents held flat_map occurs] in H.
  unfold d_dispose. rewrite balance_app, balance_entries. split; lia.
Qed.

(** For every history whose keys are whole numbers, numbers in [0, 2^64), truth
    values or strings without NUL, a dictionary answers as a map from the data
    of the keys that remembers their order.  Missing: other keys, see the
    refutations. *)
Theorem c53_dictionaries_are_maps_partial : forall os aos, Forall2 op_is os aos ->
  answers aempty aos (snd (fst (drun dnew os))).
Proof. intros os aos F. exact (answers_run os aos dnew aempty R_new F). Qed.

(** Such keys are equal exactly if they carry the same data, and then have the
    same hash code. *)
Theorem c53_equal_keys_same_hash_partial : forall k d k' d', key_is k d -> key_is k' d' ->
  (equals k (Some k') = Yes <-> d = d') /\
  (equals k (Some k') = Yes -> hash k = hash k' /\ hash k <> None).
Proof.
  intros k d k' d' A B. rewrite (equals_keys _ _ _ _ A B).
  assert (X : b2e (is_key d d') = Yes <-> d = d').
  { rewrite <- is_key_iff. destruct (is_key d d'); cbn [b2e]; split; (reflexivity || discriminate). }
  split; [exact X|]. intros Y. apply X in Y. subst d'. destruct (key_hash_ok _ _ A) as (h & E & H).
  rewrite E, (H k' B). split; [reflexivity|discriminate].
Qed.

(** On data of any depth without null, NaN, NUL in strings and other keys,
    equals always answers, and answers yes exactly if the data are the same. *)
Theorem c53_equals_is_sameness_partial : forall x y, clean x -> clean y -> one_heap x y ->
  (equals x (Some y) = Yes <-> same x y) /\ (equals x (Some y) = No <-> ~ same x y).
Proof.
  intros x y A B H. destruct (equals_decides x y A B H) as [[E S0]|[E S0]]; rewrite E.
  - split; split; intros X; try exact S0; try reflexivity; try discriminate. contradiction.
  - split; split; intros X; try exact S0; try reflexivity; try discriminate. contradiction.
Qed.

(** So equals is an equivalence on such data. *)
Theorem c53_equality_is_equivalence_partial :
  (forall x, clean x -> one_heap x x -> equals x (Some x) = Yes) /\
  (forall x y, clean x -> clean y -> one_heap x y -> equals x (Some y) = equals y (Some x)) /\
  (forall x y z, clean x -> clean y -> clean z -> one_heap x y -> one_heap y z -> one_heap x z ->
    equals x (Some y) = Yes -> equals y (Some z) = Yes -> equals x (Some z) = Yes).
Proof.
  split; [|split].
  - intros x C H. apply (c53_equals_is_sameness_partial x x C C H). now apply same_refl.
  - intros x y A B H. destruct (equals_decides x y A B H) as [[E S0]|[E S0]]; rewrite E; symmetry;
      apply (c53_equals_is_sameness_partial y x B A (heap_sym _ _ H)).
    + now apply same_sym.
    + intros X. apply S0. now apply same_sym.
  - intros x y z A B C H1 H2 H3 E1 E2.
    apply (c53_equals_is_sameness_partial x z A C H3). apply (same_trans x y z B).
    + now apply (c53_equals_is_sameness_partial x y A B H1).
    + now apply (c53_equals_is_sameness_partial y z B C H2).
Qed.

(** A clone is equal to the original and made of new lists and dictionaries
    around the original's scalars. *)
Theorem c53_clone_is_equal_partial : forall nx x, clean x -> one_heap x x -> (forall u, part u x -> addr u < nx) ->
  same (clone nx x) x /\ equals (clone nx x) (Some x) = Yes /\ equals x (Some (clone nx x)) = Yes /\
  (forall u, part u (clone nx x) -> nx <= addr u \/ part u x).
Proof. intros nx x C H L. destruct (clone_equal nx x C H L) as (_ & A & B & D & E). auto. Qed.

(** What is written to a whole number, truth value or number property (NaN
    apart) is what is read afterwards. *)
Theorem c53_written_value_is_read_partial : forall t stored dflt v w,
  has_type t dflt -> not_nan dflt -> (forall s, stored = Some s -> has_type t s /\ not_nan s) ->
  convert t v = Some w -> not_nan w ->
  exists st, write_value stored dflt w = Some st /\ same_scalar (read_value st dflt) w.
Proof.
  intros t stored dflt v w Td Nd Hs E Nw.
  assert (Tw : has_type t w).
  { destruct t, v; cbn [convert] in E; try discriminate; try (injection E as <-; exact I).
    destruct (to_int f); [injection E as <-; exact I|discriminate]. }
  destruct (write_read t stored dflt w Td Nd Tw Nw Hs) as (st & A & B & _). eauto.
Qed.

(** ** Non-vacuity *)
Definition str (a : Z) (s : list Z) := OScal a (SStr s).
Definition int (a : Z) (i : Z) := OScal a (SInt i).
Definition x1 : obj := OList 1 [Some (int 2 5); Some (ODict 3 [(str 4 [97], Some (int 5 1)); (int 6 7, Some (OScal 7 (SRat 1 2)))])].
Definition x2 : obj := OList 11 [Some (int 12 5); Some (ODict 13 [(int 16 7, Some (OScal 17 (SRat 2 4))); (str 14 [97], Some (int 15 1))])].

Example c53_nonvacuous_equality :
  clean x1 /\ clean x2 /\ one_heap x1 x2 /\ equals x1 (Some x2) = Yes /\
  equals x1 (Some (OList 11 [Some (int 12 5); Some (ODict 13 [])])) = No.
Proof.
  assert (C : forall a b c d e f g n m, 0 < m -> clean (OList a [Some (int b 5); Some (ODict c [(str d [97], Some (int e 1)); (int f 7, Some (OScal g (SRat n m)))])])).
  { intros. apply (clean_list a [int b 5; _]). constructor; [constructor|]. constructor; [|constructor].
    apply (clean_dict c [(str d [97], int e 1); (int f 7, OScal g (SRat n m))] [KStr [97]; KInt 7]).
    - repeat constructor. intros [X|[]]; discriminate.
    - repeat constructor; [intros [X|[]]; discriminate|intros []].
    - repeat constructor. exact H. }
  assert (C2 : forall a b c d e f g n m, 0 < m -> clean (OList a [Some (int b 5); Some (ODict c [(int f 7, Some (OScal g (SRat n m))); (str d [97], Some (int e 1))])])).
  { intros. apply (clean_list a [int b 5; _]). constructor; [constructor|]. constructor; [|constructor].
    apply (clean_dict c [(int f 7, OScal g (SRat n m)); (str d [97], int e 1)] [KInt 7; KStr [97]]).
    - repeat constructor. intros [X|[]]; discriminate.
    - repeat constructor; [intros [X|[]]; discriminate|intros []].
    - repeat constructor. exact H. }
  split; [now apply C|]. split; [now apply C2|]. split; [|split; vm_compute; reflexivity].
  assert (P1 : forall u, part u x1 -> addr u < 10).
  { intros u P. apply Z.ltb_lt. apply (chk_ok (fun a => a <? 10) u x1 P 5). reflexivity. }
  assert (P2 : forall u, part u x2 -> 10 < addr u).
  { intros u P. apply Z.ltb_lt. apply (chk_ok (fun a => 10 <? a) u x2 P 5). reflexivity. }
  intros u v A B E. specialize (P1 u A). specialize (P2 v B). lia.
Qed.

(** keys set in some order, one overwritten through another key object, one removed *)
Example c53_nonvacuous_dictionary :
  let h := [DSet (Some (str 1 [97])) (Some (int 2 10)); DSet (Some (int 3 7)) None; DSet (Some (str 4 [97])) (Some (int 5 11));
            DSet (Some (OScal 6 (SBool true))) (Some (int 7 12)); DRemove (Some (int 8 7)); DGet (Some (str 9 [97])); DKeys; DFreeze; DClear; DCount] in
  Forall2 op_is h [ASet (KStr [97]) (Some (int 2 10)); ASet (KInt 7) None; ASet (KStr [97]) (Some (int 5 11));
                   ASet (KBool true) (Some (int 7 12)); ARemove (KInt 7); AGet (KStr [97]); AKeys; AFreeze; AClear; ACount] /\
  snd (fst (drun dnew h)) = [ROk; ROk; ROk; ROk; RObj None; RObj (Some (int 5 11)); RObjs [Some (str 1 [97]); Some (OScal 6 (SBool true))];
                             ROk; RErr EFrozen; RNum 2].
Proof.
  assert (N : ~ In 0 [97]) by (intros [X|[]]; discriminate).
  cbv zeta. split; [|vm_compute; reflexivity].
  repeat (constructor; [try constructor; try constructor; try exact N|]). constructor.
Qed.

Example c53_nonvacuous_list :
  snd (fst (lrun lnew [LPushBack (Some (int 1 1)); LMoveFront (Some (int 2 2)); LInsert 1 None; LInsert 3 None; LRemove 0; LFreeze; LPopBack; LGet 1])) =
  [ROk; ROk; ROk; RErr EOutOfRange; RObj (Some (int 2 2)); ROk; RErr EFrozen; RObj (Some (int 1 1))].
Proof. vm_compute. reflexivity. Qed.

(** the number 1.0, and NaN *)
Definition one : spec_float := to_float 1.
Example c53_nonvacuous_write :
  convert TFlt (SInt 1) = Some (SFlt one) /\ not_nan (SFlt one) /\
  write_value (Some (SFlt (to_float 2))) (SFlt (to_float 0)) (SFlt one) = Some (Some (SFlt one)).
Proof. split; [reflexivity|]. split; [intros X; discriminate|reflexivity]. Qed.

(** ** Where the full claims fail *)

(** F154: equal ratios have different hash codes; a value stored under a ratio
    is not found with an equal one, and both are kept as keys *)
Theorem c53_ratio_keys_refuted :
  let k := OScal 1 (SRat 1 2) in let k' := OScal 2 (SRat 1 2) in
  equals k (Some k') = Yes /\ hash k <> hash k' /\
  snd (fst (drun dnew [DSet (Some k) (Some (int 3 5)); DGet (Some k'); DSet (Some k') None; DCount])) =
    [ROk; RErr ENotFound; ROk; RNum 2].
Proof. cbv zeta. split; [vm_compute; reflexivity|]. split; [vm_compute; discriminate|vm_compute; reflexivity]. Qed.

(** F155: comparing a list (or dictionary) that holds null where the other holds
    a number reads through the null pointer, in both directions *)
Theorem c53_null_items_refuted :
  equals (OList 1 [None]) (Some (OList 2 [Some (int 3 5)])) = Undef /\
  equals (OList 2 [Some (int 3 5)]) (Some (OList 1 [None])) = Undef /\
  equals (ODict 4 [(int 5 1, None)]) (Some (ODict 6 [(int 7 1, Some (int 8 2))])) = Undef.
Proof. split; [|split]; vm_compute; reflexivity. Qed.

(** F156: a dictionary that holds NaN is not equal to itself, while a list is *)
Theorem c53_nan_in_dictionary_refuted :
  let n := OScal 2 (SFlt S754_nan) in
  equals (ODict 3 [(int 4 1, Some n)]) (Some (ODict 3 [(int 4 1, Some n)])) = No /\
  equals (OList 5 [Some n]) (Some (OList 5 [Some n])) = Yes.
Proof. cbv zeta. split; vm_compute; reflexivity. Qed.

(** F157: strings of one length that differ after a NUL are equal, and one key *)
Theorem c53_nul_in_string_refuted :
  let s := str 1 [97; 0; 98] in let t := str 2 [97; 0; 99] in
  ~ same s t /\ equals s (Some t) = Yes /\ snd (fst (drun dnew [DSet (Some s) None; DHas (Some t)])) = [ROk; RBool true].
Proof. cbv zeta. split; [intros X; inversion X|]. split; vm_compute; reflexivity. Qed.

(** F158: the hash code of a negative number is an undefined conversion *)
Theorem c53_negative_key_refuted : snd (fst (drun dnew [DSet (Some (OScal 1 (SFlt (to_float (-1))))) None])) = [RUndef].
Proof. vm_compute. reflexivity. Qed.

(** F159: hasKey(null) reads through the null pointer if a key with hash code 0
    is there (0, false, the empty string); get and set refuse null *)
Theorem c53_has_null_key_refuted :
  snd (fst (drun dnew [DSet (Some (str 1 [])) None; DGet None; DHas None])) = [ROk; RErr EArgNull; RUndef] /\
  snd (fst (drun dnew [DSet (Some (int 1 5)) None; DHas None])) = [ROk; RBool false].
Proof. split; vm_compute; reflexivity. Qed.

(** F160: writing NaN to a number property is silently ignored, and once NaN is
    stored (as default, or restored) no other value can be written *)
Theorem c53_nan_write_refuted :
  write_value None (SFlt one) (SFlt S754_nan) = Some None /\
  write_value (Some (SFlt one)) (SFlt (to_float 0)) (SFlt S754_nan) = Some (Some (SFlt one)) /\
  (forall v, read_value (match write_value None (SFlt S754_nan) (SFlt v) with Some st => st | None => None end) (SFlt S754_nan) = SFlt S754_nan).
Proof.
  split; [reflexivity|]. split; [vm_compute; reflexivity|]. intros v. unfold write_value, ptr_eq. cbn [compare].
  assert (X : cmp_f S754_nan v = CEqual) by (unfold cmp_f, SFltb, SFcompare; destruct v; reflexivity).
  now rewrite X.
Qed.

(** F161: == of pointers converts the right to the kind of the left: 1 == 1.5
    but not 1.5 == 1 *)
Theorem c53_pointer_equality_refuted :
  let h := S754_finite false 6755399441055744 (-52) in
  ptr_eq (SInt 1) (SFlt h) = Some true /\ ptr_eq (SFlt h) (SInt 1) = Some false.
Proof. cbv zeta. split; vm_compute; reflexivity. Qed.

(** F162: a whole number is converted to a truth value by its lowest 8 bits, so
    writing 256 to a truth value property stores false *)
Theorem c53_bool_of_256_refuted :
  convert TBool (SInt 256) = Some (SBool false) /\ convert TBool (SFlt (to_float 256)) = Some (SBool true) /\
  write_value (Some (SBool true)) (SBool true) (SBool false) = Some (Some (SBool false)).
Proof. split; [|split]; vm_compute; reflexivity. Qed.

Print Assumptions c53_lists_are_sequences.
Print Assumptions c53_list_references.
Print Assumptions c53_dictionary_references.
Print Assumptions c53_dictionaries_are_maps_partial.
Print Assumptions c53_equal_keys_same_hash_partial.
Print Assumptions c53_equals_is_sameness_partial.
Print Assumptions c53_equality_is_equivalence_partial.
Print Assumptions c53_clone_is_equal_partial.
Print Assumptions c53_written_value_is_read_partial.
Print Assumptions c53_ratio_keys_refuted.
Print Assumptions c53_null_items_refuted.
Print Assumptions c53_nan_in_dictionary_refuted.
Print Assumptions c53_nul_in_string_refuted.
Print Assumptions c53_negative_key_refuted.
Print Assumptions c53_has_null_key_refuted.
Print Assumptions c53_nan_write_refuted.
Print Assumptions c53_pointer_equality_refuted.
Print Assumptions c53_bool_of_256_refuted.
