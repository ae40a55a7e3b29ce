From Coq Require Import String Ascii List Bool ZArith Lia.
From Verif Require Import Json_Model Json_Spec.
Import ListNotations.
Open Scope Z_scope.

(** ---- Induction over objects ---- *)
Section ValueInd.
Variable P : value -> Prop.
Hypothesis H0 : P VNull.
Hypothesis H1 : forall b, P (VBool b).
Hypothesis H2 : forall z, P (VInt z).
Hypothesis H3 : forall f, P (VFloat f).
Hypothesis H4 : forall s, P (VStr s).
Hypothesis H5 : forall i l, Forall P l -> P (VList i l).
Hypothesis H6 : forall i j l, Forall (fun p => P (fst p) /\ P (snd p)) l -> P (VDict i j l).
Hypothesis H7 : forall a b, P (VRatio a b).
Hypothesis H8 : forall a b, P (VComplex a b).
Hypothesis H9 : forall tn vs v, P (VEnum tn vs v).
Hypothesis H10 : forall n0 fs i j l, Forall (fun p => P (snd p)) l -> P (VStruct n0 fs i j l).
Fixpoint value_ind' (v : value) : P v :=
  match v with
  | VNull => H0
  | VBool b => H1 b
  | VInt z => H2 z
  | VFloat f => H3 f
  | VStr s => H4 s
  | VList i l => H5 i l ((fix go l : Forall P l := match l with [] => Forall_nil _ | x :: l' => Forall_cons _ (value_ind' x) (go l') end) l)
  | VDict i j l => H6 i j l ((fix go l : Forall (fun p => P (fst p) /\ P (snd p)) l :=
      match l with
      | [] => Forall_nil _
      | p :: l' => Forall_cons _ (conj (value_ind' (fst p)) (value_ind' (snd p))) (go l') end) l)
  | VRatio a b => H7 a b
  | VComplex a b => H8 a b
  | VEnum n vs v => H9 n vs v
  | VStruct n fs i j l => H10 n fs i j l ((fix go l : Forall (fun p => P (snd p)) l :=
      match l with
      | [] => Forall_nil _
      | p :: l' => Forall_cons _ (value_ind' (snd p)) (go l') end) l)
  end.
End ValueInd.

(** ---- Interface ids ---- *)
Lemma dig_val : forall d, 0 <= d < 16 -> hex_val (dig d) = Some d.
Proof.
  intros d H.
  assert (C : d = 0 \/ d = 1 \/ d = 2 \/ d = 3 \/ d = 4 \/ d = 5 \/ d = 6 \/ d = 7 \/ d = 8 \/ d = 9 \/ d = 10
              \/ d = 11 \/ d = 12 \/ d = 13 \/ d = 14 \/ d = 15) by lia.
  repeat destruct C as [->|C]; try reflexivity. subst d. reflexivity.
Qed.

Lemma hex_num_hex : forall w z acc,
  0 <= acc -> 0 <= z -> (acc + 1) * 16 ^ Z.of_nat w <= 2 ^ 32 ->
  hex_num acc (hex w z) = Some (acc * 16 ^ Z.of_nat w + z mod 16 ^ Z.of_nat w).
Proof.
  induction w as [|w IH]; intros z acc A Z0 B.
  - cbn [hex hex_num]. change (16 ^ Z.of_nat 0) with 1. rewrite Z.mod_1_r. f_equal. lia.
  - cbn [hex hex_num].
    assert (P : 0 < 16 ^ Z.of_nat w) by (apply Z.pow_pos_nonneg; lia).
    assert (E : 16 ^ Z.of_nat (S w) = 16 * 16 ^ Z.of_nat w)
      by (rewrite Nat2Z.inj_succ, Z.pow_succ_r by lia; reflexivity).
    rewrite E in *. set (p := 16 ^ Z.of_nat w) in *.
    assert (D : 0 <= z / p mod 16 < 16) by (apply Z.mod_pos_bound; lia).
    rewrite (dig_val _ D). set (d := z / p mod 16) in *.
    assert (U : (acc + 1) * 16 <= 2 ^ 32) by nia.
    assert (G : acc <= (4294967295 - d) / 16).
    { apply Z.div_le_lower_bound; [lia|]. change (2 ^ 32) with 4294967296 in U. lia. }
    assert (L : (4294967295 - d) / 16 <? acc = false) by (apply Z.ltb_ge; exact G).
    rewrite L. rewrite IH; [|lia|lia|].
    + f_equal. fold p. subst d. rewrite (Z.mul_comm 16 p), Z.rem_mul_r by lia. ring.
    + fold p. nia.
Qed.
Lemma hex_num_0 : forall w z, (w <= 8)%nat -> 0 <= z < 16 ^ Z.of_nat w -> hex_num 0 (hex w z) = Some z.
Proof.
  intros w z W H. rewrite hex_num_hex; [|lia|lia|].
  - rewrite Z.mod_small by lia. f_equal; lia.
  - change (2 ^ 32) with (16 ^ 8). rewrite Z.mul_1_l. apply Z.pow_le_mono_r; lia.
Qed.

Lemma id_parse_text : forall i j, is_id i -> length j = 11%nat -> id_parse (id_text i) j = i.
Proof.
  intros i j (a & b & c & d & -> & L & A & B & C & D) J.
  destruct d as [|d0 [|d1 [|d2 [|d3 [|d4 [|d5 [|d6 [|d7 [|? ?]]]]]]]]]; try discriminate L.
  destruct j as [|j0 [|j1 [|j2 [|j3 [|j4 [|j5 [|j6 [|j7 [|j8 [|j9 [|j10 [|? ?]]]]]]]]]]]]; try discriminate J.
  repeat match goal with H : Forall _ (_ :: _) |- _ => inversion_clear H end.
  change (2 ^ 32) with (16 ^ Z.of_nat 8) in *. change (2 ^ 16) with (16 ^ Z.of_nat 4) in *.
  change (2 ^ 8) with (16 ^ Z.of_nat 2) in *.
  unfold id_parse, id_text. cbn [nth].
  set (s := String.append _ _).
  assert (E1 : Nat.eqb (String.length s) 38 = true) by reflexivity.
  assert (E2 : char_is s 0 "{"%char && char_is s 37 "}"%char = true) by reflexivity.
  rewrite E1, E2. cbn [negb]. unfold id_steps.
  assert (F0 : substring 1 8 s = hex 8 a) by reflexivity.
  assert (F1 : substring 10 4 s = hex 4 b) by reflexivity.
  assert (F2 : substring 15 4 s = hex 4 c) by reflexivity.
  assert (F3 : substring 20 2 s = hex 2 d0) by reflexivity.
  assert (F4 : substring 22 2 s = hex 2 d1) by reflexivity.
  assert (F5 : substring 25 2 s = hex 2 d2) by reflexivity.
  assert (F6 : substring 27 2 s = hex 2 d3) by reflexivity.
  assert (F7 : substring 29 2 s = hex 2 d4) by reflexivity.
  assert (F8 : substring 31 2 s = hex 2 d5) by reflexivity.
  assert (F9 : substring 33 2 s = hex 2 d6) by reflexivity.
  assert (F10 : substring 35 2 s = hex 2 d7) by reflexivity.
  assert (G1 : char_is s 9 "-"%char = true) by reflexivity.
  assert (G2 : char_is s 14 "-"%char = true) by reflexivity.
  assert (G3 : char_is s 19 "-"%char = true) by reflexivity.
  assert (G4 : char_is s 24 "-"%char = true) by reflexivity.
  clearbody s. cbn [id_run].
  repeat (first [rewrite F0|rewrite F1|rewrite F2|rewrite F3|rewrite F4|rewrite F5|rewrite F6|rewrite F7
                |rewrite F8|rewrite F9|rewrite F10|rewrite G1|rewrite G2|rewrite G3|rewrite G4]).
  rewrite !hex_num_0 by (try lia; assumption). cbn [set_nth]. reflexivity.
Qed.

Lemma ids_eqb_eq : forall a b, ids_eqb a b = true <-> a = b.
Proof.
  induction a as [|x a IH]; destruct b as [|y b]; cbn [ids_eqb]; split; intro H; try discriminate; try reflexivity.
  - apply andb_true_iff in H. destruct H as [H K]. apply Z.eqb_eq in H. apply IH in K. congruence.
  - injection H as -> ->. rewrite Z.eqb_refl. apply IH. reflexivity.
Qed.

Lemma dig_clean : forall z, dig z <> zero.
Proof.
  intro z. unfold dig.
  assert (H : forall n, nth n hex_digits "0"%char <> zero).
  { intro n. do 16 (destruct n as [|n]; [discriminate|]). destruct n; discriminate. }
  apply H.
Qed.
Lemma clean_cons : forall c s, c <> zero -> clean s -> clean (String c s).
Proof. intros c s A B [H|H]; [exact (A H)|exact (B H)]. Qed.
Lemma clean_nil : clean EmptyString.
Proof. intros []. Qed.
Lemma hex_clean : forall w z s, clean s -> clean (hex w z ++ s)%string.
Proof.
  induction w as [|w IH]; intros z s C; [exact C|].
  cbn [hex String.append]. apply clean_cons; [apply dig_clean|]. apply IH. exact C.
Qed.
Lemma id_text_clean : forall i, clean (id_text i).
Proof.
  intro i. unfold id_text.
  repeat first [apply hex_clean | apply clean_cons; [discriminate|] | apply clean_nil | progress cbn [String.append]].
Qed.

Lemma cstr_clean : forall s, clean s -> cstr s = s.
Proof.
  induction s as [|c s IH]; intro H; [reflexivity|].
  cbn [cstr]. destruct (Ascii.eqb_spec c zero) as [->|N]; [exfalso; apply H; left; reflexivity|].
  rewrite IH; [reflexivity|]. intro K. apply H. right. exact K.
Qed.
Lemma clean_cstr : forall s, clean (cstr s).
Proof.
  induction s as [|c s IH]; [apply clean_nil|].
  cbn [cstr]. destruct (Ascii.eqb_spec c zero) as [E|N]; [apply clean_nil|]. apply clean_cons; assumption.
Qed.

(** ---- Lookup ---- *)
Lemma find_first : forall A k (l : list (string * A)) x, find k l = Some x <-> first_is k l x.
Proof.
  intros A k. induction l as [|[k' y] l IH]; intro x; cbn [find]; split.
  - discriminate.
  - intros (l1 & l2 & E & _). destruct l1; discriminate.
  - destruct (String.eqb_spec k k') as [->|N].
    + intro E. injection E as ->. exists [], l. split; [reflexivity|intros []].
    + intro E. apply IH in E. destruct E as (l1 & l2 & -> & N1). exists ((k', y) :: l1), l2. split; [reflexivity|].
      cbn [map fst]. intros [K|K]; [congruence|exact (N1 K)].
  - intros (l1 & l2 & E & N1). destruct l1 as [|[k1 y1] l1]; cbn [app] in E.
    + injection E as -> -> ->. rewrite String.eqb_refl. reflexivity.
    + injection E as -> -> ->. destruct (String.eqb_spec k k1) as [->|N].
      * exfalso. apply N1. left. reflexivity.
      * apply IH. exists l1, l2. split; [reflexivity|]. intro K. apply N1. right. exact K.
Qed.
Lemma find_In : forall A k (l : list (string * A)) x, find k l = Some x -> In (k, x) l.
Proof.
  intros A k l x H. apply find_first in H. destruct H as (l1 & l2 & -> & _). apply in_or_app. right. left. reflexivity.
Qed.
Lemma find_none : forall A k (l : list (string * A)), find k l = None <-> ~ In k (map fst l).
Proof.
  intros A k. induction l as [|[k' y] l IH]; cbn [find map fst In]; split; intro H.
  - intros [].
  - reflexivity.
  - destruct (String.eqb_spec k k') as [->|N]; [discriminate|]. intros [K|K]; [congruence|]. exact (proj1 IH H K).
  - destruct (String.eqb_spec k k') as [->|N]; [exfalso; apply H; left; reflexivity|]. apply IH. intro K. apply H. right. exact K.
Qed.
Lemma find_nodup : forall A k (l : list (string * A)) x, NoDup (map fst l) -> In (k, x) l -> find k l = Some x.
Proof.
  intros A k. induction l as [|[k' y] l IH]; intros x N H; [destruct H|].
  cbn [map fst] in N. inversion_clear N. cbn [find]. destruct H as [H|H].
  - injection H as -> ->. rewrite String.eqb_refl. reflexivity.
  - destruct (String.eqb_spec k k') as [->|D]; [|auto]. exfalso. apply H0. apply (in_map fst) in H. exact H.
Qed.

(** ---- The parser ---- *)
Section Parser.
Variable rt : Z -> Z.

Definition PV (es : list event) (j : json) (r : list event) : Prop :=
  (length r < length es)%nat /\ forall n, (length es <= n + length r)%nat -> parse_value rt n es = Some (j, r).
Definition PI (es : list event) (l : list json) (r : list event) : Prop :=
  (length r < length es)%nat /\ forall n, (length es <= n + length r)%nat -> parse_items rt n es = Some (l, r).
Definition PM (es : list event) (l : list (string * json)) (r : list event) : Prop :=
  (length r < length es)%nat /\ forall n, (length es <= n + length r)%nat -> parse_members rt n es = Some (l, r).

Ltac scalar := intros; split; [cbn [length]; lia|]; intros n H; cbn [length] in H; destruct n as [|n]; [lia|reflexivity].
Lemma PV_null : forall r, PV (ENull :: r) JNull r. Proof. scalar. Qed.
Lemma PV_bool : forall b r, PV (EBool b :: r) (JBool b) r. Proof. scalar. Qed.
Lemma PV_int : forall z r, PV (EInt z :: r) (JInt z) r. Proof. scalar. Qed.
Lemma PV_float : forall f r, PV (EFloat f :: r) (JFloat (rt f)) r. Proof. scalar. Qed.
Lemma PV_str : forall s r, PV (EStr s :: r) (JStr s) r. Proof. scalar. Qed.
Lemma PI_nil : forall r, PI (EEndArr :: r) [] r. Proof. scalar. Qed.
Lemma PM_nil : forall r, PM (EEndObj :: r) [] r. Proof. scalar. Qed.
Lemma PV_arr : forall es l r, PI es l r -> PV (EArr :: es) (JArr l) r.
Proof.
  intros es l r [L H]. split; [cbn [length]; lia|]. intros n K. cbn [length] in K. destruct n as [|n]; [lia|].
  cbn [parse_value]. rewrite H by lia. reflexivity.
Qed.
Lemma PV_obj : forall es l r, PM es l r -> PV (EObj :: es) (JObj l) r.
Proof.
  intros es l r [L H]. split; [cbn [length]; lia|]. intros n K. cbn [length] in K. destruct n as [|n]; [lia|].
  cbn [parse_value]. rewrite H by lia. reflexivity.
Qed.
Lemma PI_cons : forall es j r1 l r, PV es j r1 -> PI r1 l r -> PI es (j :: l) r.
Proof.
  intros es j r1 l r [L1 H1] [L2 H2]. split; [lia|]. intros n K. destruct n as [|n]; [lia|].
  cbn [parse_items].
  destruct es as [|e es]; [cbn in L1; lia|].
  assert (V : parse_value rt n (e :: es) = Some (j, r1)) by (apply H1; lia).
  assert (N : e <> EEndArr). { intros ->. destruct n; cbn in V; discriminate. }
  destruct e; try congruence; rewrite V, H2 by lia; reflexivity.
Qed.
Lemma PM_cons : forall k es j r1 l r, PV es j r1 -> PM r1 l r -> PM (EKey k :: es) ((k, j) :: l) r.
Proof.
  intros k es j r1 l r [L1 H1] [L2 H2]. split; [cbn [length]; lia|]. intros n K. cbn [length] in K. destruct n as [|n]; [lia|].
  cbn [parse_members]. rewrite H1, H2 by lia. reflexivity.
Qed.

Variable version : Z.

(** The document of an object. *)
Definition id_member (k : string) (i : iid) : list (string * json) :=
  if (version >? 1) && negb (ids_eqb i unknown_id) then [(k, JStr (id_text i))] else [].
Fixpoint tree (v : value) : json :=
  match v with
  | VNull => JNull
  | VBool b => JBool b
  | VInt z => JInt z
  | VFloat f => JFloat (rt f)
  | VStr s => JStr s
  | VList id items =>
      if version >? 1
      then JObj (("__type"%string, JStr "List") :: id_member "itemIntfID" id ++ [("values"%string, JArr (map tree items))])
      else JArr (map tree items)
  | VDict kid vid items =>
      JObj (("__type"%string, JStr "Dict") :: id_member "keyIntfID" kid ++ id_member "valueIntfID" vid ++
            [("values"%string, JArr (map (fun p => JObj [("key"%string, tree (fst p)); ("value"%string, tree (snd p))]) items))])
  | VRatio n d => JObj [("__type", JStr "Ratio"); ("num", JInt n); ("den", JInt d)]%string
  | VComplex a b => JObj [("__type", JStr "ComplexNumber"); ("real", JFloat (rt a)); ("imaginary", JFloat (rt b))]%string
  | VEnum tn _ v => JObj [("__type", JStr "Enumeration"); ("typeName", JStr tn); ("value", JStr v)]%string
  | VStruct tn _ kid vid fields =>
      JObj [("__type", JStr "Struct"); ("typeName", JStr tn);
            ("fields",
      JObj (("__type", JStr "Dict") :: id_member "keyIntfID" kid ++ id_member "valueIntfID" vid ++
            [("values", JArr (map (fun p => JObj [("key", JStr (fst p)); ("value", tree (snd p))]) fields))]))]%string
  end.

Lemma PM_id : forall k i es l r, PM es l r -> PM (id_events version k i ++ es) (id_member k i ++ l) r.
Proof.
  intros k i es l r H. unfold id_events, id_member. destruct (_ && _); [|exact H].
  cbn [app]. eapply PM_cons; [apply PV_str|exact H].
Qed.

Lemma parse_serialize : forall v r, PV (serialize version v ++ r) (tree v) r.
Proof.
  induction v using value_ind'; intro r.
  - apply PV_null.
  - apply PV_bool.
  - apply PV_int.
  - apply PV_float.
  - apply PV_str.
  - assert (B : forall r, PI ((fix go l := match l with [] => [] | x :: l' => serialize version x ++ go l' end) l ++ EEndArr :: r)
                            (map tree l) r).
    { clear r. induction H as [|x l Hx _ IH]; intro r; [apply PI_nil|].
      rewrite <- app_assoc. cbn [map]. eapply PI_cons; [apply Hx|apply IH]. }
    cbn [serialize tree]. destruct (version >? 1).
    + rewrite <- !app_assoc. cbn [app tagged]. rewrite <- ?app_assoc. cbn [app].
      apply PV_obj. eapply PM_cons; [apply PV_str|].
      apply PM_id. eapply PM_cons; [|apply PM_nil]. apply PV_arr. rewrite <- ?app_assoc. cbn [app]. apply B.
    + cbn [app]. rewrite <- app_assoc. cbn [app]. apply PV_arr. apply B.
  - assert (B : forall r, PI ((fix go l := match l with
                   | [] => []
                   | (k, x) :: l' =>
                       [EObj; EKey "key"] ++ serialize version k ++ [EKey "value"] ++ serialize version x ++ [EEndObj] ++ go l'
                   end) l ++ EEndArr :: r)
                (map (fun p => JObj [("key"%string, tree (fst p)); ("value"%string, tree (snd p))]) l) r).
    { clear r. induction H as [|[k x] l [Hk Hx] _ IH]; intro r; [apply PI_nil|].
      cbn [fst snd] in Hk, Hx. rewrite <- !app_assoc. cbn [map fst snd app].
      eapply PI_cons; [|apply IH]. apply PV_obj. eapply PM_cons; [apply Hk|]. eapply PM_cons; [apply Hx|apply PM_nil]. }
    cbn [serialize tree]. rewrite <- !app_assoc. cbn [app tagged].
    apply PV_obj. eapply PM_cons; [apply PV_str|]. apply PM_id. apply PM_id.
    eapply PM_cons; [|apply PM_nil]. apply PV_arr. apply B.
  - apply PV_obj. repeat (eapply PM_cons; [first [apply PV_str|apply PV_int]|]). apply PM_nil.
  - apply PV_obj. repeat (eapply PM_cons; [first [apply PV_str|apply PV_float]|]). apply PM_nil.
  - apply PV_obj. repeat (eapply PM_cons; [first [apply PV_str|apply PV_float]|]). apply PM_nil.
  - assert (B : forall r, PI ((fix go l := match l with
                    | [] => []
                    | (k, x) :: l' =>
                        [EObj; EKey "key"; EStr k; EKey "value"] ++ serialize version x ++ [EEndObj] ++ go l'
                    end) l ++ EEndArr :: r)
                (map (fun p => JObj [("key"%string, JStr (fst p)); ("value"%string, tree (snd p))]) l) r).
    { clear r. induction H as [|[k x] l Hx _ IH]; intro r; [apply PI_nil|].
      cbn [fst snd] in Hx. rewrite <- !app_assoc. cbn [map fst snd app].
      eapply PI_cons; [|apply IH]. apply PV_obj. eapply PM_cons; [apply PV_str|]. eapply PM_cons; [apply Hx|apply PM_nil]. }
    cbn [serialize tree]. rewrite <- !app_assoc. cbn [app tagged].
    apply PV_obj. eapply PM_cons; [apply PV_str|]. eapply PM_cons; [apply PV_str|]. eapply PM_cons; [|apply PM_nil].
    apply PV_obj. eapply PM_cons; [apply PV_str|]. apply PM_id. apply PM_id.
    eapply PM_cons; [|apply PM_nil]. apply PV_arr. apply B.
Qed.

Lemma parse_all : forall v, parse rt (serialize version v) = Some (tree v).
Proof.
  intro v. destruct (parse_serialize v []) as [_ H]. rewrite app_nil_r in H. unfold parse. rewrite H; [reflexivity|].
  cbn [length]. lia.
Qed.
End Parser.

(** ---- Types ---- *)
Section TyInd.
Variable P : ty -> Prop.
Hypothesis H0 : forall c, P (TSimple c).
Hypothesis H1 : forall n vs, P (TEnum n vs).
Hypothesis H2 : forall n fs, Forall (fun p => P (snd p)) fs -> P (TStruct n fs).
Fixpoint ty_ind' (t : ty) : P t :=
  match t with
  | TSimple c => H0 c
  | TEnum n vs => H1 n vs
  | TStruct n fs => H2 n fs ((fix go l : Forall (fun p => P (snd p)) l :=
      match l with [] => Forall_nil _ | p :: l' => Forall_cons _ (ty_ind' (snd p)) (go l') end) fs)
  end.
End TyInd.

Lemma ctype_eqb_eq : forall a b, ctype_eqb a b = true <-> a = b.
Proof. intros a b; split; [destruct a, b; (reflexivity || discriminate)|intros ->; destruct b; reflexivity]. Qed.
Lemma strs_eqb_eq : forall a b, strs_eqb a b = true <-> a = b.
Proof.
  induction a as [|x a IH]; destruct b as [|y b]; cbn [strs_eqb]; split; intro H; try discriminate; try reflexivity.
  - apply andb_true_iff in H. destruct H as [H K]. apply String.eqb_eq in H. apply IH in K. congruence.
  - injection H as -> ->. rewrite String.eqb_refl. apply IH. reflexivity.
Qed.
Lemma ty_eqb_eq : forall a b, ty_eqb a b = true <-> a = b.
Proof.
  induction a as [c|n vs|n fs IH] using ty_ind'; destruct b as [c'|m ws|m gs]; cbn [ty_eqb];
    split; intro H; try discriminate.
  - apply ctype_eqb_eq in H. congruence.
  - injection H as ->. apply ctype_eqb_eq. reflexivity.
  - apply andb_true_iff in H. destruct H as [H K]. apply String.eqb_eq in H. apply strs_eqb_eq in K. congruence.
  - injection H as -> ->. rewrite String.eqb_refl. apply strs_eqb_eq. reflexivity.
  - apply andb_true_iff in H. destruct H as [H K]. apply String.eqb_eq in H. subst m. f_equal.
    revert gs K. induction IH as [|[x t] fs Ht _ IHl]; intros [|[y u] gs] K; try discriminate; [reflexivity|].
    apply andb_true_iff in K. destruct K as [K K2]. apply andb_true_iff in K. destruct K as [K0 K1].
    apply String.eqb_eq in K0. apply Ht in K1. cbn [snd] in K1. apply IHl in K2. congruence.
  - injection H as -> ->. rewrite String.eqb_refl. cbn [andb].
    induction IH as [|[x t] gs Ht _ IHl]; [reflexivity|].
    cbn [snd] in Ht. rewrite String.eqb_refl. cbn [andb]. rewrite (proj2 (Ht t) eq_refl). exact IHl.
Qed.

Lemma has_core_iff : forall c v, has_core c v <-> v <> VNull /\ core_type v = c.
Proof.
  intros c v; split.
  - intro H; destruct H; (split; [discriminate|reflexivity]).
  - intros [N <-]. destruct v; try congruence; constructor.
Qed.
Lemma field_ok_fits : forall t v, field_ok t v = true <-> fits t v.
Proof.
  intros t v; split.
  - intro H.
    assert (D : v = VNull \/ v <> VNull) by (destruct v; (left; reflexivity) || (right; discriminate)).
    destruct D as [->|N]; [constructor|].
    assert (H' : match t with
      | TStruct _ _ => match v with VStruct n fs _ _ _ => ty_eqb (TStruct n fs) t | _ => false end
      | TSimple c => ctype_eqb c ctUndefined || ctype_eqb (core_type v) c
      | TEnum _ _ => ctype_eqb (core_type v) ctEnum
      end = true) by (destruct v; try congruence; exact H).
    clear H. destruct t as [c|n vs|n fs].
    + apply orb_true_iff in H'. destruct H' as [H|H]; apply ctype_eqb_eq in H.
      * subst c. apply F_any.
      * apply F_core. apply has_core_iff. split; assumption.
    + apply ctype_eqb_eq in H'. destruct v; try discriminate. apply F_enum.
    + destruct v; try discriminate. apply ty_eqb_eq in H'. injection H' as -> ->. apply F_struct.
  - intro H; destruct H; try reflexivity.
    + destruct v; reflexivity.
    + apply has_core_iff in H. destruct H as [N <-].
      destruct v; try congruence; cbn [field_ok core_type]; reflexivity.
    + cbn [field_ok]. apply ty_eqb_eq. reflexivity.
Qed.

(** ---- Depth ---- *)
Lemma depth_arr : forall l j, In j l -> (depth j < depth (JArr l))%nat.
Proof.
  intros l j H. cbn [depth]. apply Nat.lt_succ_r. induction l as [|x l IH]; [destruct H|].
  destruct H as [->|H]; [lia|]. specialize (IH H). lia.
Qed.
Lemma depth_obj : forall ms k j, In (k, j) ms -> (depth j < depth (JObj ms))%nat.
Proof.
  intros ms k j H. cbn [depth]. apply Nat.lt_succ_r. induction ms as [|[k' x] l IH]; [destruct H|].
  destruct H as [H|H]; [injection H as -> ->; lia|]. specialize (IH H). lia.
Qed.

(** ---- Reading back ---- *)
Section Back.
Variable rt : Z -> Z.
Variable version : Z.
Variable tm : manager.
Notation exact := (fun f => rt f = f).
Notation obj := (object exact tm).
Notation tree := (tree rt version).

Definition kept (v : value) : value := if version >? 1 then v else untyped v.
Definition kept_id (i : iid) : iid := if version >? 1 then i else unknown_id.

Lemma obj_ind_dict : forall i j l, obj (VDict i j l) -> forall k x, In (k, x) l -> obj k /\ obj x.
Proof.
  intros i j l H k x I. inversion H as [| | | | | |i0 j0 l0 HI HJ HK HV HN HD E| | | |]; subst.
  rewrite Forall_forall in HK, HV. split; [apply HK; apply (in_map fst) in I; exact I|apply HV; apply (in_map snd) in I; exact I].
Qed.

Lemma first_unique : forall A k (l : list (string * A)) x y, first_is k l x -> first_is k l y -> x = y.
Proof. intros A k l x y H K. apply find_first in H. apply find_first in K. congruence. Qed.

Lemma key_same : forall a b, obj a -> obj b -> key_eqb a b = true -> by_value a /\ a = b.
Proof.
  intros a b A B H. destruct a, b; try discriminate; cbn [key_eqb] in H; (split; [exact Logic.I|]).
  - apply Bool.eqb_prop in H. congruence.
  - apply Z.eqb_eq in H. congruence.
  - apply Z.eqb_eq in H. congruence.
  - apply andb_true_iff in H. destruct H as [_ H]. apply String.eqb_eq in H.
    inversion_clear A. inversion_clear B. rewrite !cstr_clean in H by assumption. congruence.
  - apply andb_true_iff in H. destruct H as [H K]. apply Z.eqb_eq in H. apply Z.eqb_eq in K. congruence.
  - apply andb_true_iff in H. destruct H as [H K]. apply String.eqb_eq in H. apply String.eqb_eq in K. subst.
    inversion_clear A. inversion_clear B. pose proof (first_unique _ _ _ _ _ H H4) as E. injection E as ->. reflexivity.
Qed.
Lemma key_kept : forall a b, key_eqb (kept a) (kept b) = key_eqb a b.
Proof. intros a b. unfold kept. destruct (version >? 1); [reflexivity|]. destruct a, b; reflexivity. Qed.
Lemma kept_null : forall v, kept v = VNull -> v = VNull.
Proof. intros v. unfold kept. destruct (version >? 1); [auto|]. destruct v; (discriminate || reflexivity). Qed.

Lemma dict_put_new : forall k v l, (forall k', In k' (map fst l) -> key_eqb k' k = false) -> dict_put k v l = l ++ [(k, v)].
Proof.
  intros k v l H. induction l as [|[k' v'] l IH]; [reflexivity|].
  cbn [dict_put]. rewrite (H k' (or_introl eq_refl)). cbn [app]. f_equal. apply IH. intros k1 I. apply H. right. exact I.
Qed.
Lemma dict_set_new : forall k v l, k <> VNull -> (forall k', In k' (map fst l) -> key_eqb k' k = false) ->
  dict_set k v l = l ++ [(k, v)].
Proof. intros k v l N H. unfold dict_set. destruct k; try congruence; apply dict_put_new; exact H. Qed.

Lemma back_list : forall d l, (forall x, In x l -> d tm (tree x) = (Good (kept x), tm)) ->
  list_items d tm (map tree l) = (inr (map kept l), tm).
Proof.
  intros d l H. induction l as [|x l IH]; [reflexivity|].
  cbn [map list_items]. rewrite (H x (or_introl eq_refl)). rewrite IH; [reflexivity|]. intros y I. apply H. right. exact I.
Qed.
Lemma back_plain : forall d l, (forall x, In x l -> d tm (tree x) = (Good (kept x), tm)) ->
  plain_items d tm (map tree l) = (inr (map kept l), tm).
Proof.
  intros d l H. induction l as [|x l IH]; [reflexivity|].
  cbn [map plain_items]. rewrite (H x (or_introl eq_refl)). rewrite IH; [reflexivity|]. intros y I. apply H. right. exact I.
Qed.

(** Keys as they come back; used for dictionaries and for the fields of structures. *)
Lemma back_dict : forall (A : Type) (d : manager -> json -> res * manager) (l : list (A * value)) (ktree : A -> json) (kval : A -> value) acc,
  (forall k x, In (k, x) l -> d tm (ktree k) = (Good (kval k), tm) /\ d tm (tree x) = (Good (kept x), tm)) ->
  (forall k x, In (k, x) l -> kval k <> VNull) ->
  (forall a k, In a (map fst acc) -> In k (map fst l) -> key_eqb a (kval k) = false) ->
  ForallOrdPairs (fun a b => key_eqb (kval a) (kval b) = false) (map fst l) ->
  dict_items d tm acc (map (fun p => JObj [("key"%string, ktree (fst p)); ("value"%string, tree (snd p))]) l) =
  (inr (acc ++ map (fun p => (kval (fst p), kept (snd p))) l), tm).
Proof.
  intros A d l ktree kval. induction l as [|[k x] l IH]; intros acc H N C P.
  - cbn. rewrite app_nil_r. reflexivity.
  - destruct (H k x (or_introl eq_refl)) as [Hk Hx]. cbn [map fst snd] in P |- *. inversion_clear P.
    cbn [dict_items]. unfold read_object. cbn [find String.eqb Ascii.eqb Bool.eqb]. rewrite Hk. rewrite Hx.
    rewrite dict_set_new.
    + rewrite IH.
      * rewrite <- app_assoc. reflexivity.
      * intros k1 x1 I. apply H. right. exact I.
      * intros k1 x1 I. apply (N k1 x1). right. exact I.
      * intros a k1 I1 I2. rewrite map_app in I1. apply in_app_or in I1. cbn [map fst In] in I1.
        destruct I1 as [I1|[<-|[]]].
        -- apply C; [exact I1|]. right. exact I2.
        -- rewrite Forall_forall in H0. apply H0. exact I2.
      * exact H1.
    + apply (N k x). left. reflexivity.
    + intros k' I. apply C; [exact I|]. left. reflexivity.
Qed.

Lemma read_id_member : forall k i ms, is_id i -> find k ms = None ->
  read_id k (id_member version k i ++ ms) = Some (kept_id i).
Proof.
  intros k i ms D F. unfold read_id, id_member, kept_id. destruct (version >? 1); cbn [andb].
  - destruct (ids_eqb i unknown_id) eqn:E; cbn [negb].
    + apply ids_eqb_eq in E. subst i. cbn [app]. rewrite F. reflexivity.
    + cbn [app find]. rewrite String.eqb_refl. rewrite cstr_clean by apply id_text_clean.
      rewrite id_parse_text; [reflexivity|exact D|reflexivity].
  - cbn [app]. rewrite F. reflexivity.
Qed.
Lemma find_skip : forall k k' i (ms : list (string * json)), String.eqb k k' = false ->
  find k (id_member version k' i ++ ms) = find k ms.
Proof.
  intros k k' i ms E. unfold id_member. destruct (_ && _); [|reflexivity]. cbn [app find]. rewrite E. reflexivity.
Qed.
Lemma find_cons_ne : forall A k k' (x : A) ms, String.eqb k k' = false -> find k ((k', x) :: ms) = find k ms.
Proof. intros A k k' x ms E. cbn [find]. rewrite E. reflexivity. Qed.

(** A dictionary, whatever its keys are. *)
Definition dict_doc (ki vi : iid) (items : list json) : json :=
  JObj (("__type"%string, JStr "Dict") :: id_member version "keyIntfID" ki ++ id_member version "valueIntfID" vi ++
        [("values"%string, JArr items)]).
Lemma deser_dict_doc : forall n ki vi items kvs, is_id ki -> is_id vi ->
  dict_items (deser n) tm [] items = (inr kvs, tm) ->
  deser (S n) tm (dict_doc ki vi items) = (Good (VDict (kept_id ki) (kept_id vi) kvs), tm).
Proof.
  intros n ki vi items kvs KI VI H. unfold dict_doc. set (ms := _ :: _).
  assert (T : find "__type" ms = Some (JStr "Dict")) by reflexivity.
  assert (K : read_id "keyIntfID" ms = Some (kept_id ki)).
  { unfold read_id, ms. rewrite find_cons_ne by reflexivity.
    apply (read_id_member "keyIntfID" ki); [exact KI|]. rewrite find_skip by reflexivity. reflexivity. }
  assert (V : read_id "valueIntfID" ms = Some (kept_id vi)).
  { unfold read_id, ms. rewrite find_cons_ne by reflexivity. rewrite find_skip by reflexivity.
    apply (read_id_member "valueIntfID" vi); [exact VI|reflexivity]. }
  assert (W : find "values" ms = Some (JArr items)).
  { unfold ms. rewrite find_cons_ne by reflexivity. rewrite !find_skip by reflexivity. reflexivity. }
  clearbody ms. cbn [deser]. rewrite T. cbn [cstr Ascii.eqb Bool.eqb String.eqb zero]. rewrite K, V, W, H. reflexivity.
Qed.
Lemma depth_dict_doc : forall ki vi items, depth (dict_doc ki vi items) = S (depth (JArr items)).
Proof.
  intros ki vi items. unfold dict_doc. cbn [depth]. f_equal.
  unfold id_member. destruct (_ && _), (_ && _); cbn [app depth]; lia.
Qed.
Lemma depth_list_doc : forall i items, depth (JObj (("__type"%string, JStr "List") :: id_member version "itemIntfID" i ++ [("values"%string, JArr items)]))
  = S (depth (JArr items)).
Proof.
  intros i items. cbn [depth]. f_equal. unfold id_member. destruct (_ && _); cbn [app depth]; lia.
Qed.

Lemma kept_list : forall i l, kept (VList i l) = VList (kept_id i) (map kept l).
Proof. intros i l. unfold kept, kept_id. destruct (version >? 1); [rewrite map_id; reflexivity|reflexivity]. Qed.
Lemma kept_dict : forall i j l, kept (VDict i j l) = VDict (kept_id i) (kept_id j) (map (fun p => (kept (fst p), kept (snd p))) l).
Proof.
  intros i j l. unfold kept, kept_id. destruct (version >? 1); [|reflexivity].
  f_equal. rewrite <- (map_id l) at 1. apply map_ext. intros [a b]; reflexivity.
Qed.
Lemma kept_struct : forall n fs i j l, kept (VStruct n fs i j l) =
  VStruct n fs (kept_id i) (kept_id j) (map (fun p => (fst p, kept (snd p))) l).
Proof.
  intros n fs i j l. unfold kept, kept_id. destruct (version >? 1); [|reflexivity].
  f_equal. rewrite <- (map_id l) at 1. apply map_ext. intros [a b]; reflexivity.
Qed.
Lemma kept_fits : forall t v, fits t v -> fits t (kept v).
Proof.
  intros t v H. unfold kept. destruct (version >? 1); [exact H|].
  destruct H; cbn [untyped]; try constructor.
  destruct H; cbn [untyped]; try constructor; constructor.
Qed.

Lemma named_map : forall l : list (string * value), named (map (fun p => (VStr (fst p), kept (snd p))) l) =
  Some (map (fun p => (fst p, kept (snd p))) l).
Proof. induction l as [|[k x] l IH]; [reflexivity|]. cbn [map named fst snd]. rewrite IH. reflexivity. Qed.

Lemma fill_all : forall tfs fields,
  (forall x t, In (x, t) tfs -> exists v, find x fields = Some v /\ fits t v) -> fill tfs fields = Some fields.
Proof.
  intros tfs fields. induction tfs as [|[x t] tfs IH]; intro H; [reflexivity|].
  cbn [fill]. destruct (H x t (or_introl eq_refl)) as (v & -> & F). apply field_ok_fits in F. rewrite F.
  apply IH. intros y u I. apply H. right. exact I.
Qed.

Lemma map_fst_kept : forall l : list (string * value), map fst (map (fun p => (fst p, kept (snd p))) l) = map fst l.
Proof. intro l. rewrite map_map. reflexivity. Qed.

Lemma create_known : forall n fs i j l, obj (VStruct n fs i j l) ->
  create_struct n (kept_id i) (kept_id j) (map (fun p => (VStr (fst p), kept (snd p))) l) tm =
  (Good (kept (VStruct n fs i j l)), tm).
Proof.
  intros n fs i j l H. inversion H as [| | | | | | | | | |n0 fs0 i0 j0 l0 R C I J CL ND IFF FIT OB E]; subst.
  unfold create_struct. apply find_first in R. rewrite R. rewrite named_map.
  assert (A : forallb (fun f => existsb (fun t => (fst f =? fst t)%string) fs) (map (fun p => (fst p, kept (snd p))) l) = true).
  { apply forallb_forall. intros [x v] IN. cbn [fst].
    assert (X : In x (map fst l)). { rewrite <- map_fst_kept. apply (in_map fst) in IN. exact IN. }
    apply IFF in X. apply in_map_iff in X. destruct X as ([y t] & E & X). cbn [fst] in E. subst y.
    apply existsb_exists. exists (x, t). split; [exact X|]. cbn [fst]. apply String.eqb_refl. }
  rewrite A. rewrite fill_all.
  - rewrite kept_struct. reflexivity.
  - intros x t IN.
    assert (X : In x (map fst fs)) by (apply (in_map fst) in IN; exact IN).
    apply IFF in X. apply in_map_iff in X. destruct X as ([y v] & E & X). cbn [fst] in E. subst y.
    exists (kept v). split.
    + apply find_nodup; [rewrite map_fst_kept; exact ND|]. apply in_map_iff. exists (x, v). split; [reflexivity|exact X].
    + apply kept_fits. exact (FIT _ _ _ IN X).
Qed.

Lemma pairs_map : forall (A B : Type) (f : A -> B) (R : B -> B -> Prop) l,
  ForallOrdPairs R (map f l) <-> ForallOrdPairs (fun a b => R (f a) (f b)) l.
Proof.
  intros A B f R l. induction l as [|x l IH]; cbn [map]; split; intro H; constructor.
  - inversion_clear H. rewrite Forall_map in H0. exact H0.
  - inversion_clear H. apply IH. exact H1.
  - inversion_clear H. rewrite Forall_map. exact H0.
  - inversion_clear H. apply IH. exact H1.
Qed.
Lemma pairs_impl : forall (A : Type) (R Q : A -> A -> Prop) l,
  (forall a b, In a l -> In b l -> R a b -> Q a b) -> ForallOrdPairs R l -> ForallOrdPairs Q l.
Proof.
  intros A R Q l. induction l as [|x l IH]; intros H P; [constructor|]. inversion_clear P. constructor.
  - rewrite Forall_forall in H0 |- *. intros y I. apply H; [left; reflexivity|right; exact I|]. apply H0. exact I.
  - apply IH; [|exact H1]. intros a b I J. apply H; right; assumption.
Qed.
Lemma nodup_pairs : forall (l : list string), NoDup l -> ForallOrdPairs (fun a b => a <> b) l.
Proof.
  intros l H. induction H as [|x l N H IH]; constructor; [|exact IH]. apply Forall_forall. intros y I ->. exact (N I).
Qed.

Lemma back : forall v, obj v -> forall n, (depth (tree v) < n)%nat -> deser n tm (tree v) = (Good (kept v), tm).
Proof.
  induction v using value_ind'; intros O n D; destruct n as [|n]; try lia.
  - unfold kept. destruct (version >? 1); reflexivity.
  - unfold kept. destruct (version >? 1); reflexivity.
  - unfold kept. destruct (version >? 1); reflexivity.
  - inversion_clear O. cbn [Json_Proofs.tree deser]. rewrite H. unfold kept. destruct (version >? 1); reflexivity.
  - inversion_clear O. cbn [Json_Proofs.tree deser]. rewrite cstr_clean by assumption. unfold kept. destruct (version >? 1); reflexivity.
  - inversion O as [| | | | |i0 l0 HI HL| | | | |]; subst. rewrite Forall_forall in H, HL.
    assert (X : forall m, (depth (JArr (map tree l)) <= m)%nat ->
              forall x, In x l -> deser m tm (tree x) = (Good (kept x), tm)).
    { intros m M x IN. apply H; [exact IN|apply HL; exact IN|].
      eapply Nat.lt_le_trans; [|exact M]. apply depth_arr. apply in_map. exact IN. }
    rewrite kept_list. cbn [Json_Proofs.tree] in D |- *. unfold kept_id.
    destruct (version >? 1) eqn:E.
    + rewrite depth_list_doc in D. set (ms := _ :: _).
      assert (T : find "__type" ms = Some (JStr "List")) by reflexivity.
      assert (K : read_id "itemIntfID" ms = Some (kept_id i)).
      { unfold read_id, ms. rewrite find_cons_ne by reflexivity.
        apply (read_id_member "itemIntfID" i); [exact HI|]. reflexivity. }
      assert (W : find "values" ms = Some (JArr (map tree l))).
      { unfold ms. rewrite find_cons_ne by reflexivity. rewrite !find_skip by reflexivity. reflexivity. }
      clearbody ms. cbn [deser]. rewrite T. cbn [cstr Ascii.eqb Bool.eqb String.eqb zero]. rewrite K, W.
      rewrite back_list by (apply X; lia). unfold kept_id. rewrite E. reflexivity.
    + cbn [deser]. rewrite back_plain by (apply X; lia). reflexivity.
  - inversion O as [| | | | | |i0 j0 l0 HI HJ HK HV HN HD E| | | |]; subst.
    rewrite kept_dict. change (tree (VDict i j l)) with (dict_doc i j (map (fun p => JObj [("key"%string, tree (fst p)); ("value"%string, tree (snd p))]) l)) in D |- *.
    rewrite depth_dict_doc in D. apply deser_dict_doc; [exact HI|exact HJ|].
    rewrite Forall_forall in H.
    apply (back_dict value (deser n) l tree kept []).
    + intros k x IN. destruct (obj_ind_dict _ _ _ O k x IN) as [Ok Ox]. destruct (H _ IN) as [Ik Ix]. cbn [fst snd] in Ik, Ix.
      set (items := map _ l) in D.
      assert (DI : (depth (JObj [("key"%string, tree k); ("value"%string, tree x)]) < depth (JArr items))%nat).
      { apply depth_arr. apply in_map_iff. exists (k, x). split; [reflexivity|exact IN]. }
      split; [apply Ik|apply Ix]; try assumption.
      * pose proof (depth_obj [("key"%string, tree k); ("value"%string, tree x)] "key" (tree k) (or_introl eq_refl)). lia.
      * pose proof (depth_obj [("key"%string, tree k); ("value"%string, tree x)] "value" (tree x) (or_intror (or_introl eq_refl))). lia.
    + intros k x IN E0. apply kept_null in E0. subst k. apply HN. apply (in_map fst) in IN. exact IN.
    + intros a k [].
    + refine (pairs_impl _ _ _ _ _ HD). intros a b Ia Ib DK. rewrite key_kept.
      destruct (key_eqb a b) eqn:KE; [|reflexivity]. exfalso. apply DK. rewrite Forall_forall in HK. apply key_same; auto.
  - inversion_clear O. cbn [Json_Proofs.tree deser find String.eqb Ascii.eqb Bool.eqb cstr zero]. unfold read_int.
    cbn [find String.eqb Ascii.eqb Bool.eqb]. destruct (Z.eqb_spec b 0) as [->|N]; [congruence|].
    unfold kept. destruct (version >? 1); reflexivity.
  - inversion_clear O. cbn [Json_Proofs.tree deser find String.eqb Ascii.eqb Bool.eqb cstr zero]. unfold read_float.
    cbn [find String.eqb Ascii.eqb Bool.eqb]. rewrite H, H0. unfold kept. destruct (version >? 1); reflexivity.
  - inversion O as [| | | | | | | | |n0 vs0 v0 R CN CV NE IN|]; subst.
    cbn [Json_Proofs.tree deser find String.eqb Ascii.eqb Bool.eqb cstr zero]. unfold read_string.
    cbn [find String.eqb Ascii.eqb Bool.eqb]. rewrite !cstr_clean by assumption. unfold create_enum.
    apply find_first in R. rewrite R.
    assert (X : existsb (String.eqb v) vs = true) by (apply existsb_exists; exists v; split; [exact IN|apply String.eqb_refl]).
    apply String.eqb_neq in NE. rewrite X, NE. unfold kept. destruct (version >? 1); reflexivity.
  - pose proof O as O'. inversion O' as [| | | | | | | | | |n1 fs0 i0 j0 l0 R C HI HJ CL ND IFF FIT OB E]; subst.
    set (items := map (fun p : string * value => JObj [("key"%string, JStr (fst p)); ("value"%string, tree (snd p))]) l).
    change (tree (VStruct n0 fs i j l)) with
      (JObj [("__type"%string, JStr "Struct"); ("typeName"%string, JStr n0); ("fields"%string, dict_doc i j items)]) in D |- *.
    pose proof (depth_obj [("__type"%string, JStr "Struct"); ("typeName"%string, JStr n0); ("fields"%string, dict_doc i j items)]
                 "fields" (dict_doc i j items) (or_intror (or_intror (or_introl eq_refl)))) as DF.
    rewrite depth_dict_doc in DF.
    assert (X : deser n tm (dict_doc i j items) = (Good (VDict (kept_id i) (kept_id j) (map (fun p => (VStr (fst p), kept (snd p))) l)), tm)).
    { destruct n as [|n]; [lia|]. apply deser_dict_doc; [exact HI|exact HJ|].
      rewrite Forall_forall in H, OB, CL.
      apply (back_dict string (deser n) l JStr VStr []).
      - intros k x IN.
        assert (DI : (depth (JObj [("key"%string, JStr k); ("value"%string, tree x)]) < depth (JArr items))%nat).
        { apply depth_arr. apply in_map_iff. exists (k, x). split; [reflexivity|exact IN]. }
        pose proof (depth_obj [("key"%string, JStr k); ("value"%string, tree x)] "value" (tree x) (or_intror (or_introl eq_refl))).
        split.
        + destruct n as [|n]; [lia|]. cbn [deser]. rewrite cstr_clean; [reflexivity|]. apply CL. apply (in_map fst) in IN. exact IN.
        + apply (H _ IN); [|cbn [snd]; lia]. apply OB. apply (in_map snd) in IN. exact IN.
      - discriminate.
      - intros a k [].
      - refine (pairs_impl _ _ _ _ _ (nodup_pairs _ ND)). intros a b Ia Ib NE. cbn [key_eqb].
        rewrite !cstr_clean by (apply CL; assumption). apply String.eqb_neq in NE. rewrite NE. apply andb_false_r. }
    cbn [deser find String.eqb Ascii.eqb Bool.eqb cstr zero]. unfold read_string, read_object.
    cbn [find String.eqb Ascii.eqb Bool.eqb]. rewrite cstr_clean by exact C. rewrite X.
    apply create_known. exact O.
Qed.

Theorem round_trip : forall v, obj v -> deserialize rt tm (serialize version v) = (Good (kept v), tm).
Proof.
  intros v O. unfold deserialize. rewrite parse_all. apply back; [exact O|lia].
Qed.
End Back.

(** ---- Whatever the text is ---- *)
Lemma first_app : forall A k (l e : list (string * A)) x, first_is k l x -> first_is k (l ++ e) x.
Proof.
  intros A k l e x (l1 & l2 & -> & N). exists l1, (l2 ++ e). split; [|exact N]. rewrite <- app_assoc. reflexivity.
Qed.
Lemma object_app : forall ex tm e v, object ex tm v -> object ex (tm ++ e) v.
Proof.
  intros ex tm e. induction v using value_ind'; intro O.
  - constructor.
  - constructor.
  - constructor.
  - inversion_clear O. constructor; assumption.
  - inversion_clear O. constructor; assumption.
  - inversion O as [| | | | |i0 l0 HI HL| | | | |]; subst. constructor; [exact HI|].
    rewrite Forall_forall in *. intros x I. apply H; [exact I|apply HL; exact I].
  - inversion O as [| | | | | |i0 j0 l0 HI HJ HK HV HN HD E| | | |]; subst.
    constructor; try assumption; rewrite Forall_forall in *; intros x I; pose proof I as I'; apply in_map_iff in I; destruct I as (p & <- & I).
    + apply H; [exact I|]. apply HK. apply in_map. exact I.
    + apply H; [exact I|]. apply HV. apply in_map. exact I.
  - inversion_clear O. constructor; assumption.
  - inversion_clear O. constructor; assumption.
  - inversion O as [| | | | | | | | |n1 vs0 v0 R CN CV NE IN|]; subst.
    constructor; try assumption. apply first_app. exact R.
  - inversion O as [| | | | | | | | | |n1 fs0 i0 j0 l0 R C HI HJ CL ND IFF FIT OB E]; subst.
    constructor; try assumption; [apply first_app; exact R|].
    rewrite Forall_forall in *; intros x I; apply in_map_iff in I; destruct I as (p & <- & I).
    apply H; [exact I|]. apply OB. apply in_map. exact I.
Qed.

Inductive jall (P : Z -> Prop) : json -> Prop :=
| A_null : jall P JNull
| A_bool b : jall P (JBool b)
| A_int z : jall P (JInt z)
| A_float f : P f -> jall P (JFloat f)
| A_str s : jall P (JStr s)
| A_arr l : Forall (jall P) l -> jall P (JArr l)
| A_obj ms : Forall (fun p => jall P (snd p)) ms -> jall P (JObj ms).

Lemma parse_floats : forall rt n,
  (forall es j r, parse_value rt n es = Some (j, r) -> jall (fun g => exists f, g = rt f) j) /\
  (forall es l r, parse_items rt n es = Some (l, r) -> Forall (jall (fun g => exists f, g = rt f)) l) /\
  (forall es l r, parse_members rt n es = Some (l, r) -> Forall (fun p => jall (fun g => exists f, g = rt f) (snd p)) l).
Proof.
  intros rt. induction n as [|n (IV & II & IM)]; [repeat split; intros; discriminate|].
  split; [|split]; intros es l r H.
  - cbn [parse_value] in H. destruct es as [|e es]; [discriminate|].
    destruct e; try discriminate; try (injection H as <- <-; constructor; eauto; fail).
    + destruct (parse_members rt n es) as [[l0 r0]|] eqn:E; [|discriminate]. injection H as <- <-. constructor. eauto.
    + destruct (parse_items rt n es) as [[l0 r0]|] eqn:E; [|discriminate]. injection H as <- <-. constructor. eauto.
  - cbn [parse_items] in H.
    assert (D : (exists es', es = EEndArr :: es') \/
                match parse_value rt n es with
                | Some (j, r1) => match parse_items rt n r1 with Some (l1, r') => Some (j :: l1, r') | None => None end
                | None => None end = Some (l, r)).
    { destruct es as [|e es]; [right; exact H|]. destruct e; try (right; exact H). left. eauto. }
    destruct D as [(es' & ->)|D]; [injection H as <- <-; constructor|].
    destruct (parse_value rt n es) as [[j r1]|] eqn:E; [|discriminate].
    destruct (parse_items rt n r1) as [[l1 r']|] eqn:E2; [|discriminate]. injection D as <- <-. constructor; eauto.
  - cbn [parse_members] in H. destruct es as [|e es]; [discriminate|]. destruct e; try discriminate.
    + injection H as <- <-. constructor.
    + destruct (parse_value rt n es) as [[j r1]|] eqn:E; [|discriminate].
      destruct (parse_members rt n r1) as [[l1 r']|] eqn:E2; [|discriminate]. injection H as <- <-. constructor; eauto.
Qed.

Lemma find_jall : forall P k ms j, Forall (fun p => jall P (snd p)) ms -> find k ms = Some j -> jall P j.
Proof. intros P k ms j H F. apply find_In in F. rewrite Forall_forall in H. exact (H _ F). Qed.

(** Ids read from any text. *)
Lemma hex_val_range : forall c d, hex_val c = Some d -> 0 <= d < 16.
Proof.
  intros c d. unfold hex_val. set (n := Z.of_nat _). intro H.
  destruct ((48 <=? n) && (n <=? 57)) eqn:E1.
  - apply andb_true_iff in E1. destruct E1 as [A B]. apply Z.leb_le in A. apply Z.leb_le in B. injection H as <-. lia.
  - destruct ((97 <=? n) && (n <=? 102)) eqn:E2.
    + apply andb_true_iff in E2. destruct E2 as [A B]. apply Z.leb_le in A. apply Z.leb_le in B. injection H as <-. lia.
    + destruct ((65 <=? n) && (n <=? 70)) eqn:E3; [|discriminate].
      apply andb_true_iff in E3. destruct E3 as [A B]. apply Z.leb_le in A. apply Z.leb_le in B. injection H as <-. lia.
Qed.
Lemma hex_num_range : forall s acc x, 0 <= acc -> hex_num acc s = Some x ->
  0 <= x < (acc + 1) * 16 ^ Z.of_nat (String.length s).
Proof.
  induction s as [|c s IH]; intros acc x A H; cbn [hex_num String.length] in *.
  - injection H as <-. change (16 ^ Z.of_nat 0) with 1. lia.
  - destruct (hex_val c) as [d|] eqn:E; [|discriminate]. apply hex_val_range in E.
    destruct (_ <? acc); [discriminate|]. apply IH in H; [|lia].
    rewrite Nat2Z.inj_succ, Z.pow_succ_r by lia.
    assert (0 < 16 ^ Z.of_nat (String.length s)) by (apply Z.pow_pos_nonneg; lia). nia.
Qed.
Lemma substring_length : forall s p w, (String.length (substring p w s) <= w)%nat.
Proof.
  induction s as [|c s IH]; intros [|p] [|w]; cbn [substring String.length]; try lia.
  - specialize (IH O w). lia.
  - apply IH.
  - apply IH.
Qed.
Lemma field_range : forall s p w x, hex_num 0 (substring p w s) = Some x -> 0 <= x < 16 ^ Z.of_nat w.
Proof.
  intros s p w x H. apply hex_num_range in H; [|lia]. rewrite Z.mul_1_l in H.
  pose proof (substring_length s p w). 
  assert (16 ^ Z.of_nat (String.length (substring p w s)) <= 16 ^ Z.of_nat w) by (apply Z.pow_le_mono_r; lia). lia.
Qed.
Definition width (n : nat) : nat := match n with O => 8 | 1 | 2 => 4 | _ => 2 end%nat.
Definition id_like (i : iid) : Prop := length i = 11%nat /\ forall n, 0 <= nth n i 0 < 16 ^ Z.of_nat (width n).
Lemma id_like_is_id : forall i, id_like i -> is_id i.
Proof.
  intros i [L H]. destruct i as [|a [|b [|c d]]]; try discriminate L. exists a, b, c, d.
  split; [reflexivity|]. split; [cbn in L; lia|]. split; [exact (H O)|]. split; [exact (H 1%nat)|]. split; [exact (H 2%nat)|].
  apply Forall_forall. intros x I. apply (In_nth _ _ 0) in I. destruct I as (n & _ & <-). exact (H (S (S (S n)))).
Qed.
Lemma set_nth_like : forall i n x, id_like i -> 0 <= x < 16 ^ Z.of_nat (width n) -> id_like (set_nth n x i).
Proof.
  intros i n x [L H] X. split.
  - rewrite <- L. clear L H X. revert n. induction i as [|y i IH]; intros [|n]; cbn [set_nth length]; auto.
  - intro m. assert (E : nth m (set_nth n x i) 0 = nth m i 0 \/ (m = n /\ nth m (set_nth n x i) 0 = x)).
    { clear. revert n m. induction i as [|y i IH]; intros [|n] [|m]; cbn [set_nth nth]; auto.
      destruct (IH n m) as [E|[-> E]]; auto. }
    destruct E as [E|[-> E]]; rewrite E; auto.
Qed.
Lemma id_run_like : forall steps s i, id_like i -> Forall (fun st => match st with SField n _ w => w = width n | _ => True end) steps ->
  id_like (id_run steps s i).
Proof.
  induction steps as [|st steps IH]; intros s i H F; [exact H|]. inversion_clear F. destruct st as [n p w|p]; cbn [id_run].
  - destruct (hex_num 0 (substring p w s)) as [x|] eqn:E; [|exact H]. apply IH; [|exact H1].
    apply set_nth_like; [exact H|]. subst w. eapply field_range. exact E.
  - destruct (char_is _ _ _); [apply IH; assumption|exact H].
Qed.
Lemma unknown_like : id_like unknown_id.
Proof. split; [reflexivity|]. intro n. do 11 (destruct n as [|n]; [cbn; lia|]). destruct n; cbn; lia. Qed.
Lemma id_parse_is_id : forall s, is_id (id_parse s unknown_id).
Proof.
  intro s. apply id_like_is_id. unfold id_parse. destruct (negb _); [exact unknown_like|]. destruct (_ && _); [|exact unknown_like].
  apply id_run_like; [exact unknown_like|]. unfold id_steps. repeat (constructor; [cbn; reflexivity || exact Logic.I|]). constructor.
Qed.
Lemma read_id_is_id : forall k ms i, read_id k ms = Some i -> is_id i.
Proof.
  intros k ms i H. unfold read_id in H. destruct (find k ms) as [[]|]; try discriminate; injection H as <-;
    [apply id_parse_is_id|apply id_like_is_id; exact unknown_like].
Qed.

(** Dictionaries being built. *)
Definition entries_ok (ex : Z -> Prop) (tm : manager) (l : list (value * value)) : Prop :=
  Forall (object ex tm) (map fst l) /\ Forall (object ex tm) (map snd l) /\
  ~ In VNull (map fst l) /\ ForallOrdPairs different_keys (map fst l).
Lemma key_refl : forall a, by_value a -> key_eqb a a = true.
Proof.
  intros a H. destruct a; try destruct H; cbn [key_eqb].
  - destruct b; reflexivity.
  - apply Z.eqb_refl.
  - apply Z.eqb_refl.
  - rewrite Nat.eqb_refl, String.eqb_refl. reflexivity.
  - rewrite !Z.eqb_refl. reflexivity.
  - rewrite !String.eqb_refl. reflexivity.
Qed.
Lemma dict_put_keys : forall k v l, map fst (dict_put k v l) = map fst l \/
  (map fst (dict_put k v l) = map fst l ++ [k] /\ forall a, In a (map fst l) -> key_eqb a k = false).
Proof.
  intros k v l. induction l as [|[a x] l IH]; [right; split; [reflexivity|intros a []]|].
  cbn [dict_put]. destruct (key_eqb a k) eqn:E; [left; reflexivity|]. cbn [map fst]. destruct IH as [IH|[IH N]]; rewrite IH; [left; reflexivity|].
  right. split; [reflexivity|]. intros b [<-|I]; [exact E|apply N; exact I].
Qed.
Lemma dict_put_vals : forall k v l (P : value -> Prop), P v -> Forall P (map snd l) -> Forall P (map snd (dict_put k v l)).
Proof.
  intros k v l P V. induction l as [|[a x] l IH]; intro H; [constructor; [exact V|constructor]|].
  cbn [map snd] in H. inversion_clear H. cbn [dict_put]. destruct (key_eqb a k); cbn [map snd]; constructor; auto.
Qed.
Lemma pairs_snoc : forall (A : Type) (R : A -> A -> Prop) l x, ForallOrdPairs R l -> (forall a, In a l -> R a x) -> ForallOrdPairs R (l ++ [x]).
Proof.
  intros A R l x H. induction H as [|y l F P IH]; intro N; cbn [app].
  - constructor; constructor.
  - constructor; [|apply IH; intros a I; apply N; right; exact I].
    apply Forall_app. split; [exact F|]. constructor; [|constructor]. apply N. left. reflexivity.
Qed.
Lemma dict_set_ok : forall ex tm k v l, object ex tm k -> object ex tm v -> entries_ok ex tm l -> entries_ok ex tm (dict_set k v l).
Proof.
  intros ex tm k v l K V H.
  assert (D : k = VNull \/ dict_set k v l = dict_put k v l /\ k <> VNull)
    by (destruct k; (left; reflexivity) || (right; split; [reflexivity|discriminate])).
  destruct D as [->|[-> N]]; [exact H|]. destruct H as (H1 & H2 & H3 & H4).
  pose proof (dict_put_vals k v l (object ex tm) V H2) as W.
  destruct (dict_put_keys k v l) as [E|[E F]]; unfold entries_ok; rewrite E; [auto|].
  split; [|split; [exact W|split]].
  - apply Forall_app. split; [exact H1|]. constructor; [exact K|constructor].
  - intro I. apply in_app_or in I. destruct I as [I|[I|[]]]; [exact (H3 I)|congruence].
  - apply pairs_snoc; [exact H4|]. intros a I [B ->]. specialize (F k I). rewrite key_refl in F by exact B. discriminate.
Qed.
Lemma entries_app : forall ex tm e l, entries_ok ex tm l -> entries_ok ex (tm ++ e) l.
Proof.
  intros ex tm e l (H1 & H2 & H3 & H4). split; [|split; [|split; assumption]];
    (rewrite Forall_forall in *; intros x I; apply object_app; auto).
Qed.

Section Any.
Variable P : Z -> Prop.
Notation ex := (fun g => g = 0 \/ P g).

Definition grows (tm tm' : manager) : Prop := exists e, tm' = tm ++ e.
Lemma grows_refl : forall tm, grows tm tm.
Proof. intro tm. exists []. rewrite app_nil_r. reflexivity. Qed.
Lemma grows_trans : forall a b c, grows a b -> grows b c -> grows a c.
Proof. intros a b c (e & ->) (f & ->). exists (e ++ f). rewrite app_assoc. reflexivity. Qed.
Lemma grows_object : forall tm tm' v, grows tm tm' -> object ex tm v -> object ex tm' v.
Proof. intros tm tm' v (e & ->) H. apply object_app. exact H. Qed.
Lemma grows_entries : forall tm tm' l, grows tm tm' -> entries_ok ex tm l -> entries_ok ex tm' l.
Proof. intros tm tm' v (e & ->) H. apply entries_app. exact H. Qed.

Definition sound (d : manager -> json -> res * manager) (j : json) : Prop :=
  forall tm, manager_ok tm -> jall P j ->
    grows tm (snd (d tm j)) /\ manager_ok (snd (d tm j)) /\ forall v, fst (d tm j) = Good v -> object ex (snd (d tm j)) v.

Lemma plain_sound : forall d l, (forall j, In j l -> sound d j) -> forall tm, manager_ok tm -> Forall (jall P) l ->
  grows tm (snd (plain_items d tm l)) /\ manager_ok (snd (plain_items d tm l)) /\
  (forall vs, fst (plain_items d tm l) = inr vs -> Forall (object ex (snd (plain_items d tm l))) vs) /\
  (forall v, fst (plain_items d tm l) <> inl (Good v)).
Proof.
  intros d. induction l as [|j l IH]; intros S tm M A; cbn [plain_items fst snd].
  - split; [apply grows_refl|]. split; [exact M|]. split; [intros vs E; injection E as <-; constructor|discriminate].
  - inversion_clear A. destruct (S j (or_introl eq_refl) tm M H) as (G1 & M1 & O1).
    destruct (d tm j) as [r tm1]. cbn [fst snd] in *.
    destruct r as [v| | | |]; try (split; [exact G1|split; [exact M1|split; intros; discriminate]]).
    assert (S' : forall j, In j l -> sound d j) by (intros j' I; apply S; right; exact I).
    destruct (IH S' tm1 M1 H0) as (G2 & M2 & O2 & N2).
    destruct (plain_items d tm1 l) as [r2 tm2]. cbn [fst snd] in *.
    destruct r2 as [e|vs]; cbn [fst snd].
    + split; [exact (grows_trans _ _ _ G1 G2)|]. split; [exact M2|]. split; [discriminate|exact N2].
    + split; [exact (grows_trans _ _ _ G1 G2)|]. split; [exact M2|]. split; [|discriminate].
      intros ws E. injection E as <-. constructor; [|exact (O2 vs eq_refl)]. apply (grows_object _ _ _ G2). exact (O1 v eq_refl).
Qed.
Lemma list_sound : forall d l, (forall j, In j l -> sound d j) -> forall tm, manager_ok tm -> Forall (jall P) l ->
  grows tm (snd (list_items d tm l)) /\ manager_ok (snd (list_items d tm l)) /\
  (forall vs, fst (list_items d tm l) = inr vs -> Forall (object ex (snd (list_items d tm l))) vs) /\
  (forall v, fst (list_items d tm l) <> inl (Good v)).
Proof.
  intros d. induction l as [|j l IH]; intros S tm M A; cbn [list_items fst snd].
  - split; [apply grows_refl|]. split; [exact M|]. split; [intros vs E; injection E as <-; constructor|discriminate].
  - inversion_clear A. destruct (S j (or_introl eq_refl) tm M H) as (G1 & M1 & O1).
    destruct (d tm j) as [r tm1]. cbn [fst snd] in *.
    destruct r as [v| | | |]; try (split; [exact G1|split; [exact M1|split; intros; discriminate]]).
    assert (S' : forall j, In j l -> sound d j) by (intros j' I; apply S; right; exact I).
    destruct (IH S' tm1 M1 H0) as (G2 & M2 & O2 & N2).
    destruct (list_items d tm1 l) as [r2 tm2]. cbn [fst snd] in *.
    destruct r2 as [e|vs]; cbn [fst snd].
    + split; [exact (grows_trans _ _ _ G1 G2)|]. split; [exact M2|]. split; [discriminate|exact N2].
    + split; [exact (grows_trans _ _ _ G1 G2)|]. split; [exact M2|]. split; [|discriminate].
      intros ws E. injection E as <-. constructor; [|exact (O2 vs eq_refl)]. apply (grows_object _ _ _ G2). exact (O1 v eq_refl).
Qed.

Lemma member_sound : forall d k ms, (forall k j, In (k, j) ms -> sound d j) -> forall tm, manager_ok tm ->
  Forall (fun p => jall P (snd p)) ms ->
  grows tm (snd (read_object d k tm ms)) /\ manager_ok (snd (read_object d k tm ms)) /\
  forall v, fst (read_object d k tm ms) = Good v -> object ex (snd (read_object d k tm ms)) v.
Proof.
  intros d k ms S tm M A. unfold read_object. destruct (find k ms) as [j|] eqn:F; cbn [fst snd].
  - apply (S k j (find_In _ _ _ _ F) tm M). exact (find_jall _ _ _ _ A F).
  - split; [apply grows_refl|]. split; [exact M|discriminate].
Qed.

Lemma dict_sound : forall d l, (forall ms k j, In (JObj ms) l -> In (k, j) ms -> sound d j) ->
  forall tm acc, manager_ok tm -> Forall (jall P) l -> entries_ok ex tm acc ->
  grows tm (snd (dict_items d tm acc l)) /\ manager_ok (snd (dict_items d tm acc l)) /\
  (forall kvs, fst (dict_items d tm acc l) = inr kvs -> entries_ok ex (snd (dict_items d tm acc l)) kvs) /\
  (forall v, fst (dict_items d tm acc l) <> inl (Good v)).
Proof.
  intros d. induction l as [|j l IH]; intros S tm acc M A E; cbn [dict_items fst snd].
  - split; [apply grows_refl|]. split; [exact M|]. split; [intros kvs X; injection X as <-; exact E|discriminate].
  - inversion_clear A.
    destruct j as [| | | | | |ms]; cbn [fst snd]; try (split; [apply grows_refl|split; [exact M|split; intros; discriminate]]).
    inversion H as [| | | | | |ms0 AM]; subst.
    assert (SM : forall k j, In (k, j) ms -> sound d j) by (intros k j I; apply (S ms k j); [left; reflexivity|exact I]).
    destruct (member_sound d "key" ms SM tm M AM) as (G1 & M1 & O1).
    destruct (read_object d "key" tm ms) as [rk tm1]. cbn [fst snd] in *.
    destruct rk as [k| | | |]; try (split; [exact G1|split; [exact M1|split; intros; discriminate]]).
    destruct (member_sound d "value" ms SM tm1 M1 AM) as (G2 & M2 & O2).
    destruct (read_object d "value" tm1 ms) as [rv tm2]. cbn [fst snd] in *.
    destruct rv as [v| | | |]; try (split; [exact (grows_trans _ _ _ G1 G2)|split; [exact M2|split; intros; discriminate]]).
    assert (G12 : grows tm tm2) by exact (grows_trans _ _ _ G1 G2).
    assert (S' : forall ms k j, In (JObj ms) l -> In (k, j) ms -> sound d j) by (intros ms' k' j' I; apply S; right; exact I).
    destruct (IH S' tm2 (dict_set k v acc) M2 H0) as (G3 & M3 & O3 & N3).
    { apply dict_set_ok; [apply (grows_object _ _ _ G2); exact (O1 k eq_refl)|exact (O2 v eq_refl)|exact (grows_entries _ _ _ G12 E)]. }
    split; [exact (grows_trans _ _ _ G12 G3)|]. split; [exact M3|]. split; [exact O3|exact N3].
Qed.

(** The fields of a structure. *)
Lemma named_keys : forall items fields, named items = Some fields -> map fst items = map VStr (map fst fields) /\ map snd items = map snd fields.
Proof.
  induction items as [|[k v] items IH]; intros fields H; cbn [named] in H.
  - injection H as <-. split; reflexivity.
  - destruct k; try discriminate. destruct (named items) as [r|] eqn:E; [|discriminate]. injection H as <-.
    destruct (IH r eq_refl) as [A B]. cbn [map fst snd]. rewrite A, B. split; reflexivity.
Qed.
Lemma named_ok : forall tm items fields, entries_ok ex tm items -> named items = Some fields ->
  Forall clean (map fst fields) /\ NoDup (map fst fields) /\ Forall (object ex tm) (map snd fields).
Proof.
  intros tm items fields (H1 & H2 & H3 & H4) N. apply named_keys in N. destruct N as [K V].
  rewrite K in H1, H4. rewrite V in H2. split; [|split; [|exact H2]].
  - rewrite Forall_map in H1. rewrite Forall_forall in *. intros x I. specialize (H1 x I). inversion_clear H1. assumption.
  - apply (pairs_map string value VStr) in H4. clear -H4. induction H4 as [|x l F _ IH]; constructor; [|exact IH].
    intro I. rewrite Forall_forall in F. apply (F x I). split; [exact Logic.I|reflexivity].
Qed.

Lemma NoDup_app_intro_single : forall (A : Type) (l : list A) x, NoDup l -> ~ In x l -> NoDup (l ++ [x]).
Proof.
  intros A l x H N. induction H as [|y l M H IH]; cbn [app]; [constructor; [intros []|constructor]|].
  constructor.
  - intro I. apply in_app_or in I. destruct I as [I|[I|[]]]; [exact (M I)|]. subst y. apply N. left. reflexivity.
  - apply IH. intro I. apply N. right. exact I.
Qed.
Lemma find_app_some : forall A k (l e : list (string * A)) x, find k l = Some x -> find k (l ++ e) = Some x.
Proof. intros A k l e x H. apply find_first. apply first_app. apply find_first. exact H. Qed.

Lemma fill_ok : forall tfs fields fields', fill tfs fields = Some fields' -> NoDup (map fst fields) ->
  (exists e, fields' = fields ++ e /\ Forall (fun p => snd p = VNull /\ In (fst p) (map fst tfs)) e) /\
  NoDup (map fst fields') /\
  (forall x t, In (x, t) tfs -> exists v, find x fields' = Some v /\ fits t v).
Proof.
  induction tfs as [|[n t] tfs IH]; intros fields fields' H N; cbn [fill] in H.
  - injection H as <-. split; [exists []; rewrite app_nil_r; split; [reflexivity|constructor]|]. split; [exact N|intros x t []].
  - destruct (find n fields) as [v|] eqn:F.
    + destruct (field_ok t v) eqn:K; [|discriminate]. destruct (IH _ _ H N) as ((e & -> & E) & N' & C).
      split; [|split; [exact N'|]].
      * exists e. split; [reflexivity|]. rewrite Forall_forall in *. intros p I. destruct (E p I) as [A B]. split; [exact A|right; exact B].
      * intros x u [I|I]; [|apply C; exact I]. injection I as -> ->. exists v. split; [apply find_app_some; exact F|].
        apply field_ok_fits. exact K.
    + assert (N1 : NoDup (map fst (fields ++ [(n, VNull)]))).
      { rewrite map_app. cbn [map fst]. apply NoDup_app_intro_single; [exact N|]. apply find_none. exact F. }
      destruct (IH _ _ H N1) as ((e & -> & E) & N' & C).
      split; [|split; [exact N'|]].
      * exists ((n, VNull) :: e). rewrite <- app_assoc. split; [reflexivity|]. constructor.
        -- split; [reflexivity|left; reflexivity].
        -- rewrite Forall_forall in *. intros p I. destruct (E p I) as [A B]. split; [exact A|right; exact B].
      * intros x u [I|I]; [|apply C; exact I]. injection I as -> ->. exists VNull. split; [|constructor].
        apply find_app_some. apply find_first. exists fields, []. split; [reflexivity|apply find_none; exact F].
Qed.

Lemma fits_type_of : forall v, fits (type_of v) v.
Proof. intro v. destruct v; cbn [type_of core_type]; constructor; constructor. Qed.

Lemma struct_sound : forall tn ki vi kvs tm, manager_ok tm -> clean tn -> is_id ki -> is_id vi -> entries_ok ex tm kvs ->
  grows tm (snd (create_struct tn ki vi kvs tm)) /\ manager_ok (snd (create_struct tn ki vi kvs tm)) /\
  forall v, fst (create_struct tn ki vi kvs tm) = Good v -> object ex (snd (create_struct tn ki vi kvs tm)) v.
Proof.
  intros tn ki vi kvs tm M C KI VI E. unfold create_struct.
  destruct (find tn tm) as [[c|n vs|n tfs]|] eqn:F;
    try (cbn [fst snd]; split; [apply grows_refl|split; [exact M|discriminate]]).
  - destruct (named kvs) as [fields|] eqn:N; [|cbn [fst snd]; split; [apply grows_refl|split; [exact M|discriminate]]].
    destruct (forallb _ fields) eqn:A; [|cbn [fst snd]; split; [apply grows_refl|split; [exact M|discriminate]]].
    destruct (fill tfs fields) as [fields'|] eqn:L; [|cbn [fst snd]; split; [apply grows_refl|split; [exact M|discriminate]]].
    cbn [fst snd]. split; [apply grows_refl|]. split; [exact M|]. intros v X. injection X as <-.
    destruct (named_ok tm kvs fields E N) as (N1 & N2 & N3).
    destruct (fill_ok tfs fields fields' L N2) as ((e & -> & EX) & ND & CH).
    pose proof (find_In _ _ _ _ F) as IN. unfold manager_ok in M. rewrite Forall_forall in M. specialize (M _ IN).
    cbn [own_name snd fst] in M. destruct M as [-> CL].
    rewrite Forall_forall in CL, EX.
    constructor; try assumption.
    + apply find_first. exact F.
    + rewrite map_app. apply Forall_app. split; [exact N1|]. apply Forall_forall. intros x I. apply in_map_iff in I.
      destruct I as (p & <- & I). apply CL. apply (EX p I).
    + intro x. split; intro I.
      * rewrite map_app in I. apply in_app_or in I. destruct I as [I|I].
        -- apply in_map_iff in I. destruct I as (p & <- & I). rewrite forallb_forall in A. specialize (A p I).
           apply existsb_exists in A. destruct A as (q & Iq & Eq). apply String.eqb_eq in Eq. rewrite Eq. apply in_map. exact Iq.
        -- apply in_map_iff in I. destruct I as (p & <- & I). apply (EX p I).
      * apply in_map_iff in I. destruct I as ([y t] & <- & I). cbn [fst]. destruct (CH y t I) as (w & Fw & _).
        apply find_In in Fw. apply (in_map fst) in Fw. exact Fw.
    + intros x t w I J. destruct (CH x t I) as (w' & Fw & FT). apply find_nodup in J; [|exact ND]. congruence.
    + rewrite map_app. apply Forall_app. split; [exact N3|]. apply Forall_forall. intros x I. apply in_map_iff in I.
      destruct I as (p & <- & I). destruct (EX p I) as [-> _]. constructor.
  - destruct (named kvs) as [fields|] eqn:N; [|cbn [fst snd]; split; [apply grows_refl|split; [exact M|discriminate]]].
    destruct (_ && _) eqn:A; [|cbn [fst snd]; split; [apply grows_refl|split; [exact M|discriminate]]].
    cbn [fst snd]. destruct (named_ok tm kvs fields E N) as (N1 & N2 & N3).
    assert (MF : map fst (map (fun f => (fst f, type_of (snd f))) fields) = map fst fields) by (rewrite map_map; reflexivity).
    split; [eexists; reflexivity|]. split.
    + apply Forall_app. split; [exact M|]. constructor; [|constructor]. cbn [own_name snd fst]. split; [reflexivity|]. rewrite MF. exact N1.
    + intros v X. injection X as <-. constructor; try assumption.
      * exists tm, []. split; [reflexivity|apply find_none; exact F].
      * intro x. rewrite MF. tauto.
      * intros x t w I J. apply in_map_iff in I. destruct I as ([y u] & X & I). cbn [fst snd] in X. injection X as -> <-.
        apply find_nodup in I; [|exact N2]. apply find_nodup in J; [|exact N2]. assert (u = w) by congruence. subst w. apply fits_type_of.
      * rewrite Forall_forall in *. intros x I. apply object_app. apply N3. exact I.
Qed.

Lemma enum_sound : forall tn s tm v, manager_ok tm -> clean tn -> clean s -> create_enum tn s tm = Good v -> object ex tm v.
Proof.
  intros tn s tm v M C S H. unfold create_enum in H. destruct (find tn tm) as [[c|n vs|n tfs]|] eqn:F; try discriminate.
  destruct (_ && _) eqn:A; [|discriminate]. injection H as <-. apply andb_true_iff in A. destruct A as [A B].
  apply existsb_exists in A. destruct A as (x & I & X). apply String.eqb_eq in X. subst x.
  pose proof (find_In _ _ _ _ F) as IN. unfold manager_ok in M. rewrite Forall_forall in M. specialize (M _ IN).
  cbn [own_name snd fst] in M. subst n. constructor; try assumption.
  - apply find_first. exact F.
  - intros ->. discriminate B.
Qed.

Lemma deser_sound : forall n j, sound (deser n) j.
Proof.
  induction n as [|n IH]; intros j tm M A.
  - cbn [deser fst snd]. split; [apply grows_refl|]. split; [exact M|discriminate].
  - cbn [deser]. destruct j as [|b|z|f|s|l|ms].
    1,2,3,5: cbn [fst snd]; split; [apply grows_refl|]; split; [exact M|]; intros v X; injection X as <-; constructor.
    + apply clean_cstr.
    + cbn [fst snd]. split; [apply grows_refl|]. split; [exact M|]. intros v X. injection X as <-. constructor.
      inversion_clear A. right. assumption.
    + inversion_clear A. destruct (plain_sound (deser n) l (fun j _ => IH j) tm M H) as (G & M' & O & N).
      destruct (plain_items (deser n) tm l) as [[e|vs] tm']; cbn [fst snd] in *.
      * split; [exact G|]. split; [exact M'|]. intros v X. exfalso. subst e. exact (N v eq_refl).
      * split; [exact G|]. split; [exact M'|]. intros v X. injection X as <-. constructor; [|exact (O vs eq_refl)].
        apply id_like_is_id. exact unknown_like.
    + assert (AM : Forall (fun p => jall P (snd p)) ms) by (inversion_clear A; assumption).
      assert (Z : forall r, (forall v, r <> Good v) -> grows tm (snd (r, tm)) /\ manager_ok (snd (r, tm)) /\
                  forall v, fst (r, tm) = Good v -> object ex (snd (r, tm)) v).
      { intros r N. cbn [fst snd]. split; [apply grows_refl|]. split; [exact M|]. intros v X. destruct (N v X). }
      destruct (find "__type" ms) as [jt|]; [|apply Z; discriminate].
      destruct jt as [| | | |id| |]; try (apply Z; discriminate). cbv zeta.
      destruct (String.eqb (cstr id) "List").
      { destruct (read_id "itemIntfID" ms) as [i|] eqn:RI; [|apply Z; discriminate].
        destruct (find "values" ms) as [[| | | | |l|]|] eqn:FV; try (apply Z; discriminate).
        pose proof (find_jall _ _ _ _ AM FV) as AL. inversion_clear AL.
        destruct (list_sound (deser n) l (fun j _ => IH j) tm M H) as (G & M' & O & N).
        destruct (list_items (deser n) tm l) as [[e|vs] tm']; cbn [fst snd] in *.
        - split; [exact G|]. split; [exact M'|]. intros v X. exfalso. subst e. exact (N v eq_refl).
        - split; [exact G|]. split; [exact M'|]. intros v X. injection X as <-. constructor; [|exact (O vs eq_refl)].
          exact (read_id_is_id _ _ _ RI). }
      destruct (String.eqb (cstr id) "Dict").
      { destruct (read_id "keyIntfID" ms) as [ki|] eqn:RK; [|apply Z; discriminate].
        destruct (read_id "valueIntfID" ms) as [vi|] eqn:RV; [|apply Z; discriminate].
        destruct (find "values" ms) as [[| | | | |l|]|] eqn:FV; try (apply Z; discriminate).
        pose proof (find_jall _ _ _ _ AM FV) as AL. inversion_clear AL.
        assert (E0 : entries_ok ex tm []) by (split; [constructor|split; [constructor|split; [intros []|constructor]]]).
        destruct (dict_sound (deser n) l (fun ms k j _ _ => IH j) tm [] M H E0) as (G & M' & O & N).
        destruct (dict_items (deser n) tm [] l) as [[e|kvs] tm']; cbn [fst snd] in *.
        - split; [exact G|]. split; [exact M'|]. intros v X. exfalso. subst e. exact (N v eq_refl).
        - split; [exact G|]. split; [exact M'|]. intros v X. injection X as <-. destruct (O kvs eq_refl) as (O1 & O2 & O3 & O4).
          constructor; try assumption; [exact (read_id_is_id _ _ _ RK)|exact (read_id_is_id _ _ _ RV)]. }
      destruct (String.eqb (cstr id) "Ratio").
      { destruct (read_int "num" ms) as [a|]; [|apply Z; discriminate]. destruct (read_int "den" ms) as [b|]; [|apply Z; discriminate].
        destruct (Z.eqb_spec b 0) as [E|E]; [apply Z; discriminate|].
        cbn [fst snd]. split; [apply grows_refl|]. split; [exact M|]. intros v X. injection X as <-. constructor. exact E. }
      destruct (String.eqb (cstr id) "ComplexNumber").
      { assert (RF : forall k a, read_float k ms = Some a -> P a).
        { intros k a R. unfold read_float in R. destruct (find k ms) as [[]|] eqn:FK; try discriminate. injection R as ->.
          pose proof (find_jall _ _ _ _ AM FK) as AF. inversion_clear AF. assumption. }
        destruct (read_float "real" ms) as [a|] eqn:RA; cbn [fst snd]; (split; [apply grows_refl|]); (split; [exact M|]);
          intros v X; injection X as <-; constructor; auto; [right; exact (RF _ _ RA)|].
        destruct (read_float "imaginary" ms) as [b|] eqn:RB; [right; exact (RF _ _ RB)|left; reflexivity]. }
      destruct (String.eqb (cstr id) "Enumeration").
      { destruct (read_string "typeName" ms) as [tn|] eqn:RT; [|apply Z; discriminate].
        destruct (read_string "value" ms) as [s|] eqn:RS; [|apply Z; discriminate].
        assert (CL : forall k a, read_string k ms = Some a -> clean a).
        { intros k a R. unfold read_string in R. destruct (find k ms) as [[]|]; try discriminate. injection R as <-. apply clean_cstr. }
        cbn [fst snd]. split; [apply grows_refl|]. split; [exact M|]. intros v X.
        exact (enum_sound tn s tm v M (CL _ _ RT) (CL _ _ RS) X). }
      destruct (String.eqb (cstr id) "Struct"); [|apply Z; discriminate].
      destruct (read_string "typeName" ms) as [tn|] eqn:RT; [|apply Z; discriminate].
      assert (CT : clean tn).
      { unfold read_string in RT. destruct (find "typeName" ms) as [[]|]; try discriminate. injection RT as <-. apply clean_cstr. }
      destruct (member_sound (deser n) "fields" ms (fun k j _ => IH j) tm M AM) as (G & M' & O).
      destruct (read_object (deser n) "fields" tm ms) as [r tm']. cbn [fst snd] in *.
      destruct r as [v| | | |]; try (cbn [fst snd]; split; [exact G|split; [exact M'|discriminate]]).
      specialize (O v eq_refl).
      destruct v as [| | | | | |ki vi kvs| | | |]; try (cbn [fst snd]; split; [exact G|split; [exact M'|discriminate]]).
      inversion O as [| | | | | |i0 j0 l0 HI HJ HK HV HN HD E| | | |]; subst.
      destruct (struct_sound tn ki vi kvs tm' M' CT HI HJ (conj HK (conj HV (conj HN HD)))) as (G2 & M2 & O2).
      split; [exact (grows_trans _ _ _ G G2)|]. split; [exact M2|exact O2].
Qed.
End Any.

Lemma any_sound : forall rt tm es, manager_ok tm ->
  (exists e, snd (deserialize rt tm es) = tm ++ e) /\ manager_ok (snd (deserialize rt tm es)) /\
  forall v, fst (deserialize rt tm es) = Good v -> object (fun g => g = 0 \/ exists f, g = rt f) (snd (deserialize rt tm es)) v.
Proof.
  intros rt tm es M. unfold deserialize. destruct (parse rt es) as [j|] eqn:E.
  - apply (deser_sound (fun g => exists f, g = rt f)); [exact M|].
    unfold parse in E. destruct (parse_value rt _ es) as [[j' r]|] eqn:E2; [|discriminate].
    destruct r; [|discriminate]. injection E as <-. destruct (parse_floats rt (S (length es))) as (H & _). exact (H _ _ _ E2).
  - cbn [fst snd]. split; [exists []; rewrite app_nil_r; reflexivity|]. split; [exact M|discriminate].
Qed.

(** Which outcomes cannot happen. *)
Lemma plain_no : forall d b l, (forall v, b <> Good v) -> (forall j tm, In j l -> fst (d tm j) <> b) ->
  forall tm, fst (plain_items d tm l) <> inl b.
Proof.
  intros d b l B. induction l as [|j l IH]; intros H tm; cbn [plain_items]; [discriminate|].
  pose proof (H j tm (or_introl eq_refl)) as Hj. destruct (d tm j) as [r tm1]. cbn [fst] in Hj.
  destruct r; try (cbn [fst]; congruence).
  assert (IH' := IH (fun j' tm' I => H j' tm' (or_intror I)) tm1).
  destruct (plain_items d tm1 l) as [[e|vs] tm2]; cbn [fst] in *; [exact IH'|discriminate].
Qed.
Lemma list_no : forall d b l, (forall v, b <> Good v) -> b <> Throws -> (forall j tm, In j l -> fst (d tm j) <> b) ->
  forall tm, fst (list_items d tm l) <> inl b.
Proof.
  intros d b l B T. induction l as [|j l IH]; intros H tm; cbn [list_items]; [discriminate|].
  pose proof (H j tm (or_introl eq_refl)) as Hj. destruct (d tm j) as [r tm1]. cbn [fst] in Hj.
  destruct r; try (cbn [fst thrown]; congruence).
  assert (IH' := IH (fun j' tm' I => H j' tm' (or_intror I)) tm1).
  destruct (list_items d tm1 l) as [[e|vs] tm2]; cbn [fst] in *; [exact IH'|discriminate].
Qed.
Lemma member_no : forall d b k ms, b <> Fail -> (forall k j tm, In (k, j) ms -> fst (d tm j) <> b) -> forall tm, fst (read_object d k tm ms) <> b.
Proof.
  intros d b k ms F H tm. unfold read_object. destruct (find k ms) as [j|] eqn:E; [|cbn [fst]; congruence].
  apply (H k). exact (find_In _ _ _ _ E).
Qed.
Lemma dict_no : forall d b l, (forall v, b <> Good v) -> b <> Fail -> (b = Crash -> ~ In JNull l) ->
  (forall ms k j tm, In (JObj ms) l -> In (k, j) ms -> fst (d tm j) <> b) ->
  forall tm acc, fst (dict_items d tm acc l) <> inl b.
Proof.
  intros d b l B F. induction l as [|j l IH]; intros C H tm acc; cbn [dict_items]; [discriminate|].
  destruct j as [| | | | | |ms]; try (cbn [fst]; congruence).
  - cbn [fst]. intro E. injection E as E. apply (C (eq_sym E)). left. reflexivity.
  - pose proof (member_no d b "key" ms F (fun k j tm I => H ms k j tm (or_introl eq_refl) I) tm) as Hk.
    destruct (read_object d "key" tm ms) as [r tm1]. cbn [fst] in Hk. destruct r; try (cbn [fst]; congruence).
    pose proof (member_no d b "value" ms F (fun k j tm I => H ms k j tm (or_introl eq_refl) I) tm1) as Hv.
    destruct (read_object d "value" tm1 ms) as [r tm2]. cbn [fst] in Hv. destruct r; try (cbn [fst]; congruence).
    apply IH.
    + intros X I. apply (C X). right. exact I.
    + intros ms' k j tm' I. apply H. right. exact I.
Qed.
Lemma struct_no : forall b tn ki vi kvs tm, b <> Fail -> (forall v, b <> Good v) -> fst (create_struct tn ki vi kvs tm) <> b.
Proof.
  intros b tn ki vi kvs tm F B. unfold create_struct.
  destruct (find tn tm) as [[c|n vs|n tfs]|]; cbn [fst]; try congruence;
    (destruct (named kvs); cbn [fst]; try congruence).
  - destruct (forallb _ _); cbn [fst]; try congruence. destruct (fill _ _); cbn [fst]; congruence.
  - destruct (_ && _); cbn [fst]; congruence.
Qed.
Lemma enum_no : forall b tn s tm, b <> Fail -> (forall v, b <> Good v) -> create_enum tn s tm <> b.
Proof.
  intros b tn s tm F B. unfold create_enum. destruct (find tn tm) as [[c|n vs|n tfs]|]; try congruence.
  destruct (_ && _); congruence.
Qed.
Lemma prefix_cstr : forall s, String.prefix (cstr s) s = true.
Proof.
  induction s as [|c s IH]; [reflexivity|]. cbn [cstr]. destruct (Ascii.eqb c zero); [reflexivity|].
  cbn [String.prefix]. destruct (ascii_dec c c); [exact IH|congruence].
Qed.

Lemma deser_no : forall b, b = NoFuel \/ b = Crash -> forall n j, (b = NoFuel -> (depth j < n)%nat) -> (b = Crash -> dicts_ok j) ->
  forall tm, fst (deser n tm j) <> b.
Proof.
  intros b HB. assert (B : forall v, b <> Good v) by (destruct HB; subst; discriminate).
  assert (F : b <> Fail) by (destruct HB; subst; discriminate). assert (T : b <> Throws) by (destruct HB; subst; discriminate).
  induction n as [|n IH]; intros j D K tm.
  - cbn [deser fst]. intro E. symmetry in E. specialize (D E). lia.
  - assert (G : forall v t, fst (Good v, t : manager) <> b) by (intros v t E; symmetry in E; exact (B v E)).
    cbn [deser]. destruct j as [|x|z|f|s|l|ms]; try apply G.
    + assert (H : forall j tm, In j l -> fst (deser n tm j) <> b).
      { intros j tm' I. apply IH.
        - intro E. specialize (D E). pose proof (depth_arr _ _ I). lia.
        - intro E. specialize (K E). inversion_clear K. rewrite Forall_forall in H. exact (H j I). }
      pose proof (plain_no (deser n) b l B H tm) as R. destruct (plain_items (deser n) tm l) as [[e|vs] tm']; cbn [fst] in *; congruence.
    + assert (H : forall k j tm, In (k, j) ms -> fst (deser n tm j) <> b).
      { intros k j tm' I. apply IH.
        - intro E. specialize (D E). pose proof (depth_obj _ _ _ I). lia.
        - intro E. specialize (K E). inversion_clear K. rewrite Forall_forall in H. apply (H j).
          apply (in_map snd) in I. exact I. }
      (* elements of a member list *)
      assert (HL : forall l, find "values" ms = Some (JArr l) -> forall j tm, In j l -> fst (deser n tm j) <> b).
      { intros l FV j tm' I. apply find_In in FV. apply IH.
        - intro E. specialize (D E). pose proof (depth_obj _ _ _ FV). pose proof (depth_arr _ _ I). lia.
        - intro E. specialize (K E). inversion_clear K. rewrite Forall_forall in H0. apply (in_map snd) in FV.
          specialize (H0 _ FV). cbn [snd] in H0. inversion_clear H0. rewrite Forall_forall in H2. exact (H2 j I). }
      destruct (find "__type" ms) as [jt|] eqn:FT; [|cbn [fst]; congruence].
      destruct jt as [| | | |id| |]; try (cbn [fst]; congruence). cbv zeta.
      destruct (String.eqb (cstr id) "List").
      { destruct (read_id "itemIntfID" ms) as [i|]; [|cbn [fst]; congruence].
        destruct (find "values" ms) as [[| | | | |l|]|] eqn:FV; try (cbn [fst]; congruence).
        pose proof (list_no (deser n) b l B T (HL l eq_refl) tm) as R.
        destruct (list_items (deser n) tm l) as [[e|vs] tm']; cbn [fst] in *; congruence. }
      destruct (String.eqb (cstr id) "Dict") eqn:ED.
      { assert (V : b = Crash -> exists items, find "values" ms = Some (JArr items) /\ ~ In JNull items).
        { intro E. specialize (K E). inversion_clear K. apply String.eqb_eq in ED.
          destruct (H1 id) as (items & FI & NI).
          - apply find_first. exact FT.
          - rewrite <- ED. apply prefix_cstr.
          - exists items. split; [apply find_first; exact FI|exact NI]. }
        destruct (read_id "keyIntfID" ms) as [ki|]; [|cbn [fst]; congruence].
        destruct (read_id "valueIntfID" ms) as [vi|]; [|cbn [fst]; congruence].
        destruct (find "values" ms) as [jv|] eqn:FV.
        - destruct jv as [| | | | |l|]; try (cbn [fst]; intro E; symmetry in E; destruct (V E) as (q & Q & _); discriminate).
          assert (R : fst (dict_items (deser n) tm [] l) <> inl b).
          { apply dict_no; try assumption.
            - intro E. destruct (V E) as (q & Q & NQ). injection Q as <-. exact NQ.
            - intros ms' k j tm' I1 I2. apply find_In in FV. apply IH.
              + intro E. specialize (D E). pose proof (depth_obj _ _ _ FV). pose proof (depth_arr _ _ I1). pose proof (depth_obj _ _ _ I2). lia.
              + intro E. specialize (K E). inversion_clear K. rewrite Forall_forall in H0. apply (in_map snd) in FV.
                specialize (H0 _ FV). cbn [snd] in H0. inversion_clear H0. rewrite Forall_forall in H2.
                specialize (H2 _ I1). inversion_clear H2. rewrite Forall_forall in H0. apply (in_map snd) in I2. exact (H0 _ I2). }
          destruct (dict_items (deser n) tm [] l) as [[e|vs] tm']; cbn [fst] in *; congruence.
        - cbn [fst]. intro E. symmetry in E. destruct (V E) as (q & Q & _). discriminate. }
      destruct (String.eqb (cstr id) "Ratio").
      { destruct (read_int "num" ms) as [a|]; [|cbn [fst]; congruence]. destruct (read_int "den" ms) as [c|]; [|cbn [fst]; congruence].
        destruct (c =? 0); cbn [fst]; [congruence|]. apply (G _ tm). }
      destruct (String.eqb (cstr id) "ComplexNumber"); [destruct (read_float "real" ms); apply G|].
      destruct (String.eqb (cstr id) "Enumeration").
      { destruct (read_string "typeName" ms) as [tn|]; [|cbn [fst]; congruence].
        destruct (read_string "value" ms) as [s|]; [|cbn [fst]; congruence]. cbn [fst]. apply enum_no; assumption. }
      destruct (String.eqb (cstr id) "Struct"); [|cbn [fst]; congruence].
      destruct (read_string "typeName" ms) as [tn|]; [|cbn [fst]; congruence].
      pose proof (member_no (deser n) b "fields" ms F H tm) as R.
      destruct (read_object (deser n) "fields" tm ms) as [r tm']. cbn [fst] in R.
      destruct r as [v| | | |]; try (cbn [fst]; congruence).
      destruct v; try (cbn [fst]; congruence). apply struct_no; assumption.
Qed.

Lemma no_fuel : forall rt tm es, fst (deserialize rt tm es) <> NoFuel.
Proof.
  intros rt tm es. unfold deserialize. destruct (parse rt es) as [j|]; [|discriminate].
  apply deser_no; [left; reflexivity|intros _; lia|discriminate].
Qed.
Lemma no_crash : forall rt tm es, (forall j, parse rt es = Some j -> dicts_ok j) -> fst (deserialize rt tm es) <> Crash.
Proof.
  intros rt tm es H. unfold deserialize. destruct (parse rt es) as [j|] eqn:E; [|discriminate].
  apply deser_no; [right; reflexivity|discriminate|intros _; apply H; reflexivity].
Qed.

(** ---- Read, write and read again ---- *)
Lemma object_weaken : forall (e1 e2 : Z -> Prop) tm v, (forall f, e1 f -> e2 f) -> object e1 tm v -> object e2 tm v.
Proof.
  intros e1 e2 tm v W. induction v using value_ind'; intro O.
  - constructor.
  - constructor.
  - constructor.
  - inversion_clear O. constructor; auto.
  - inversion_clear O. constructor; assumption.
  - inversion O as [| | | | |i0 l0 HI HL| | | | |]; subst. constructor; [exact HI|].
    rewrite Forall_forall in *. intros x I. apply H; [exact I|apply HL; exact I].
  - inversion O as [| | | | | |i0 j0 l0 HI HJ HK HV HN HD E| | | |]; subst.
    constructor; try assumption; rewrite Forall_forall in *; intros x I; pose proof I as I'; apply in_map_iff in I; destruct I as (p & <- & I).
    + apply H; [exact I|]. apply HK. apply in_map. exact I.
    + apply H; [exact I|]. apply HV. apply in_map. exact I.
  - inversion_clear O. constructor; assumption.
  - inversion_clear O. constructor; auto.
  - inversion O as [| | | | | | | | |n1 vs0 v0 R CN CV NE IN|]; subst. constructor; try assumption.
  - inversion O as [| | | | | | | | | |n1 fs0 i0 j0 l0 R C HI HJ CL ND IFF FIT OB E]; subst.
    constructor; try assumption.
    rewrite Forall_forall in *; intros x I; apply in_map_iff in I; destruct I as (p & <- & I).
    apply H; [exact I|]. apply OB. apply in_map. exact I.
Qed.
Lemma again : forall rt tm es v tm' version,
  rt 0 = 0 -> (forall f, rt (rt f) = rt f) -> manager_ok tm -> 1 < version ->
  deserialize rt tm es = (Good v, tm') -> deserialize rt tm' (serialize version v) = (Good v, tm').
Proof.
  intros rt tm es v tm' version R0 R M V H. destruct (any_sound rt tm es M) as (_ & _ & O). rewrite H in O. cbn [fst snd] in O.
  rewrite round_trip.
  - unfold kept. destruct (Z.gtb_spec version 1) as [L|L]; [reflexivity|lia].
  - refine (object_weaken _ (fun f => rt f = f) tm' v _ (O v eq_refl)). intros f [->|(g & ->)]; auto.
Qed.

(** ---- A structure of an unknown type ---- *)
Lemma range_b : forall n a b, ((a <=? Z.of_nat n) && (Z.of_nat n <=? b)) = true <-> a <= Z.of_nat n <= b.
Proof. intros. rewrite andb_true_iff, !Z.leb_le. tauto. Qed.
Lemma is_letter_iff : forall c, is_letter c = true <-> name_start c.
Proof.
  intro c. unfold is_letter, name_start, is_upper. cbv zeta. rewrite !orb_true_iff, !range_b, Z.eqb_eq. split; lia.
Qed.
Lemma char_iff : forall c, is_letter c || is_digit c = true <-> name_char c.
Proof.
  intro c. rewrite orb_true_iff, is_letter_iff. unfold name_char, is_digit. cbv zeta. rewrite range_b. split; (intros [A|A]; [left; exact A|right; lia]).
Qed.
Lemma all_chars_iff : forall s, all_chars s = true <-> Forall name_char (list_ascii_of_string s).
Proof.
  induction s as [|c s IH]; cbn [all_chars list_ascii_of_string]; [split; constructor|].
  rewrite andb_true_iff, char_iff, IH. split; [intros [A B]; constructor; assumption|intro H; inversion_clear H; split; assumption].
Qed.
Lemma valid_name_iff : forall s, valid_name s = true <-> identifier s.
Proof.
  intro s. unfold identifier. destruct s as [|c s]; cbn [valid_name list_ascii_of_string].
  - split; [discriminate|]. intros (c & r & E & _). discriminate.
  - rewrite andb_true_iff, is_letter_iff, all_chars_iff. split.
    + intros [A B]. exists c, (list_ascii_of_string s). auto.
    + intros (c' & r & E & A & B). injection E as <- <-. auto.
Qed.
Lemma lower_spec : forall c, (is_upper c /\ nat_of_ascii (lower c) = (nat_of_ascii c + 32)%nat) \/ (~ is_upper c /\ lower c = c).
Proof.
  intro c. unfold lower, is_upper. cbv zeta. destruct ((65 <=? _) && _) eqn:E.
  - apply range_b in E. left. split; [lia|]. rewrite nat_ascii_embedding; lia.
  - right. split; [|reflexivity]. intro H. assert (X : 65 <= Z.of_nat (nat_of_ascii c) <= 90) by lia. apply range_b in X. congruence.
Qed.
Lemma lower_iff : forall s t, lower_str s = t <-> in_lower_case s t.
Proof.
  unfold in_lower_case. induction s as [|c s IH]; intros [|d t]; cbn [lower_str list_ascii_of_string]; split; intro H;
    try discriminate; try (inversion H; fail); try constructor; try reflexivity.
  - injection H as <- H. apply lower_spec.
  - injection H as <- H. apply IH. exact H.
  - inversion_clear H. f_equal; [|apply IH; exact H1].
    destruct (lower_spec c) as [[A B]|[A B]], H0 as [[C D]|[C D]]; try tauto; [|congruence].
    rewrite <- (ascii_nat_embedding (lower c)), <- (ascii_nat_embedding d), B, D. reflexivity.
Qed.
Lemma name_ok_iff : forall s, name_ok s = true <-> identifier s /\ ~ is_reserved s.
Proof.
  intro s. unfold name_ok. rewrite andb_true_iff, valid_name_iff, negb_true_iff.
  assert (X : existsb (String.eqb (lower_str s)) reserved = true <-> is_reserved s).
  { rewrite existsb_exists. unfold is_reserved. split; intros (r & I & H); exists r; (split; [exact I|]).
    - apply String.eqb_eq in H. apply lower_iff. exact H.
    - apply String.eqb_eq. apply lower_iff. exact H. }
  split; intros [A B]; split; try assumption.
  - intro R. apply X in R. congruence.
  - apply not_true_iff_false. intro T. apply X in T. tauto.
Qed.
Lemma type_of_infers : forall v t, type_of v = t <-> infers v t.
Proof.
  intros v t. split.
  - intros <-. destruct v; cbn [type_of core_type]; constructor; try discriminate; constructor.
  - intro H. inversion H as [|c v0 HC N1 N2| |]; subst; try reflexivity. destruct HC; try reflexivity; congruence.
Qed.
Lemma named_back : forall l, named (map (fun p : string * value => (VStr (fst p), snd p)) l) = Some l.
Proof. induction l as [|[k v] l IH]; [reflexivity|]. cbn [map named fst snd]. rewrite IH. reflexivity. Qed.

Lemma unknown_struct : forall rt version tm n fs i j l, 1 < version ->
  unregistered tm n -> clean n -> identifier n -> ~ is_reserved n -> is_id i -> is_id j ->
  Forall clean (map fst l) -> Forall identifier (map fst l) -> NoDup (map fst l) ->
  Forall (object (fun f => rt f = f) tm) (map snd l) ->
  exists fs', Forall2 (fun p t => fst p = fst t /\ infers (snd p) (snd t)) l fs' /\
    deserialize rt tm (serialize version (VStruct n fs i j l)) = (Good (VStruct n fs' i j l), tm ++ [(n, TStruct n fs')]).
Proof.
  intros rt version tm n fs i j l V U C ID NR HI HJ CL IL ND OB.
  exists (map (fun f => (fst f, type_of (snd f))) l). split.
  { clear. induction l as [|[k v] l IH]; cbn [map]; constructor; [|exact IH]. cbn [fst snd]. split; [reflexivity|]. apply type_of_infers. reflexivity. }
  set (D := VDict i j (map (fun p : string * value => (VStr (fst p), snd p)) l)).
  assert (OD : object (fun f => rt f = f) tm D).
  { constructor; try assumption; rewrite !map_map; cbn [fst snd].
    - apply Forall_map. rewrite Forall_map in CL. refine (Forall_impl _ _ CL). intros p Cp. constructor. exact Cp.
    - exact OB.
    - intro I. apply in_map_iff in I. destruct I as (p & E & _). discriminate.
    - rewrite <- map_map with (f := fst) (g := VStr). apply pairs_map. refine (pairs_impl _ _ _ _ _ (nodup_pairs _ ND)).
      intros a b _ _ NE [_ E]. congruence. }
  unfold deserialize. rewrite parse_all.
  assert (TR : tree rt version (VStruct n fs i j l) =
    JObj [("__type"%string, JStr "Struct"); ("typeName"%string, JStr n); ("fields"%string, tree rt version D)]).
  { unfold D. cbn [tree]. rewrite map_map. reflexivity. }
  rewrite TR. set (doc := JObj _).
  assert (DD : (depth (tree rt version D) < depth doc)%nat) by (apply (depth_obj _ "fields"); right; right; left; reflexivity).
  pose proof (back rt version tm D OD (depth doc) DD) as B. unfold kept in B.
  destruct (Z.gtb_spec version 1) as [L|L]; [|lia].
  unfold doc at 2. clearbody doc.
  cbn [deser find String.eqb Ascii.eqb Bool.eqb cstr zero]. unfold read_string, read_object.
  cbn [find String.eqb Ascii.eqb Bool.eqb]. rewrite cstr_clean by exact C. rewrite B. unfold D.
  unfold create_struct. replace (find n tm) with (@None ty) by (symmetry; apply find_none; exact U).
  rewrite named_back.
  assert (A : forallb (fun f : string * value => valid_name (fst f)) l = true).
  { apply forallb_forall. intros p I. apply valid_name_iff. rewrite Forall_forall in IL. apply IL. apply in_map. exact I. }
  rewrite A. replace (name_ok n) with true by (symmetry; apply name_ok_iff; split; assumption). reflexivity.
Qed.
