(** Providers as sequences of writes. *)
From Coq Require Import String Ascii.
From Verif Require Import Base Opts_Model Opts_Spec Opts_Proofs.
Local Open Scope Z_scope.

Definition act := (path * (option opt -> option opt))%type.
Definition doAct (l : dict) (a : act) : dict := upd l (fst a) (snd a).
Definition acts (l : dict) (w : list act) : dict := fold_left doAct w l.
Lemma acts_cons : forall a w l, acts l (a :: w) = acts (doAct l a) w. Proof. reflexivity. Qed.
Lemma acts_app : forall w1 w2 l, acts l (w1 ++ w2) = acts (acts l w1) w2. Proof. intros. apply fold_left_app. Qed.

(** a text *)
Definition wText (v : text) (o : option opt) : option opt :=
  match o with Some child => optionLeaf child v | None => Some (undefinedValue v) end.
Definition wPrim (x : opt) (o : option opt) : option opt :=
  match o with
  | None | Some ONull => Some x
  | Some c => if isNull x || negb (kind_eqb (kindOf c) (kindOf x)) then None else Some x
  end.
Definition wList (l : list opt) (o : option opt) : option opt :=
  match o with None | Some ONull | Some (OList _) => Some (OList l) | _ => None end.
Definition wDict (o : option opt) : option opt :=
  match o with None | Some ONull => Some (ODict []) | _ => None end.

Lemma kind_eqb_eq : forall a b, kind_eqb a b = true <-> a = b.
Proof. intros [[]|] [[]|]; cbn [kind_eqb]; split; intros; try reflexivity; try discriminate. Qed.

Lemma writeValue_acts : forall p l v, writeValue l p v = upd l p (wText v).
Proof.
  induction p as [|k p IH]; intros l v; [ reflexivity | ]. destruct p as [|k' p].
  - cbn [writeValue upd wText]. destruct (lookup l k); reflexivity.
  - rewrite upd_cons. change (writeValue l (k :: k' :: p) v) with
      (match lookup l k with
       | None => assign l k (ODict (writeValue [] (k' :: p) v))
       | Some (ODict d) => assign l k (ODict (writeValue d (k' :: p) v))
       | Some _ => l end).
    rewrite IH. destruct (lookup l k) as [x|]; [ destruct x; try reflexivity; rewrite IH; reflexivity | reflexivity ].
Qed.
Definition textActs (prefix : text) (args : list text) : list act :=
  map (fun p => (splitKey (fst p) prefix, wText (snd p))) (valuesStartingWith args prefix).
Lemma populateFrom_acts : forall args prefix l, populateFrom args prefix l = acts l (textActs prefix args).
Proof.
  intros args prefix l. unfold populateFrom, textActs, acts. generalize (valuesStartingWith args prefix). intros kv. revert l.
  induction kv as [|[k v] kv IH]; intros l; [ reflexivity | ].
  cbn [fold_left map fst snd]. rewrite IH. unfold doAct at 3. cbn [fst snd]. rewrite writeValue_acts. reflexivity.
Qed.

(** documents *)
Section JsonInd.
  Variable P : json -> Prop.
  Hypothesis HP : forall j, (forall l, j <> JArr l) -> (forall l, j <> JObj l) -> P j.
  Hypothesis HA : forall l, Forall P l -> P (JArr l).
  Hypothesis HO : forall l, Forall (fun m => P (snd m)) l -> P (JObj l).
  Fixpoint json_ind2 (j : json) : P j.
  Proof.
    destruct j as [| | | | |l|l]; try (apply HP; intros; discriminate).
    - apply HA. induction l; constructor; auto.
    - apply HO. induction l; constructor; auto.
  Defined.
End JsonInd.

Definition member (l : dict) (m : text * json) : dict :=
  match snd m with
  | JObj _ => assign l (fst m) (handle (snd m) (orDict (current l (fst m))))
  | JArr _ => assign l (fst m) (handle (snd m) (orList (current l (fst m))))
  | v => primitiveMember l (fst m) (primitive v)
  end.
Lemma handle_obj : forall ms l, handle (JObj ms) (ODict l) = ODict (fold_left member ms l).
Proof.
  intros ms l. cbn [handle]. f_equal. revert l. induction ms as [|[k v] ms IH]; intros l; [ reflexivity | ].
  cbn [fold_left]. rewrite IH. destruct v; reflexivity.
Qed.
Lemma handle_obj_other : forall ms o, nodict o -> handle (JObj ms) o = o.
Proof. intros ms o H. destruct o; try reflexivity. exfalso. eapply H. reflexivity. Qed.
Definition element (e : json) : opt := match e with JObj _ => handle e (ODict []) | JArr _ => handle e (OList []) | _ => primitive e end.
Lemma handle_arr : forall els l, handle (JArr els) (OList l) = OList (map element els).
Proof.
  intros els l. reflexivity.
Qed.

Definition under (k : text) (a : act) : act := (k :: fst a, snd a).
Fixpoint flat (j : json) : list act :=
  match j with
  | JObj ms =>
    (fix go (ms : list (text * json)) : list act :=
       match ms with
       | [] => []
       | (k, v) :: r =>
         (match v with
          | JObj _ => ([k], wDict) :: map (under k) (flat v)
          | JArr els => [([k], wList (map element els))]
          | _ => [([k], wPrim (primitive v))]
          end) ++ go r
       end) ms
  | _ => []
  end.
Definition flatMember (m : text * json) : list act :=
  match snd m with
  | JObj _ => ([fst m], wDict) :: map (under (fst m)) (flat (snd m))
  | JArr els => [([fst m], wList (map element els))]
  | v => [([fst m], wPrim (primitive v))]
  end.
Lemma flat_obj : forall ms, flat (JObj ms) = flat_map flatMember ms.
Proof. intros ms. cbn [flat]. induction ms as [|[k v] ms IH]; [ reflexivity | ]. cbn [flat_map]. rewrite <- IH. destruct v; reflexivity. Qed.

Lemma flat_paths : forall j, Forall (fun a => fst a <> []) (flat j).
Proof.
  destruct j as [| | | | |l|l]; try (constructor; fail). rewrite flat_obj. apply Forall_forall. intros a H.
  apply in_flat_map in H. destruct H as ([k v] & _ & H). unfold flatMember in H. cbn [fst snd] in H.
  destruct v; destruct H as [ <- | H ]; try (cbn [fst]; discriminate); try destruct H.
  apply in_map_iff in H. destruct H as (b & <- & _). cbn [under fst]. discriminate.
Qed.
Lemma acts_under : forall k w l d, Forall (fun a => fst a <> []) w -> lookup l k = Some (ODict d) ->
  acts l (map (under k) w) = assign l k (ODict (acts d w)).
Proof.
  intros k. induction w as [|[p f] w IH]; intros l d F L.
  - cbn [map acts fold_left]. symmetry. apply assign_same, L.
  - inversion F as [|? ? F1 F2]; subst. cbn [fst] in F1. cbn [map]. rewrite !acts_cons.
    assert (E : doAct l (under k (p, f)) = assign l k (ODict (upd d p f))).
    { unfold doAct, under. cbn [fst snd]. destruct p as [|k' p]; [ congruence | ]. rewrite upd_cons, L. reflexivity. }
    rewrite E. rewrite (IH _ (upd d p f)); [ | assumption | apply lookup_assign ]. rewrite assign_assign. reflexivity.
Qed.
Lemma acts_under_blocked : forall k w l o, Forall (fun a => fst a <> []) w -> lookup l k = Some o -> nodict o -> acts l (map (under k) w) = l.
Proof.
  intros k. induction w as [|[p f] w IH]; intros l o F L N; [ reflexivity | ].
  inversion F as [|? ? F1 F2]; subst. cbn [fst] in F1. cbn [map]. rewrite !acts_cons.
  assert (E : doAct l (under k (p, f)) = l).
  { unfold doAct, under. cbn [fst snd]. destruct p as [|k' p]; [ congruence | ]. rewrite upd_cons, L. destruct o; try reflexivity. exfalso. eapply N. reflexivity. }
  rewrite E. eapply IH; eauto.
Qed.

Lemma primitiveMember_acts : forall l k x, primitiveMember l k x = upd l [k] (wPrim x).
Proof.
  intros l k x. unfold primitiveMember, current. cbn [upd wPrim]. destruct (lookup l k) as [c|]; [ | reflexivity ].
  destruct c; cbn [isNull negb andb wPrim]; try reflexivity; destruct (isNull x || _)%bool; reflexivity.
Qed.
Lemma flat_handle : forall j l, handle j (ODict l) = ODict (acts l (flat j)).
Proof.
  intros j. induction j using json_ind2.
  - intros l. destruct j as [| | | | |a|a]; try reflexivity. exfalso. eapply H0. reflexivity.
  - intros l0. reflexivity.
  - intros l0. rewrite handle_obj, flat_obj. f_equal. revert l0.
    induction H as [|[k v] ms HV _ IH]; intros l0; [ reflexivity | ].
    cbn [fold_left flat_map]. rewrite acts_app. rewrite IH. f_equal. clear IH. cbn [snd] in HV.
    unfold member, flatMember. cbn [fst snd].
    destruct v as [| | | | |els|ms']; try (rewrite primitiveMember_acts; reflexivity).
    + cbn [acts fold_left]. unfold doAct. cbn [fst snd upd wList]. unfold current.
      destruct (lookup l0 k) as [c|] eqn:L; [ | cbn [orList]; rewrite handle_arr; reflexivity ].
      destruct c; cbn [orList]; try (rewrite handle_arr; reflexivity); cbn [handle]; apply assign_same, L.
    + rewrite acts_cons. unfold doAct. cbn [fst snd upd wDict]. unfold current.
      destruct (lookup l0 k) as [c|] eqn:L.
      * destruct c as [| | | | | |d|]; cbn [orDict wDict];
          try (rewrite handle_obj_other by (intros ?; discriminate); rewrite (assign_same _ _ _ L); symmetry; eapply acts_under_blocked; [ apply flat_paths | exact L | intros ?; discriminate ]).
        -- rewrite HV. rewrite (acts_under k _ _ []); [ rewrite assign_assign; reflexivity | apply flat_paths | apply lookup_assign ].
        -- rewrite HV. symmetry. apply acts_under; [ apply flat_paths | assumption ].
      * cbn [orDict wDict]. rewrite HV. rewrite (acts_under k _ _ []); [ rewrite assign_assign; reflexivity | apply flat_paths | apply lookup_assign ].
Qed.

Definition providerActs (p : provider) : list act :=
  match p with Env e => textActs envPrefix e | Cmd a => textActs cmdPrefix a | Json None => [] | Json (Some j) => flat j end.
Lemma populate_acts : forall p l, populate p l = acts l (providerActs p).
Proof.
  intros [e|a|[j|]] l; cbn [populate providerActs]; try apply populateFrom_acts; [ rewrite flat_handle; reflexivity | reflexivity ].
Qed.

(** ** The writes are good *)
Lemma tryBool_kind : forall v x, tryBool v = Some x -> kindOf x = Some KBool.
Proof. intros v x. unfold tryBool. destruct (text_eqb _ _); [ | destruct (text_eqb _ _) ]; intros H; inversion H; reflexivity. Qed.
Lemma tryInteger_kind : forall v x, tryInteger v = Some x -> kindOf x = Some KInt.
Proof.
  intros v x. unfold tryInteger. destruct (sign _) as [s l]. destruct (digits l 0 0) as [[a n] r]. destruct n; [ discriminate | ].
  destruct (in_int64 _); intros H; inversion H; reflexivity.
Qed.
Lemma tryFloat_kind : forall v x, tryFloat v = Some x -> kindOf x = Some KFloat.
Proof. intros v x. unfold tryFloat. destruct (find _ v); [ | discriminate ]. destruct (stod v) as [[m e]|]; intros H; inversion H; reflexivity. Qed.
Lemma wText_good : forall v, good (wText v).
Proof.
  intros v. split; [ reflexivity | ]. intros c y N. cbn [wText]. unfold optionLeaf. generalize (match unquote v with Some w => w | None => v end). intros w.
  destruct c; cbn [kindOf]; intros H; try discriminate; try congruence.
  - eapply tryBool_kind, H.
  - eapply tryInteger_kind, H.
  - eapply tryFloat_kind, H.
  - inversion H. reflexivity.
Qed.
Lemma wPrim_good : forall j, good (wPrim (primitive j)).
Proof.
  intros j. split.
  - intros d. cbn [wPrim]. destruct j; reflexivity.
  - intros c y N. cbn [wPrim]. destruct c; try congruence;
      (destruct (isNull (primitive j) || _)%bool eqn:E; [ discriminate | ]; apply Bool.orb_false_iff in E; destruct E as [_ E]; apply Bool.negb_false_iff, kind_eqb_eq in E; intros H; inversion H; congruence).
Qed.
Lemma wList_good : forall l, good (wList l).
Proof. intros l. split; [ reflexivity | ]. intros c y N H. destruct c; try discriminate; try congruence. inversion H. reflexivity. Qed.
Lemma wDict_good : good wDict.
Proof. split; [ reflexivity | ]. intros c y N H. destruct c; try discriminate; try congruence. Qed.

Lemma textActs_good : forall prefix args, Forall (fun a => good (snd a)) (textActs prefix args).
Proof. intros. apply Forall_forall. intros a H. apply in_map_iff in H. destruct H as (kv & <- & _). apply wText_good. Qed.
Lemma flat_good : forall j, Forall (fun a => good (snd a)) (flat j).
Proof.
  intros j. induction j using json_ind2.
  - destruct j as [| | | | |a|a]; try constructor. exfalso. eapply H0. reflexivity.
  - constructor.
  - rewrite flat_obj. apply Forall_forall. intros a Ha. apply in_flat_map in Ha. destruct Ha as ([k v] & Hin & Ha).
    rewrite Forall_forall in H. specialize (H _ Hin). cbn [snd] in H. unfold flatMember in Ha. cbn [fst snd] in Ha.
    destruct v as [| | | | |els|ms]; destruct Ha as [ <- | Ha ]; try (destruct Ha; fail); cbn [snd]; try apply wPrim_good; try apply wList_good; try apply wDict_good.
    apply in_map_iff in Ha. destruct Ha as (b & <- & Hb). cbn [under snd]. rewrite Forall_forall in H. apply H, Hb.
Qed.
Lemma provider_good : forall p, Forall (fun a => good (snd a)) (providerActs p).
Proof. intros [e|a|[j|]]; cbn [providerActs]; try apply textActs_good; [ apply flat_good | constructor ]. Qed.

Lemma acts_keeps : forall w p l c, Forall (fun a => good (snd a)) w -> get l p = Some c -> c <> ONull ->
  exists c', get (acts l w) p = Some c' /\ kindOf c' = kindOf c.
Proof.
  induction w as [|[q f] w IH]; intros p l c F H N; [ exists c; split; [ exact H | reflexivity ] | ].
  inversion F as [|? ? F1 F2]; subst. cbn [snd] in F1. rewrite acts_cons.
  destruct (upd_keeps q f F1 p l c H N) as (c1 & H1 & K1).
  assert (N1 : c1 <> ONull) by (intros ->; destruct c; try discriminate; congruence).
  destruct (IH p _ c1 F2 H1 N1) as (c2 & H2 & K2). exists c2. split; [ exact H2 | congruence ].
Qed.
