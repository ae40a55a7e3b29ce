(** Proofs about the update modes of devices. *)
From Coq Require Import List Bool Arith Lia.
From Verif Require Import CDev_Model CDev_Spec.
Import ListNotations.

Lemma dcfg_rec' (P : dcfg -> Prop) :
  (forall i k s cs, (forall e, In e cs -> P e) -> P (DCfg i k s cs)) -> forall c, P c.
Proof.
  intros H. fix go 1. intros [i k s cs]. apply H.
  induction cs as [|e cs IH]; cbn [In]; intros e' [].
  - subst e'. apply go.
  - now apply IH.
Qed.

(** ** Lists of devices *)
Lemma child_in i l x : child i l = Some x -> In x l /\ did x = i.
Proof.
  induction l as [|d l IH]; cbn [child In]; [discriminate|].
  destruct (Nat.eqb_spec (did d) i); [intros [= <-]; auto|]. intros K. destruct (IH K); auto.
Qed.
Lemma child_of l x : NoDup (map did l) -> In x l -> child (did x) l = Some x.
Proof.
  induction l as [|d l IH]; cbn [child In map]; [easy|]. intros N [->|K]; [now rewrite Nat.eqb_refl|].
  inversion N; subst. destruct (Nat.eqb_spec (did d) (did x)) as [E|]; [|auto].
  exfalso. apply H1. rewrite E. now apply in_map.
Qed.
Lemma child_none i l : child i l = None <-> ~ In i (map did l).
Proof.
  induction l as [|d l IH]; cbn [child In map]; [tauto|].
  destruct (Nat.eqb_spec (did d) i); split; intros K; try discriminate; try tauto.
Qed.
Lemma child_replace_same d l : In (did d) (map did l) -> child (did d) (replace d l) = Some d.
Proof.
  induction l as [|k l IH]; cbn [replace map In]; [tauto|]. intros K.
  destruct (Nat.eqb_spec (did k) (did d)); cbn [child].
  - now rewrite Nat.eqb_refl.
  - destruct (Nat.eqb_spec (did k) (did d)); [easy|]. apply IH. tauto.
Qed.
Lemma child_replace_other d l j : j <> did d -> child j (replace d l) = child j l.
Proof.
  intros N. induction l as [|k l IH]; cbn [replace]; [easy|].
  destruct (Nat.eqb_spec (did k) (did d)) as [E|E]; cbn [child].
  - destruct (Nat.eqb_spec (did d) j); [congruence|]. destruct (Nat.eqb_spec (did k) j); [congruence|]. easy.
  - now rewrite IH.
Qed.
Lemma map_replace d l : map did (replace d l) = map did l.
Proof.
  induction l as [|k l IH]; cbn [replace map]; [easy|].
  destruct (Nat.eqb_spec (did k) (did d)) as [E|E]; cbn [map]; congruence.
Qed.
Lemma in_replace d l x : In x (replace d l) -> x = d \/ In x l.
Proof.
  induction l as [|k l IH]; cbn [replace In]; [tauto|].
  destruct (Nat.eqb_spec (did k) (did d)) as [E|E]; cbn [In]; intuition auto.
Qed.
Lemma nodup_filter (f : dev -> bool) l : NoDup (map did l) -> NoDup (map did (filter f l)).
Proof.
  induction l as [|d l IH]; cbn [filter map]; [easy|]. intros N. inversion N; subst.
  destruct (f d); cbn [map]; [constructor|]; auto.
  intros K. apply H1. apply in_map_iff in K as (x & E & K). apply filter_In in K. rewrite <- E. now apply in_map.
Qed.
Lemma child_filter (f : dev -> bool) l j : NoDup (map did l) ->
  child j (filter f l) = match child j l with Some x => if f x then Some x else None | None => None end.
Proof.
  induction l as [|d l IH]; cbn [filter map child]; [easy|]. intros N. inversion N; subst.
  destruct (Nat.eqb_spec (did d) j) as [E|E].
  - destruct (f d); cbn [child].
    + now destruct (Nat.eqb_spec (did d) j).
    + apply child_none. intros K. apply H1. rewrite E. apply in_map_iff in K as (x & <- & K). apply filter_In in K. now apply in_map.
  - destruct (f d); cbn [child]; [destruct (Nat.eqb_spec (did d) j); [easy|]|]; auto.
Qed.
Lemma child_app j l x : child j (l ++ [x]) = match child j l with Some y => Some y | None => if Nat.eqb (did x) j then Some x else None end.
Proof. induction l as [|d l IH]; cbn [child app]; [easy|]. now destruct (Nat.eqb (did d) j). Qed.
Lemma nodup_app l x : NoDup (map did l) -> child (did x) l = None -> NoDup (map did (l ++ [x])).
Proof.
  intros N K. apply child_none in K. induction l as [|d l IH]; cbn [map app] in *; [constructor; [easy|constructor]|].
  inversion N; subst. constructor.
  - rewrite map_app, in_app_iff. cbn [map In]. intros [Q|[Q|[]]]; [easy|]. apply K. now left.
  - apply IH; auto. intros Q. apply K. now right.
Qed.
Lemma drop_absent i l : child i l = None -> drop i l = l.
Proof.
  induction l as [|d l IH]; unfold drop in *; cbn [child filter]; [easy|].
  destruct (Nat.eqb_spec (did d) i); [discriminate|]. cbn [negb orb]. intros K. now rewrite IH.
Qed.
Lemma with_key_in k l x : with_key k l = Some x -> In x l /\ dkey x = k.
Proof.
  induction l as [|d l IH]; cbn [with_key In]; [discriminate|].
  destruct (Nat.eqb_spec (dkey d) k); [intros [= <-]; auto|]. intros K. destruct (IH K); auto.
Qed.
Lemma with_key_none k l x : with_key k l = None -> In x l -> dkey x <> k.
Proof.
  induction l as [|d l IH]; cbn [with_key In]; [easy|].
  destruct (Nat.eqb_spec (dkey d) k); [discriminate|]. intros K [->|Q]; auto.
Qed.
Lemma has_id_in i l : has_id i l = true <-> In i l.
Proof.
  unfold has_id. rewrite existsb_exists. split.
  - intros (x & K & E). apply Nat.eqb_eq in E. now subst.
  - intros K. exists i. split; [easy|]. apply Nat.eqb_refl.
Qed.

Lemma assoc_none {V} i (l : list (id * V)) : assoc i l = None <-> ~ In i (map fst l).
Proof.
  induction l as [|[j v] l IH]; cbn [assoc map fst In]; [tauto|].
  destruct (Nat.eqb_spec j i); split; intros K; try discriminate; try tauto.
Qed.
Lemma assoc_in {V} i (l : list (id * V)) v : assoc i l = Some v -> In (i, v) l.
Proof.
  induction l as [|[j u] l IH]; cbn [assoc In]; [discriminate|].
  destruct (Nat.eqb_spec j i); [intros [= ->]; left; congruence|auto].
Qed.
Lemma in_assoc {V} i (l : list (id * V)) v : NoDup (map fst l) -> In (i, v) l -> assoc i l = Some v.
Proof.
  induction l as [|[j u] l IH]; cbn [assoc In map fst]; [easy|]. intros N [[= -> ->]|K]; [now rewrite Nat.eqb_refl|].
  inversion N; subst. destruct (Nat.eqb_spec j i) as [->|]; [|auto]. exfalso. apply H1. apply (in_map fst) in K. exact K.
Qed.

(** ** One step *)
Lemma update_eq w o un d c mp :
  update w o un d c mp =
  let S0 := pre o (csubs c) (dsubs d) in
  let a := fold_left (step w o (update w o un)) (csubs c) (Acc S0 (map did S0) mp) in
  (Dev (did d) (dkey d) (dstat d) (cset c) (cleaned un (a_unref a) (a_subs a)), a_map a).
Proof. destruct c. reflexivity. Qed.

(** ** The invariant *)
Section Inv.
Variables (w : world) (o : id -> mode) (un : bool).
Hypothesis w_keys : forall k y, w k = Some y -> dkey y = k.

Definition spec (mp : list (id * id)) (x : dev) (e : dcfg) (x' : dev) : Prop :=
  did x' = did x /\ dkey x' = dkey x /\ dstat x' = dstat x /\ forall M, incl mp M -> outcome w o un M x e x'.

Definition good (c : dcfg) : Prop :=
  forall d mp, (forall x e, meets w d c x e -> clear w o x e) -> NoDup (ids_below c) ->
    (forall j, In j (ids_below c) -> assoc j mp = None) ->
    forall r mp', update w o un d c mp = (r, mp') ->
      spec mp' d c r /\ incl mp mp' /\ (forall j, ~ In j (ids_below c) -> assoc j mp' = assoc j mp) /\
      (NoDup (map fst mp) -> NoDup (map fst mp')).

Definition entry (S0 S1 : list dev) (mp : list (id * id)) (e : dcfg) : Prop :=
  match o (cid e) with
  | Skip => child (cid e) S1 = child (cid e) S0
  | Remove => child (cid e) S1 = match child (cid e) S0 with Some x => if dstat x then Some x else None | None => None end
  | UpdateOnly =>
      match child (cid e) S0 with
      | Some x => exists x', child (cid e) S1 = Some x' /\ spec mp x e x'
      | None => child (cid e) S1 = None
      end
  | Load =>
      match child (cid e) S0 with
      | Some x => exists x', child (cid e) S1 = Some x' /\ spec mp x e x'
      | None =>
          match w (ckey e) with
          | None => child (cid e) S1 = None
          | Some y => exists x', child (cid e) S1 = Some x' /\ spec mp y e x'
          end
      end
  | Remap k => exists x x' y, w k = Some y /\ did y = did x /\ dkey x = k /\ (In x S0 \/ w k = Some x) /\
      child (did x) S1 = Some x' /\ spec mp x e x' /\ In (cid e, did x) mp
  end.

Definition below (l : list dcfg) : list id := flat_map (fun e => cid e :: ids_below e) l.

Record inv (S0 : list dev) (mp0 : list (id * id)) (bf af : list dcfg) (a : acc) : Prop := {
  i_nodup : NoDup (map did (a_subs a));
  i_from : forall x', In x' (a_subs a) -> exists x, (In x S0 \/ exists k, w k = Some x) /\ did x' = did x /\ dkey x' = dkey x /\ dstat x' = dstat x;
  i_else : forall j, (forall e, In e bf -> ~ lands w o e j) -> child j (a_subs a) = child j S0;
  i_done : forall e, In e bf -> entry S0 (a_subs a) (a_map a) e;
  i_unref : forall j, In j (a_unref a) <-> In j (map did S0) /\ forall e, In e bf -> cid e <> j /\ ~ lands w o e j;
  i_free : forall j, In j (below af) -> assoc j (a_map a) = None;
  i_incl : incl mp0 (a_map a);
  i_frame : forall j, ~ In j (below bf) -> assoc j (a_map a) = assoc j mp0;
  i_keys : NoDup (map fst mp0) -> NoDup (map fst (a_map a)) }.

Lemma spec_mono mp mp' x e x' : incl mp mp' -> spec mp x e x' -> spec mp' x e x'.
Proof. intros L (A & B & C & D). do 3 (split; [easy|]). intros M K. apply D. eapply incl_tran; eauto. Qed.

Lemma entry_mono S0 S1 S1' mp mp' e :
  (forall j, lands w o e j -> child j S1' = child j S1) -> incl mp mp' -> entry S0 S1 mp e -> entry S0 S1' mp' e.
Proof.
  intros L I. unfold entry, lands in *. destruct (o (cid e)) as [| | | |k].
  - rewrite (L (cid e) eq_refl). destruct (child (cid e) S0).
    + intros (x' & A & B). exists x'. split; [easy|]. eapply spec_mono; eauto.
    + destruct (w (ckey e)); [|easy]. intros (x' & A & B). exists x'. split; [easy|]. eapply spec_mono; eauto.
  - rewrite (L (cid e) eq_refl). destruct (child (cid e) S0); [|easy].
    intros (x' & A & B). exists x'. split; [easy|]. eapply spec_mono; eauto.
  - now rewrite (L (cid e) eq_refl).
  - now rewrite (L (cid e) eq_refl).
  - intros (x & x' & y & A & B & C & D & E & F & G). exists x, x', y. do 4 (split; [easy|]). split; [rewrite L; eauto|]. split; [eapply spec_mono; eauto|]. auto.
Qed.

Lemma below_app l l' : below (l ++ l') = below l ++ below l'.
Proof. unfold below. now rewrite flat_map_app. Qed.
Lemma below_cons e l : below (e :: l) = (cid e :: ids_below e) ++ below l.
Proof. reflexivity. Qed.
Lemma cid_below e l : In e l -> In (cid e) (below l).
Proof. intros K. apply in_flat_map. exists e. split; [easy|]. now left. Qed.

Lemma nodup_mid {A} (l1 l2 : list A) x : NoDup (l1 ++ x :: l2) -> ~ In x l1 /\ ~ In x l2.
Proof. intros N. apply NoDup_remove_2 in N. rewrite in_app_iff in N. tauto. Qed.

Lemma nodup_split {A} (l1 l2 : list A) x : NoDup (l1 ++ l2) -> In x l1 -> In x l2 -> False.
Proof.
  induction l1 as [|y l1 IH]; cbn [app In]; [easy|]. intros N [->|K] Q; inversion N; subst.
  - apply H1, in_app_iff. now right.
  - auto.
Qed.
Lemma nodup_r {A} (l1 l2 : list A) : NoDup (l1 ++ l2) -> NoDup l2.
Proof. induction l1; cbn [app]; [easy|]. intros N. inversion N; auto. Qed.
Lemma nodup_l {A} (l1 l2 : list A) : NoDup (l1 ++ l2) -> NoDup l1.
Proof. induction l1; cbn [app]; [constructor|]. intros N. inversion N; subst. constructor; auto. rewrite in_app_iff in H1. tauto. Qed.

Section Node.
Variables (d : dev) (c : dcfg) (mp0 : list (id * id)).
Let cs := csubs c.
Let S0 := pre o cs (dsubs d).
Hypothesis Hm : forall x e, meets w d c x e -> clear w o x e.
Hypothesis Hn : NoDup (below cs).
Hypothesis Hg : forall e, In e cs -> good e.

Lemma Hc : clear w o d c. Proof. apply Hm. constructor. Qed.

Lemma S0_in x : In x S0 <-> In x (dsubs d) /\ (dstat x = true \/ is_remap (o (did x)) = false \/ ~ In (did x) (map cid cs)).
Proof.
  unfold S0, pre. rewrite filter_In, orb_true_iff, negb_true_iff, andb_false_iff.
  rewrite <- (has_id_in (did x) (map cid cs)), not_true_iff_false. tauto.
Qed.
Lemma S0_nodup : NoDup (map did S0).
Proof. apply nodup_filter, (one_id _ _ _ _ Hc). Qed.

Lemma same_cid e e' : In e cs -> In e' cs -> cid e = cid e' -> e = e'.
Proof.
  intros A B E. clear -A B E Hn. induction cs as [|f l IH]; [easy|]. rewrite below_cons in Hn. cbn [In] in *.
  destruct A as [->|A], B as [->|B]; auto.
  - exfalso. eapply nodup_split; [exact Hn| |eapply (cid_below e' l B)]. rewrite E. now left.
  - exfalso. eapply nodup_split; [exact Hn| |eapply (cid_below e l A)]. rewrite E. now left.
  - apply IH; auto. eapply nodup_r; eauto.
Qed.
Lemma not_before bf e af : cs = bf ++ e :: af -> ~ In e bf.
Proof.
  intros E K. rewrite E in Hn. rewrite below_app, below_cons in Hn.
  eapply nodup_split; [exact Hn|apply (cid_below e bf K)|]. now left.
Qed.

(** a step that changes what is found under the id it lands on, and that alone *)
Lemma step_ok bf e af a subs' mp' t :
  cs = bf ++ e :: af -> inv S0 mp0 bf (e :: af) a ->
  stepped w o (update w o un) a e = (subs', mp') ->
  lands w o e t ->
  NoDup (map did subs') ->
  (forall x', In x' subs' -> exists x, (In x S0 \/ exists k, w k = Some x) /\ did x' = did x /\ dkey x' = dkey x /\ dstat x' = dstat x) ->
  (forall j, j <> t -> child j subs' = child j (a_subs a)) ->
  entry S0 subs' mp' e ->
  incl (a_map a) mp' ->
  (forall j, j <> cid e -> ~ In j (ids_below e) -> assoc j mp' = assoc j (a_map a)) ->
  assoc (cid e) mp' = (if is_remap (o (cid e)) then Some t else None) ->
  (NoDup (map fst (a_map a)) -> NoDup (map fst mp')) ->
  inv S0 mp0 (bf ++ [e]) af (step w o (update w o un) a e).
Proof.
  intros Ecs IV E Lt N From Oth En Inc Fr As Ky. unfold step. rewrite E.
  assert (Ie : In e cs) by (rewrite Ecs; apply in_elt).
  assert (Tu : forall t', lands w o e t' -> t' = t).
  { clear -Lt. unfold lands in *. destruct (o (cid e)); try congruence. destruct Lt as (y & A & B). intros t' (y' & A' & B'). congruence. }
  constructor; cbn [a_subs a_unref a_map]; auto.
  - intros j K. rewrite Oth.
    + apply IV. intros e' Q. apply K, in_app_iff. now left.
    + intros ->. eapply K; [apply in_elt|exact Lt].
  - intros e' K. apply in_app_iff in K as [K|[->|[]]]; [|easy].
    eapply entry_mono; [|exact Inc|apply (i_done _ _ _ _ _ IV _ K)].
    intros j Lj. apply Oth. intros ->.
    assert (e' = e) by (eapply (no_clash _ _ _ _ Hc); eauto; fold cs; rewrite Ecs; apply in_app_iff; now left).
    subst e'. eapply not_before; eauto.
  - intros j. unfold unrefd. rewrite filter_In, (i_unref _ _ _ _ _ IV), As, andb_true_iff, !negb_true_iff, Nat.eqb_neq.
    assert (Q : lands w o e j <-> j = t) by (split; [apply Tu|intros ->; exact Lt]).
    assert (R : (match (if is_remap (o (cid e)) then Some t else None) with Some t0 => j =? t0 | None => false end = false) <-> (is_remap (o (cid e)) = true -> j <> t)).
    { destruct (is_remap (o (cid e))); [rewrite Nat.eqb_neq; intuition auto|split; intros; congruence]. }
    rewrite R. clear R. split.
    + intros [[A B] [C D]]. split; [easy|]. intros e' K. apply in_app_iff in K as [K|[->|[]]]; [auto|].
      split; [congruence|]. rewrite Q. intros ->.
      destruct (is_remap (o (cid e'))) eqn:Er; [now apply D|].
      apply C. unfold lands in Lt. destruct (o (cid e')); try easy.
    + intros [A B]. destruct (B e) as [B1 B2]; [apply in_elt|]. repeat split; auto.
      * apply B, in_app_iff. now left.
      * apply B, in_app_iff. now left.
      * intros _ ->. now apply B2.
  - intros j K. rewrite Fr.
    + apply IV. rewrite below_cons, in_app_iff. now right.
    + intros ->. rewrite Ecs, below_app, below_cons in Hn. apply nodup_r in Hn. eapply nodup_split; [exact Hn| |exact K]. now left.
    + intros Q. rewrite Ecs, below_app, below_cons in Hn. apply nodup_r in Hn. eapply nodup_split; [exact Hn| |exact K]. now right.
  - eapply incl_tran; [apply (i_incl _ _ _ _ _ IV)|easy].
  - intros j K. rewrite below_app, in_app_iff in K. unfold below at 2 in K. cbn [flat_map app] in K. rewrite app_nil_r in K. cbn [In] in K. rewrite Fr; [apply IV|..]; intuition auto.
  - intros K. apply Ky, IV, K.
Qed.

Lemma free_here bf e af a : cs = bf ++ e :: af -> inv S0 mp0 bf (e :: af) a -> forall j, In j (cid e :: ids_below e) -> assoc j (a_map a) = None.
Proof. intros _ IV j K. apply IV. rewrite below_cons, in_app_iff. now left. Qed.
Lemma nodup_here bf e af : cs = bf ++ e :: af -> NoDup (cid e :: ids_below e).
Proof. intros E. rewrite E, below_app, below_cons in Hn. apply nodup_r in Hn. eapply nodup_l; eauto. Qed.

(** what is under the id that [e] lands on is what was there at first *)
Lemma fresh_child bf e af a t : cs = bf ++ e :: af -> inv S0 mp0 bf (e :: af) a -> lands w o e t ->
  child t (a_subs a) = child t S0.
Proof.
  intros E IV L. apply IV. intros e' K L'.
  assert (e' = e) by (eapply (no_clash _ _ _ _ Hc); eauto; fold cs; rewrite E; [apply in_app_iff; now left|apply in_elt]).
  subst. eapply not_before; eauto.
Qed.

Lemma from_replace l x x' :
  (forall z', In z' l -> exists z, (In z S0 \/ exists k, w k = Some z) /\ did z' = did z /\ dkey z' = dkey z /\ dstat z' = dstat z) ->
  (In x S0 \/ exists k, w k = Some x) -> did x' = did x -> dkey x' = dkey x -> dstat x' = dstat x ->
  forall z', In z' (replace x' l) -> exists z, (In z S0 \/ exists k, w k = Some z) /\ did z' = did z /\ dkey z' = dkey z /\ dstat z' = dstat z.
Proof. intros F A B C D z' K. apply in_replace in K as [->|K]; [|auto]. exists x. auto. Qed.

Lemma S0_sub x : In x S0 -> In x (dsubs d).
Proof. intros K. apply S0_in in K. apply K. Qed.

(** updating what is there *)
Lemma upd_there bf e af x r mp1 mp' :
  cs = bf ++ e :: af -> In x S0 \/ (exists k, w k = Some x) ->
  (forall j, In j (ids_below e) -> assoc j mp1 = None) ->
  update w o un x e mp1 = (r, mp') ->
  spec mp' x e r /\ incl mp1 mp' /\ (forall j, ~ In j (ids_below e) -> assoc j mp' = assoc j mp1) /\
  (NoDup (map fst mp1) -> NoDup (map fst mp')).
Proof.
  intros E X F U. assert (Ie : In e cs) by (rewrite E; apply in_elt).
  eapply (Hg e Ie x mp1); auto.
  - intros x0 e0 M. apply Hm. destruct X as [X|[k X]]; [eapply meets_sub|eapply meets_new]; eauto. now apply S0_sub.
  - apply nodup_here in E. now inversion E.
Qed.

Lemma inv_step bf e af a : cs = bf ++ e :: af -> inv S0 mp0 bf (e :: af) a -> inv S0 mp0 (bf ++ [e]) af (step w o (update w o un) a e).
Proof.
  intros E IV. assert (Ie : In e cs) by (rewrite E; apply in_elt).
  assert (Fh := free_here bf e af a E IV). assert (Nh := nodup_here bf e af E).
  assert (Nb : ~ In (cid e) (ids_below e)) by (now inversion Nh).
  destruct (stepped w o (update w o un) a e) as [subs' mp'] eqn:Es. assert (Es' := Es). unfold stepped in Es.
  assert (there : forall x, child (cid e) (a_subs a) = Some x -> lands w o e (cid e) ->
     is_remap (o (cid e)) = false ->
     (forall x', child (cid e) subs' = Some x' -> spec mp' x e x' -> entry S0 subs' mp' e) ->
     (let (x', mp') := update w o un x e (a_map a) in (replace x' (a_subs a), mp')) = (subs', mp') ->
     inv S0 mp0 (bf ++ [e]) af (step w o (update w o un) a e)).
  { intros x Cx L Rm En Eq. destruct (update w o un x e (a_map a)) as [x' mp''] eqn:U. injection Eq as <- <-.
    destruct (child_in _ _ _ Cx) as [Ix Dx].
    assert (Cx0 : child (cid e) S0 = Some x) by (rewrite <- (fresh_child bf e af a _ E IV L); exact Cx).
    destruct (child_in _ _ _ Cx0) as [Ix0 _].
    destruct (upd_there bf e af x x' (a_map a) mp'' E (or_introl Ix0)) as (Sp & Inc & Fr & Ky); auto.
    { intros j K. apply Fh. now right. }
    assert (Sp' := Sp). destruct Sp' as (D1 & D2 & D3 & _).
    eapply step_ok; eauto.
    - rewrite map_replace. apply IV.
    - eapply from_replace; eauto. apply IV.
    - intros j N. apply child_replace_other. congruence.
    - apply (En x'); auto. replace (cid e) with (did x') by congruence. apply child_replace_same.
      rewrite D1. now apply in_map.
    - rewrite Rm, Fr; auto. apply Fh. now left. }
  assert (add : forall k y t, w k = Some y -> did y = t -> lands w o e t -> child t (a_subs a) = None ->
     (forall x', child t subs' = Some x' -> spec mp' y e x' -> (is_remap (o (cid e)) = true -> In (cid e, t) mp') -> entry S0 subs' mp' e) ->
     adds w o (update w o un) e k (a_subs a) (a_map a) = (subs', mp') ->
     inv S0 mp0 (bf ++ [e]) af (step w o (update w o un) a e)).
  { intros k y t Wy Dy L Cn En Eq. unfold adds in Eq. rewrite Wy, Dy, Cn in Eq.
    set (mp1 := if is_remap (o (cid e)) then (cid e, t) :: a_map a else a_map a) in *.
    cbv zeta in Eq. destruct (update w o un y e mp1) as [y' mp''] eqn:U. injection Eq as <- <-.
    destruct (upd_there bf e af y y' mp1 mp'' E (or_intror (ex_intro _ k Wy))) as (Sp & Inc & Fr & Ky); auto.
    { intros j K. unfold mp1. destruct (is_remap (o (cid e))); cbn [assoc]; [|apply Fh; now right].
      destruct (Nat.eqb_spec (cid e) j); [congruence|]. apply Fh. now right. }
    assert (Sp' := Sp). destruct Sp' as (D1 & D2 & D3 & _).
    eapply step_ok; eauto.
    - apply nodup_app; [apply IV|]. congruence.
    - intros x' K. apply in_app_iff in K as [K|[<-|[]]]; [now apply IV|]. exists y. repeat split; auto. right. now exists k.
    - intros j N. rewrite child_app. destruct (child j (a_subs a)); [easy|]. destruct (Nat.eqb_spec (did y') j); congruence.
    - apply (En y'); auto.
      + rewrite child_app, Cn. destruct (Nat.eqb_spec (did y') t); congruence.
      + intros R. apply Inc. unfold mp1. rewrite R. now left.
    - eapply incl_tran; [|exact Inc]. unfold mp1. destruct (is_remap (o (cid e))); [apply incl_tl|]; apply incl_refl.
    - intros j N1 N2. rewrite Fr; auto. unfold mp1. destruct (is_remap (o (cid e))); [|easy]. cbn [assoc].
      destruct (Nat.eqb_spec (cid e) j); congruence.
    - rewrite Fr; auto. unfold mp1. destruct (is_remap (o (cid e))); cbn [assoc]; [now rewrite Nat.eqb_refl|]. apply Fh. now left.
    - intros Nk. apply Ky. unfold mp1. destruct (is_remap (o (cid e))); [|easy]. cbn [map fst]. constructor; [|easy]. apply assoc_none, Fh. now left. }
  destruct (o (cid e)) as [| | | |k] eqn:Om.
  - (* Load *)
    assert (L : lands w o e (cid e)) by (unfold lands; now rewrite Om).
    assert (Fc := fresh_child bf e af a _ E IV L).
    destruct (child (cid e) (a_subs a)) as [x|] eqn:Cx.
    + eapply there; eauto. intros x' Cx' Sp. unfold entry. rewrite Om, <- Fc. eauto.
    + destruct (w (ckey e)) as [y|] eqn:Wy.
      * eapply (add (ckey e) y (cid e)); eauto.
        { now apply (comes_back _ _ _ _ Hc). }
        intros x' Cx' Sp _. unfold entry. rewrite Om, <- Fc, Wy. eauto.
      * unfold adds in Es. rewrite Wy in Es. injection Es as <- <-.
        eapply step_ok; eauto; try apply (i_nodup _ _ _ _ _ IV); try apply (i_from _ _ _ _ _ IV); try apply incl_refl.
        -- unfold entry. now rewrite Om, <- Fc, Wy.
        -- rewrite Om. cbn [is_remap]. apply Fh. now left.
  - (* UpdateOnly *)
    assert (L : lands w o e (cid e)) by (unfold lands; now rewrite Om).
    assert (Fc := fresh_child bf e af a _ E IV L).
    destruct (child (cid e) (a_subs a)) as [x|] eqn:Cx.
    + eapply there; eauto. intros x' Cx' Sp. unfold entry. rewrite Om, <- Fc. eauto.
    + injection Es as <- <-. eapply step_ok; eauto; try apply (i_nodup _ _ _ _ _ IV); try apply (i_from _ _ _ _ _ IV); try apply incl_refl.
      * unfold entry. now rewrite Om, <- Fc.
      * rewrite Om. cbn [is_remap]. apply Fh. now left.
  - (* Skip *)
    assert (L : lands w o e (cid e)) by (unfold lands; now rewrite Om).
    assert (Fc := fresh_child bf e af a _ E IV L).
    injection Es as <- <-. eapply step_ok; eauto; try apply (i_nodup _ _ _ _ _ IV); try apply (i_from _ _ _ _ _ IV); try apply incl_refl.
    + unfold entry. now rewrite Om.
    + rewrite Om. cbn [is_remap]. apply Fh. now left.
  - (* Remove *)
    assert (L : lands w o e (cid e)) by (unfold lands; now rewrite Om).
    assert (Fc := fresh_child bf e af a _ E IV L).
    injection Es as <- <-. eapply step_ok; eauto; try apply incl_refl.
    + apply nodup_filter, IV.
    + intros x' K. apply filter_In in K as [K _]. now apply IV.
    + intros j N. unfold drop. rewrite child_filter by apply IV. destruct (child j (a_subs a)) as [x|] eqn:Cx; [|easy].
      apply child_in in Cx as [_ <-]. destruct (Nat.eqb_spec (did x) (cid e)); [congruence|]. easy.
    + unfold entry. rewrite Om. unfold drop. rewrite child_filter by apply IV. rewrite Fc.
      destruct (child (cid e) S0) as [x|] eqn:Cx; [|easy]. apply child_in in Cx as [_ ->]. now rewrite Nat.eqb_refl.
    + rewrite Om. cbn [is_remap]. apply Fh. now left.
  - (* Remap *)
    destruct (reachable _ _ _ _ Hc e k Ie Om) as (y & Wy & Hy).
    assert (L : lands w o e (did y)) by (unfold lands; rewrite Om; eauto).
    assert (Fc := fresh_child bf e af a _ E IV L).
    assert (Old : child (cid e) (a_subs a) = None).
    { rewrite (i_else _ _ _ _ _ IV).
      - destruct (child (cid e) S0) as [x|] eqn:Cx; [|easy]. exfalso. apply child_in in Cx as [Ix Dx].
        apply S0_in in Ix as [Ix Q]. rewrite (removable _ _ _ _ Hc e k x Ie Om Ix Dx), Dx, Om in Q. cbn [is_remap] in Q.
        destruct Q as [Q|[Q|Q]]; try discriminate. apply Q. now apply in_map.
      - intros e' K L'. unfold lands in L'. assert (Ie' : In e' cs) by (rewrite E; apply in_app_iff; now left).
        assert (Ne : e' <> e) by (intros ->; eapply not_before; eauto).
        destruct (o (cid e')) as [| | | |k'] eqn:Om'; try (apply Ne, same_cid; auto; fail).
        destruct L' as (y' & Wy' & Dy'). apply in_split in K as (b1 & b2 & ->).
        assert (E2 : csubs c = b1 ++ e' :: (b2 ++ e :: af)) by (fold cs; rewrite E, <- app_assoc; reflexivity).
        eapply (in_order _ _ _ _ Hc _ _ _ _ _ E2 Om' Wy'). rewrite Dy', map_app, in_app_iff. right. now left. }
    rewrite (drop_absent _ _ Old) in Es. cbv zeta in Es.
    destruct (with_key k (a_subs a)) as [x|] eqn:Wk.
    + destruct (with_key_in _ _ _ Wk) as [Ix Kx].
      assert (Dx : did x = did y).
      { destruct (i_from _ _ _ _ _ IV _ Ix) as (z & Hz & A & B & _). rewrite A. destruct Hz as [Hz|[kz Hz]].
        - symmetry. apply (own_id _ _ _ _ Hc); [now apply S0_sub|]. congruence.
        - assert (kz = k) by (rewrite <- (w_keys _ _ Hz); congruence). congruence. }
      assert (Cx : child (did y) (a_subs a) = Some x) by (rewrite <- Dx; apply child_of; [apply IV|easy]).
      assert (Ix0 : In x S0) by (rewrite Fc in Cx; now apply child_in in Cx).
      destruct (update w o un x e ((cid e, did x) :: a_map a)) as [x' mp''] eqn:U. injection Es as <- <-.
      destruct (fun F => upd_there bf e af x x' _ _ E (or_introl Ix0) F U) as (Sp & Inc & Fr & Ky).
      { intros j K. cbn [assoc]. destruct (Nat.eqb_spec (cid e) j); [congruence|]. apply Fh. now right. }
      assert (Sp' := Sp). destruct Sp' as (D1 & D2 & D3 & _).
      eapply step_ok; eauto.
      * rewrite map_replace. apply IV.
      * apply (from_replace (a_subs a) x x'); auto. apply IV.
      * intros j N. apply child_replace_other. congruence.
      * unfold entry. rewrite Om. exists x, x', y. do 3 (split; [easy|]). split; [now left|]. split; [|split; [exact Sp|]].
        -- rewrite <- D1. apply child_replace_same. rewrite D1. now apply in_map.
        -- apply Inc. now left.
      * eapply incl_tran; [|exact Inc]. apply incl_tl, incl_refl.
      * intros j N1 N2. rewrite Fr; auto. cbn [assoc]. destruct (Nat.eqb_spec (cid e) j); congruence.
      * rewrite Om, Fr; auto. cbn [assoc is_remap]. rewrite Nat.eqb_refl. congruence.
      * intros Nk. apply Ky. cbn [map fst]. constructor; [|easy]. apply assoc_none, Fh. now left.
    + eapply (add k y (did y)); eauto.
      { destruct (child (did y) (a_subs a)) as [x|] eqn:Cx; [|easy]. exfalso.
        destruct (child_in _ _ _ Cx) as [Ix Dx]. eapply with_key_none; eauto.
        symmetry in Fc. apply child_in in Fc as [Ix0 _]. apply Hy; auto. now apply S0_sub. }
      intros x' Cx' Sp Im. unfold entry. rewrite Om. exists y, x', y. do 2 (split; [easy|]). split; [now apply w_keys|]. split; [now right|]. split; [easy|]. split; [exact Sp|]. now apply Im.
Qed.

Lemma inv_init : (forall j, In j (below cs) -> assoc j mp0 = None) -> inv S0 mp0 [] cs (Acc S0 (map did S0) mp0).
Proof.
  intros F. constructor; cbn [a_subs a_unref a_map]; auto.
  - apply S0_nodup.
  - intros x K. exists x. auto.
  - easy.
  - intros j. split; [intros K; split; [easy|]; intros ? []|tauto].
  - apply incl_refl.
Qed.
Lemma inv_all : forall af bf a, cs = bf ++ af -> inv S0 mp0 bf af a -> inv S0 mp0 cs [] (fold_left (step w o (update w o un)) af a).
Proof.
  induction af as [|e af IH]; intros bf a E IV; cbn [fold_left].
  - rewrite app_nil_r in E. subst bf. exact IV.
  - apply (IH (bf ++ [e])); [now rewrite <- app_assoc|]. now apply inv_step.
Qed.

(** the end: what has no reference is removed *)
Lemma node_outcome a M : inv S0 mp0 cs [] a -> incl (a_map a) M ->
  outcome w o un M d c (Dev (did d) (dkey d) (dstat d) (cset c)
     (cleaned un (a_unref a) (a_subs a))).
Proof.
  intros IV IM. set (R := cleaned _ _ _).
  assert (NR : NoDup (map did R)) by (unfold R, cleaned; destruct un; [apply nodup_filter|]; apply IV).
  assert (CR : forall j, (exists e, In e cs /\ (cid e = j \/ lands w o e j)) -> child j R = child j (a_subs a)).
  { intros j (e & Ie & Q). unfold R, cleaned. destruct un; [|easy]. rewrite child_filter by apply IV.
    destruct (child j (a_subs a)) as [x|] eqn:Cx; [|easy]. apply child_in in Cx as [_ Dx].
    destruct (has_id (did x) (a_unref a)) eqn:H; [|now rewrite orb_true_r].
    exfalso. apply has_id_in, (i_unref _ _ _ _ _ IV) in H as [_ H]. destruct (H e Ie) as [H1 H2].
    rewrite Dx in *. destruct Q; auto. }
  assert (CR' : forall j, (forall e, In e cs -> cid e <> j /\ ~ lands w o e j) -> forall x, child j R = Some x <-> child j S0 = Some x /\ (un = false \/ dstat x = true)).
  { intros j Q x. assert (Cs : child j (a_subs a) = child j S0) by (apply IV; intros e Ie; apply (Q e Ie)).
    unfold R, cleaned. destruct un.
    - rewrite child_filter by apply IV. rewrite Cs. destruct (child j S0) as [z|] eqn:Cz; [|split; [discriminate|intros [? _]; discriminate]].
      assert (Hj : has_id (did z) (a_unref a) = true).
      { apply has_id_in, IV. apply child_in in Cz as [Iz Dz]. split; [now apply in_map|]. rewrite Dz. exact Q. }
      rewrite Hj. cbn [negb]. rewrite orb_false_r. split.
      + destruct (dstat z) eqn:Ez; [|discriminate]. intros [= <-]. split; auto.
      + intros [Ez [?|Es]]; [discriminate|]. injection Ez as ->. now rewrite Es.
    - rewrite Cs. intuition auto. }
  assert (inR : forall x, In x R <-> child (did x) R = Some x).
  { intros x. split; [now apply child_of|]. intros K. now apply child_in in K. }
  assert (inD : forall x, In x (dsubs d) -> (is_remap (o (did x)) = false \/ ~ In (did x) (map cid cs)) -> child (did x) S0 = Some x).
  { intros x K Q. apply child_of; [apply S0_nodup|]. apply S0_in. tauto. }
  assert (notD : forall j, ~ In j (map did (dsubs d)) -> child j S0 = None).
  { intros j K. apply child_none. intros Q. apply K. apply in_map_iff in Q as (x & <- & Q). apply in_map. now apply S0_sub. }
  constructor; try reflexivity; cbn [dsubs did]; fold cs.
  - exact NR.
  - (* Skip *) intros e x Ie Om Dx. rewrite inR, Dx, (CR (cid e)) by eauto.
    assert (En := i_done _ _ _ _ _ IV e Ie). unfold entry in En. rewrite Om in En. rewrite En. split; intros K.
    + apply child_in in K as [K _]. now apply S0_sub.
    + rewrite <- Dx. apply inD; [easy|]. left. now rewrite Dx, Om.
  - (* updated *) intros e x Ie Om Ix Dx.
    assert (Rm : is_remap (o (did x)) = false) by (rewrite Dx; destruct Om as [->| ->]; reflexivity).
    assert (C0 : child (cid e) S0 = Some x) by (rewrite <- Dx; auto).
    assert (En := i_done _ _ _ _ _ IV e Ie). unfold entry in En. rewrite C0 in En.
    assert (exists x', child (cid e) (a_subs a) = Some x' /\ spec (a_map a) x e x') as (x' & Cx' & Sp) by (destruct Om as [Om|Om]; rewrite Om in En; exact En).
    exists x'. split; [|now apply Sp]. rewrite <- (CR (cid e)) in Cx' by eauto. now apply child_in in Cx'.
  - (* added *) intros e y Ie Om Nd Wy. assert (En := i_done _ _ _ _ _ IV e Ie). unfold entry in En.
    rewrite Om, (notD _ Nd), Wy in En. destruct En as (x' & Cx' & Sp).
    exists x'. split; [|now apply Sp]. rewrite <- (CR (cid e)) in Cx' by eauto. now apply child_in in Cx'.
  - (* not added *) intros e Ie Om Nd. assert (En := i_done _ _ _ _ _ IV e Ie). unfold entry in En.
    rewrite Om, (notD _ Nd) in En. apply child_none. rewrite CR; eauto.
  - (* Remove *) intros e x Ie Om Dx. assert (En := i_done _ _ _ _ _ IV e Ie). unfold entry in En. rewrite Om in En.
    rewrite inR, Dx, (CR (cid e)) by eauto. rewrite En. split.
    + destruct (child (cid e) S0) as [z|] eqn:Cz; [|discriminate]. destruct (dstat z) eqn:Ez; [|discriminate].
      intros [= <-]. apply child_in in Cz as [Iz _]. split; [now apply S0_sub|easy].
    + intros [Ix Es]. rewrite <- Dx, (inD x Ix); [now rewrite Es|]. left. now rewrite Dx, Om.
  - (* Remap *) intros e k Ie Om. assert (En := i_done _ _ _ _ _ IV e Ie). unfold entry in En. rewrite Om in En.
    destruct En as (x & x' & y & Wy & Dy & Kx & Fx & Cx & Sp & Im). exists x, x'. split; [easy|]. split.
    { destruct Fx as [Fx|Fx]; [left; now apply S0_sub|now right]. }
    split. { rewrite <- (CR (did x)) in Cx; [now apply child_in in Cx|]. exists e. split; [easy|]. right. unfold lands. rewrite Om. eauto. }
    split; [now apply Sp|]. apply IM. assert (D := proj1 Sp). rewrite D. exact Im.
  - (* the old one *) intros e k Ie Om K.
    destruct (child (cid e) (a_subs a)) as [x|] eqn:Cx.
    2: { exfalso. rewrite <- (CR (cid e)) in Cx by eauto. apply child_none in Cx. auto. }
    assert (Dec : (exists e', In e' cs /\ lands w o e' (cid e)) \/ (forall e', In e' cs -> ~ lands w o e' (cid e))).
    { assert (D1 : forall e', lands w o e' (cid e) \/ ~ lands w o e' (cid e)).
      { intros e'. unfold lands. destruct (o (cid e')) as [| | | |k']; try (destruct (Nat.eq_dec (cid e) (cid e')); [now left|now right]).
        destruct (w k') as [y|]; [|right; intros (? & ? & _); discriminate]. destruct (Nat.eq_dec (did y) (cid e)); [left; eauto|].
        right. intros (y' & Ey & ?). congruence. }
      clear -D1. induction cs as [|f l IH]; [right; intros ? []|]. destruct (D1 f).
      - left. exists f. split; [now left|easy].
      - destruct IH as [(e' & A & B)|B]; [left; exists e'; split; [now right|easy]|right]. intros e' [<-|A]; auto. }
    destruct Dec as [(e' & Ie' & L')|No].
    + unfold lands in L'. destruct (o (cid e')) as [| | | |k'] eqn:Om'; try congruence. destruct L' as (y & A & B). eauto 8.
    + exfalso. rewrite (i_else _ _ _ _ _ IV) in Cx by auto. apply child_in in Cx as [Ix Dx].
      apply S0_in in Ix as [Ix Q]. rewrite (removable _ _ _ _ Hc e k x Ie Om Ix Dx), Dx, Om in Q. cbn [is_remap] in Q.
      destruct Q as [Q|[Q|Q]]; try discriminate. apply Q. now apply in_map.
  - (* the others *) intros x Q. rewrite inR, CR' by exact Q. split.
    + intros [A B]. split; [|easy]. apply child_in in A as [A _]. now apply S0_sub.
    + intros [A B]. split; [|easy]. apply inD; [easy|]. right. intros K. apply in_map_iff in K as (e & E & K). destruct (Q e K). auto.
Qed.
End Node.

Lemma ids_below_eq c : ids_below c = below (csubs c).
Proof. destruct c. reflexivity. Qed.

Theorem all_good c : good c.
Proof.
  induction c as [i k s cs IH] using dcfg_rec'. intros d mp Hm Hn Hf r mp' U.
  rewrite update_eq in U. cbv zeta in U. rewrite ids_below_eq in Hn, Hf.
  set (c := DCfg i k s cs) in *.
  assert (Hg : forall e, In e (csubs c) -> good e) by exact IH.
  assert (IV := inv_all d c mp Hm Hn Hg (csubs c) [] _ eq_refl (inv_init d c mp Hm Hf)).
  set (a := fold_left _ _ _) in *. injection U as <- <-.
  split; [|split; [|split]].
  - do 3 (split; [reflexivity|]). intros M K. eapply node_outcome; eauto.
  - apply IV.
  - intros j K. apply IV. rewrite ids_below_eq in K. exact K.
  - apply IV.
Qed.
End Inv.
