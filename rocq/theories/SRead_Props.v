(** C21: the stream reader neither loses nor repeats samples. *)
From Verif Require Import Base SRead_Model SRead_Spec SRead_Proofs.
Local Open Scope nat_scope.

(** The reader answers every call as the ideal reader does, for every
    packetisation and sequence of calls, provided the stream is well typed and
    the calls meet [calls_ok] (see the refuted theorems for each condition). *)
Theorem c21_refines_ideal_partial : forall skip vt dt h o, well_typed None None (received h) -> calls_ok skip vt dt (o :: h) ->
  snd (step (after skip vt dt h) o) = snd (ideal_step skip (ideal_after skip vt dt h) o).
Proof. exact same_answer. Qed.

Lemma take_split : forall skip l n m, got (take skip n l m) ++ rest (take skip n l m) = l.
Proof.
  intros skip. induction l as [|x l IH]; intros n m; cbn [take]; auto. destruct x as [v d a|b a|e].
  - destruct n; auto. cbn [cons_item got rest app]. now rewrite IH.
  - destruct n; auto. cbn [cons_item got rest app]. now rewrite IH.
  - destruct (reported skip e (meet e m)); auto. cbn [cons_item got rest app]. now rewrite IH.
Qed.
Lemma take_events : forall l n m, events_in (got (take false n l m)) = match told (take false n l m) with Some e => [e] | None => [] end.
Proof.
  induction l as [|x l IH]; intros n m; cbn [take]; auto. destruct x as [v d a|b a|e].
  - destruct n as [|n]; auto. apply (IH n m).
  - destruct n as [|n]; auto. apply (IH (S n) m).
  - reflexivity.
Qed.

(** Everything returned so far is exactly the beginning of the stream: the items
    passed (done) and those to come make up the stream received, the values
    returned are the values passed, the domain values those of the same samples,
    and each event is returned once, in its place. *)
Theorem c21_lossless_partial : forall skip vt dt h, well_typed None None (received h) -> calls_ok skip vt dt h ->
  exists passed to_come, stream (received h) = passed ++ to_come
  /\ total (map returned_count (results skip vt dt h)) = length (sample_values passed)
  /\ ((forall o, In o h -> ~ skips_samples o) -> concat (map returned_values (results skip vt dt h)) = concat (sample_values passed))
  /\ ((forall o, In o h -> ~ reads_values_only o) -> concat (map returned_domain (results skip vt dt h)) = concat (sample_domains passed))
  /\ (skip = false -> concat (map returned_events (results skip vt dt h)) = events_in passed).
Proof.
  intros skip vt dt h WT OK.
  assert (GEN : exists passed, stream (received h) = passed ++ left_ (ideal_after skip vt dt h)
     /\ total (map returned_count (results skip vt dt h)) = length (sample_values passed)
     /\ ((forall o, In o h -> ~ skips_samples o) -> concat (map returned_values (results skip vt dt h)) = concat (sample_values passed))
     /\ ((forall o, In o h -> ~ reads_values_only o) -> concat (map returned_domain (results skip vt dt h)) = concat (sample_domains passed))
     /\ (skip = false -> concat (map returned_events (results skip vt dt h)) = events_in passed)).
  { induction h as [|o h IH]; [exists []; repeat split|]. rewrite received_cons in *. apply wt_app in WT. destruct WT as [WT _].
    pose proof (same_answer skip vt dt h o WT OK) as SA. destruct OK as [O1 O2]. destruct (IH WT O2) as (pa & E & T & V & D & EV). cbn [results ideal_after]. rewrite SA.
    assert (TA : forall a b, total (a ++ [b]) = total a + b). { induction a as [|x a IHa]; intros b; cbn [app total fold_right]; [lia|]. unfold total in IHa. rewrite IHa. lia. }
    assert (CA : forall (A : Type) (f : result -> list A) l r, concat (map f (l ++ [r])) = concat (map f l) ++ f r) by (intros A f l r; rewrite map_app, concat_app; cbn [map concat]; now rewrite app_nil_r).
    assert (TM : forall l r, total (map returned_count (l ++ [r])) = total (map returned_count l) + returned_count r) by (intros l r; rewrite map_app; apply TA). rewrite TM, !CA. unfold stream. rewrite flat_map_app. fold (stream (received h)).
    assert (READ : forall v d n, ideal_step skip (ideal_after skip vt dt h) o = ideal_read skip v d n (ideal_after skip vt dt h) -> (v = true \/ skips_samples o) -> (d = true \/ reads_values_only o) ->
      (match o with Enqueue _ => False | _ => True end) -> exists passed, stream (received h) ++ flat_map items (match o with Enqueue p => [p] | _ => [] end) = passed ++ left_ (fst (ideal_step skip (ideal_after skip vt dt h) o))
       /\ total (map returned_count (results skip vt dt h)) + returned_count (snd (ideal_step skip (ideal_after skip vt dt h) o)) = length (sample_values passed)
       /\ ((forall o0, In o0 (o :: h) -> ~ skips_samples o0) -> concat (map returned_values (results skip vt dt h)) ++ returned_values (snd (ideal_step skip (ideal_after skip vt dt h) o)) = concat (sample_values passed))
       /\ ((forall o0, In o0 (o :: h) -> ~ reads_values_only o0) -> concat (map returned_domain (results skip vt dt h)) ++ returned_domain (snd (ideal_step skip (ideal_after skip vt dt h) o)) = concat (sample_domains passed))
       /\ (skip = false -> concat (map returned_events (results skip vt dt h)) ++ returned_events (snd (ideal_step skip (ideal_after skip vt dt h) o)) = events_in passed)).
    { intros v d n -> OV OD NE. replace (flat_map items match o with Enqueue p => [p] | _ => [] end) with (@nil item) by (destruct o; [destruct NE|reflexivity..]). rewrite app_nil_r. unfold ideal_read.
      set (i := ideal_after skip vt dt h) in *. destruct (good (now i)); cbn [fst snd left_].
      - set (t := take skip n (left_ i) (now i)). exists (pa ++ got t). rewrite samples_values_app, samples_domains_app, app_length, !concat_app.
        split; [rewrite E, <- app_assoc; f_equal; symmetry; apply take_split|]. unfold answer. cbn [returned_count returned_values returned_domain returned_events count vals domain status].
        split; [lia|]. split; [|split].
        + intros N. rewrite V by (intros o0 I; apply N; now right). f_equal. destruct OV as [->|S]; auto. exfalso. apply (N o (or_introl eq_refl) S).
        + intros N. rewrite D by (intros o0 I; apply N; now right). f_equal. destruct OD as [->|S]; auto. exfalso. apply (N o (or_introl eq_refl) S).
        + intros S. rewrite EV by auto. unfold events_in. rewrite flat_map_app. f_equal. fold (events_in (got t)). unfold t. subst skip. symmetry. apply take_events.
      - exists pa. cbn [returned_count returned_values returned_domain returned_events]. rewrite !app_nil_r, Nat.add_0_r.
        split; auto. split; auto. split; [intros N; apply V; intros o0 I; apply N; now right|]. split; [intros N; apply D; intros o0 I; apply N; now right|auto]. }
    destruct o as [p|n|n|n|vt' dt'].
    - exists pa. cbn [ideal_step fst snd left_ flat_map returned_count returned_values returned_domain returned_events]. rewrite !app_nil_r, Nat.add_0_r, E, app_assoc.
      split; auto. split; auto. split; [intros N; apply V; intros o0 I; apply N; now right|]. split; [intros N; apply D; intros o0 I; apply N; now right|auto].
    - apply (READ true false n); cbn [reads_values_only skips_samples]; auto.
    - apply (READ true true n); cbn [reads_values_only skips_samples]; auto.
    - apply (READ false false n); cbn [reads_values_only skips_samples]; auto.
    - exists pa. cbn [ideal_step fst snd left_ flat_map returned_count returned_values returned_domain returned_events]. rewrite !app_nil_r, Nat.add_0_r.
      split; auto. split; auto. split; [intros N; apply V; intros o0 I; apply N; now right|]. split; [intros N; apply D; intros o0 I; apply N; now right|auto]. }
  destruct GEN as (pa & G). exists pa, (left_ (ideal_after skip vt dt h)). exact G.
Qed.

(** A read of n samples returns min n (available count), if the reader stays
    valid or does not skip events *)
Lemma until_take : forall skip l n m, (skip = false \/ good (then_ (take skip n (stream l) m)) = true) ->
  length (sample_values (got (take skip n (stream l) m))) = Nat.min n (untilEvent (fun e => if skip then match e with Gap _ => true | _ => false end else true) l).
Proof.
  intros skip. induction l as [|p l IH]; intros n m G; [cbn; lia|]. destruct p as [smp d|e].
  - destruct smp as [|x smp].
    + change (stream (Data [] d :: l)) with (Nothing (match d with Some _ => true | None => false end) (offset_at d 0) :: stream l) in *. cbn [take untilEvent length] in *.
      destruct n as [|n]; [reflexivity|]. cbn [cons_item got then_] in *. unfold sample_values. cbn [flat_map app]. apply (IH (S n) m). exact G.
    + change (stream (Data (x :: smp) d :: l)) with (samples_from 0 (x :: smp) d ++ stream l) in *. rewrite take_samples in *. cbn [untilEvent].
      destruct (Nat.ltb_spec n (length (x :: smp))) as [L|L].
      * cbn [got]. rewrite samples_values, firstn_length. lia.
      * cbn [prepend got then_] in *. rewrite samples_values_app, samples_values, app_length, IH by exact G. lia.
  - change (stream (Ev e :: l)) with (Event e :: stream l) in *. cbn [take untilEvent] in *. unfold reported in *.
    set (m' := meet e m) in *. clearbody m'. destruct skip; cbn [negb orb] in *; [|cbn; lia].
    destruct (good m') eqn:GM; cbn [negb orb] in *.
    + destruct e as [v d|g|k]; cbn [cons_item got then_] in *; [| |].
      * unfold sample_values. cbn [flat_map app]. apply IH. exact G.
      * cbn. lia.
      * unfold sample_values. cbn [flat_map app]. apply IH. exact G.
    + cbn [then_] in G. destruct G as [G|G]; [discriminate|]. rewrite GM in G. discriminate.
Qed.

Theorem c21_available_partial : forall skip vt dt h n o s, well_typed None None (received h) -> calls_ok skip vt dt h ->
  step (after skip vt dt h) (Read n) = (s, Returned o) -> (skip = false \/ valid o = true) -> count o = Nat.min n (getAvailableCount (after skip vt dt h)).
Proof.
  intros skip vt dt h n o s WT OK E G. pose proof (refines skip vt dt h WT OK) as [RR _]. pose proof (same_answer skip vt dt h (Read n) WT (conj I OK)) as SA. rewrite E in SA. cbn [snd ideal_step] in SA.
  unfold ideal_read in SA. destruct (good (now (ideal_after skip vt dt h))); [|discriminate]. cbn [snd] in SA. unfold answer in SA. inversion SA; subst o; clear SA. cbn [count valid] in *.
  rewrite (r_items _ _ _ _ RR) in *. set (m := now (ideal_after skip vt dt h)) in *. set (st := after skip vt dt h) in *. unfold getAvailableCount. rewrite (r_skip _ _ _ _ RR).
  pose proof (r_idx _ _ _ _ RR) as RX. unfold cur_items in *. destruct (cur st) as [[smp d]|]; [|cbn [app] in *; now apply until_take].
  destruct smp as [|x smp].
  - cbn [app take length] in *. destruct n as [|n]; [reflexivity|]. cbn [cons_item got then_] in *. unfold sample_values. cbn [flat_map app]. apply (until_take skip (queue st) (S n) m). exact G.
  - rewrite take_samples in *. rewrite skipn_length in *. destruct (Nat.ltb_spec n (length (x :: smp) - idx st)) as [L|L].
    + cbn [got]. rewrite samples_values, firstn_length, skipn_length. lia.
    + cbn [prepend got then_] in *. rewrite samples_values_app, samples_values, app_length, skipn_length, until_take by exact G. lia.
Qed.

(** ** Where the property fails *)
Definition scalar : desc := {| ty := 1; dims := []; oks := [1] |}.
Definition vector (n : nat) : desc := {| ty := 1; dims := [n]; oks := [1] |}.

(** F51: reading with domain values from packets without them never returns *)
Theorem c21_missing_domain_refuted : exists h, well_typed None None (received h) /\ snd (step (after false (Some 1) (Some 1) h) (ReadWithDomain 1)) = Hangs.
Proof.
  exists (rev [Enqueue (Ev (Desc (Is scalar) Null)); Read 0; Enqueue (Data [[7%Z]] None)]). split; [|reflexivity].
  cbn. split; auto. split; auto. split; [exists scalar; split; auto|]. split; [discriminate|exact I].
Qed.
(** ... nor from packets that precede any descriptor *)
Theorem c21_no_descriptor_refuted : exists h, snd (step (after false (Some 1) (Some 1) h) (Read 1)) = Hangs.
Proof. exists [Enqueue (Data [[7%Z]] None)]. reflexivity. Qed.

(** F52: after a change from array samples to scalar ones the reader still takes
    the old number of values per sample and reads beyond the packet *)
Theorem c21_back_to_scalar_refuted : exists h, snd (step (after false (Some 1) (Some 1) h) (Read 2)) = Ub
  /\ received h = [Ev (Desc (Is (vector 3)) Null); Data [[1; 2; 3]%Z] None; Ev (Desc (Is scalar) Unchanged); Data [[4]; [5]]%Z None].
Proof.
  exists (rev [Enqueue (Ev (Desc (Is (vector 3)) Null)); Enqueue (Data [[1; 2; 3]%Z] None); Enqueue (Ev (Desc (Is scalar) Unchanged)); Enqueue (Data [[4]; [5]]%Z None); Read 0; Read 1]).
  split; reflexivity.
Qed.

(** F53: a reader made from another one while a descriptor change is pending
    reads the packets before the change with the new descriptor *)
Theorem c21_from_existing_refuted : exists h r o, well_typed None None (received h) /\ sample_values (stream (received h)) = [[1; 2]; [3; 4]; [5; 6; 7; 8]; [9; 10; 11; 12]]%Z
  /\ results false (Some 1) (Some 1) h = [Done; Done; Done; Done; Returned o; Done; r] /\ returned_count r = 1 /\ returned_values r = [1; 2; 3; 4]%Z.
Proof.
  exists (rev [Enqueue (Ev (Desc (Is (vector 2)) Null)); Enqueue (Data [[1; 2]; [3; 4]]%Z None); Enqueue (Ev (Desc (Is (vector 4)) Unchanged)); Enqueue (Data [[5; 6; 7; 8]; [9; 10; 11; 12]]%Z None);
               Read 0; FromExisting (Some 1) (Some 1); Read 1]). eexists _, _.
  split; [|split; [reflexivity|split; [reflexivity|split; reflexivity]]]. cbn.
  split; auto. split; auto. split; [eexists; split; [reflexivity|repeat constructor]|]. split; [discriminate|]. split; [discriminate|]. split; auto. split; [eexists; split; [reflexivity|repeat constructor]|]. split; [discriminate|exact I].
Qed.

(** F54: more samples are at hand than asked for, and the call still waits *)
Theorem c21_wait_refuted : exists h n, well_typed None None (received h) /\ n <= getAvailableCount (after false (Some 1) (Some 1) h)
  /\ waitCondition (after false (Some 1) (Some 1) h) n false = false /\ waitCondition (after false (Some 1) (Some 1) h) n true = false.
Proof.
  exists (rev [Enqueue (Ev (Desc (Is scalar) Null)); Read 0; Enqueue (Data [[1]; [2]; [3]]%Z None); Read 1]), 1. split; [|split; [cbn; lia|split; reflexivity]].
  cbn. split; auto. split; auto. split; [exists scalar; split; auto; repeat constructor|]. split; [discriminate|exact I].
Qed.

(** A descriptor, packets of 3, 0 and 2 samples with domain, a gap, more data *)
Definition dom3 (o : Z) (l : list Z) : option dom := Some {| dd := scalar; dsmp := map (fun x => [x]) l; doff := Some o; ddelta := 10 |}.
Definition session : list op := rev
  [Enqueue (Ev (Desc (Is scalar) (Is scalar))); Enqueue (Data [[1]; [2]; [3]]%Z (dom3 100 [100; 110; 120]%Z)); Enqueue (Data [] (dom3 130 []%Z));
   ReadWithDomain 5; ReadWithDomain 2; Enqueue (Data [[4]; [5]]%Z (dom3 130 [130; 140]%Z)); Enqueue (Ev (Gap 7)); ReadWithDomain 2;
   FromExisting (Some 1) (Some 1); ReadWithDomain 2; Enqueue (Data [[6]]%Z (dom3 220 [220]%Z)); ReadWithDomain 9].
Example c21_ex : well_typed None None (received session) /\ calls_ok false (Some 1) (Some 1) session
  /\ map returned_values (results false (Some 1) (Some 1) session) = [[]; []; []; []; [1; 2]; []; []; [3; 4]; []; [5]; []; [6]]%Z
  /\ concat (map returned_domain (results false (Some 1) (Some 1) session)) = [100; 110; 120; 130; 140; 220]%Z
  /\ concat (map returned_events (results false (Some 1) (Some 1) session)) = [Desc (Is scalar) (Is scalar); Gap 7]
  /\ (forall o, In o session -> ~ reads_values_only o).
Proof.
  split; [|split; [|split; [reflexivity|split; [reflexivity|split; [reflexivity|]]]]].
  - cbn. repeat (split; [try (exists scalar; split; [reflexivity|repeat constructor]); try (intros y E; inversion E; subst y; cbn; repeat split; auto; repeat constructor); auto|]); exact I.
  - cbn. repeat split; intros x H; cbn in H; repeat (destruct H as [H|H]; [subst x; exact (fun f => f)|]); destruct H.
  - intros o H. cbn in H. repeat (destruct H as [H|H]; [subst o; exact (fun f => f)|]). destruct H.
Qed.

Print Assumptions c21_refines_ideal_partial.
Print Assumptions c21_lossless_partial.
Print Assumptions c21_available_partial.
Print Assumptions c21_missing_domain_refuted.
Print Assumptions c21_no_descriptor_refuted.
Print Assumptions c21_back_to_scalar_refuted.
Print Assumptions c21_from_existing_refuted.
Print Assumptions c21_wait_refuted.
