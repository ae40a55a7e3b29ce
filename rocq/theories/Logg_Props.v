(** * Logg_Props: property C69 (loggers, their components and sinks) *)
From Coq Require Import Ascii String List Bool Arith ZArith Lia.
From Verif Require Import Logg_Model Logg_Spec Logg_Proofs.
Import ListNotations.
Open Scope string_scope.
Open Scope nat_scope.
Open Scope list_scope.

(** A logger has at most one component of a name, that component has the
    name, no name is empty, and two names never share a component. *)
Theorem c69_names : forall e s, made e s ->
  NoDup (map fst (names s)) /\
  (forall n i, find n (names s) = Some i -> nameIs i n s /\ n <> "") /\
  (forall n m i, find n (names s) = Some i -> find m (names s) = Some i -> n = m).
Proof.
  intros e s M. destruct (made_wf e s M) as [D H]. split; [exact D|]. split.
  - intros n i F. apply H. apply find_in. exact F.
  - intros n m i F G. destruct (proj1 (H n i (find_in _ _ _ F))) as [c [A B]]. destruct (proj1 (H m i (find_in _ _ _ G))) as [c' [A' B']]. congruence.
Qed.

(** Adding a new name gives a new component with the level and the flush
    level of the logger; other components stay as they are.  An empty name
    and, for adding, an existing one are refused without effect; getting an
    existing one gives that component without effect. *)
Theorem c69_add : forall e s n,
  (n = "" -> add e n s = (s, InvalidParameter, None) /\ getOrAdd e n s = (s, InvalidParameter, None)) /\
  (forall i, n <> "" -> find n (names s) = Some i -> add e n s = (s, AlreadyExists, None) /\ getOrAdd e n s = (s, Ok, Some i)) /\
  (n <> "" -> find n (names s) = None -> exists s',
     add e n s = (s', Ok, Some (length (comps s))) /\ getOrAdd e n s = (s', Ok, Some (length (comps s))) /\
     find n (names s') = Some (length (comps s)) /\ (forall m, m <> n -> find m (names s') = find m (names s)) /\
     nameIs (length (comps s)) n s' /\ levelIs (length (comps s)) (fromParam e n (level s)) s' /\ flushIs (length (comps s)) (flushLevel s) s' /\
     (forall i c, nth_error (comps s) i = Some c -> nth_error (comps s') i = Some c) /\
     queue s' = queue s /\ sinks s' = sinks s).
Proof.
  intros e s n. split; [intros ->; split; reflexivity|]. split.
  - intros i N F. unfold add, getOrAdd. apply String.eqb_neq in N. rewrite N, F. split; reflexivity.
  - intros N F. exists (create e n s). unfold add, getOrAdd. apply String.eqb_neq in N. rewrite N, F.
    assert (L : nth_error (comps (create e n s)) (length (comps s)) = Some (Comp n (fromParam e n (level s)) (flushLevel s))).
    { cbn [create comps]. rewrite nth_error_app2, Nat.sub_diag by lia. reflexivity. }
    split; [reflexivity|]. split; [reflexivity|]. split; [cbn [create names find]; rewrite String.eqb_refl; reflexivity|].
    split; [intros m Nm; cbn [create names find]; destruct (String.eqb_spec n m) as [E|_]; [congruence|reflexivity]|].
    split; [eexists; split; [exact L|reflexivity]|]. split; [eexists; split; [exact L|reflexivity]|]. split; [eexists; split; [exact L|reflexivity]|].
    split; [intros i c H; cbn [create comps]; apply nth_snoc; exact H|]. split; reflexivity.
Qed.

(** Until its name is removed, a component is the one everybody gets by its
    name. *)
Theorem c69_same : forall e s l n i, made e s -> find n (names s) = Some i -> Forall (keepsName n) l ->
  find n (names (run e l s)) = Some i /\ getOrAdd e n (run e l s) = (run e l s, Ok, Some i).
Proof.
  intros e s l n i M F K. assert (G := run_keeps e l s n i K F). split; [exact G|]. unfold getOrAdd.
  destruct (c69_names e s M) as [_ [H _]]. destruct (H n i F) as [_ N]. apply String.eqb_neq in N. rewrite N, G. reflexivity.
Qed.

(** Removing takes away the name alone; if it is added again, it is a new
    component. *)
Theorem c69_remove : forall e s n, made e s ->
  (find n (names s) = None -> remove n s = (s, NotFound)) /\
  (forall i, find n (names s) = Some i -> exists s', remove n s = (s', Ok) /\
     find n (names s') = None /\ (forall m, m <> n -> find m (names s') = find m (names s)) /\ comps s' = comps s /\ sinks s' = sinks s /\
     waiting s' = waiting s /\
     forall l, let s2 := run e (l ++ [GetOrAdd n]) s' in ~ In (GetOrAdd n) l -> ~ In (Add n) l -> exists j, find n (names s2) = Some j /\ j <> i).
Proof.
  intros e s n M. split; [intro F; unfold remove; rewrite F; reflexivity|]. intros i F. unfold remove. rewrite F. eexists. split; [reflexivity|]. cbn [names comps sinks].
  split; [rewrite find_filter, String.eqb_refl; reflexivity|]. split; [intros m N; rewrite find_filter; destruct (String.eqb_spec n m); [congruence|reflexivity]|].
  split; [reflexivity|]. split; [reflexivity|]. split.
  { unfold waiting. cbn [queue]. rewrite flat_map_app. apply app_nil_r. }
  destruct (c69_names e s M) as [_ [H _]]. destruct (H n i F) as [[c [C _]] NE].
  set (s' := Lg _ _ _ _ _ _). intros l A B.
  assert (Z : forall l t, find n (names t) = None -> i < length (comps t) -> ~ In (GetOrAdd n) l -> ~ In (Add n) l ->
             find n (names (run e l t)) = None /\ i < length (comps (run e l t))).
  { clear. induction l as [|p l IH]; intros t N L A B; [split; assumption|]. cbn [run].
    assert (Cr : forall m, m <> n -> find n (names (create e m t)) = None /\ i < length (comps (create e m t))).
    { intros m Nm. cbn [create names comps find]. rewrite app_length. cbn [length]. destruct (String.eqb_spec m n); [congruence|]. split; [exact N|lia]. }
    assert (X : find n (names (step e p t)) = None /\ i < length (comps (step e p t))).
    { destruct p; cbn [step]; try (split; assumption).
      - split; [exact N|]. cbn [flushOn comps]. fold (onAll lv (names t) (comps t)). rewrite onAll_length. exact L.
      - unfold add. destruct (String.eqb n0 ""); [split; assumption|]. destruct (find n0 (names t)); [split; assumption|]. apply Cr. intros ->. apply B. left. reflexivity.
      - unfold getOrAdd. destruct (String.eqb n0 ""); [split; assumption|]. destruct (find n0 (names t)); [split; assumption|]. apply Cr. intros ->. apply A. left. reflexivity.
      - unfold remove. destruct (find n0 (names t)); [|split; assumption]. cbn [fst names comps]. rewrite find_filter. split; [destruct (String.eqb n0 n); [reflexivity|exact N]|exact L].
      - split; [exact N|]. cbn [compLevel withComps comps]. rewrite update_length. exact L.
      - split; [exact N|]. cbn [compFlushOn withComps comps]. rewrite update_length. exact L.
      - destruct (i0 <? length (comps t)); split; assumption.
      - unfold log. destruct (shouldLog i0 lv t); split; assumption.
      - unfold work. destruct (queue t); split; assumption. }
    apply IH; [exact (proj1 X)|exact (proj2 X)| |]; intro Y; [apply A|apply B]; right; exact Y. }
  destruct (Z l s') as [P1 P2]; [unfold s'; cbn [names]; rewrite find_filter, String.eqb_refl; reflexivity|unfold s'; cbn [comps]; apply nth_error_Some; congruence|exact A|exact B|].
  exists (length (comps (run e l s'))). rewrite run_app. cbn [run step]. unfold getOrAdd. apply String.eqb_neq in NE. rewrite NE, P1. cbn [fst create names find].
  rewrite String.eqb_refl. split; [reflexivity|lia].
Qed.

Definition plain : env := Env (fun _ => None) 2.

Example c69_names_example :
  let s := run plain [Add "a"; GetOrAdd "b"; Add "a"; CompLevel 1 4; SetLevel 5] (new 3 [0; 4]) in
  made plain s /\ find "a" (names s) = Some 0 /\ find "b" (names s) = Some 1 /\ find "c" (names s) = None /\
  levelIs 0 3 s /\ levelIs 1 4 s /\ Forall (keepsName "a") [Remove "b"; GetOrAdd "a"].
Proof.
  split; [repeat eexists|]. repeat split; try (vm_compute; reflexivity); try (eexists; split; reflexivity).
  constructor; [discriminate|]. constructor; [exact Coq.Init.Logic.I|constructor].
Qed.

(** The level of a component changes only if it is set on the component
    itself. *)
Theorem c69_level : forall e s l i lv, levelIs i lv s -> Forall (keepsLevel i) l -> levelIs i lv (run e l s).
Proof. intros. apply run_level; assumption. Qed.

Theorem c69_level_set : forall e s i n lv, nameIs i n s -> levelIs i (fromParam e n lv) (step e (CompLevel i lv) s).
Proof.
  intros e s i n lv [c [H N]]. unfold levelIs. cbn [step compLevel withComps comps]. rewrite nth_update, Nat.eqb_refl, H. eexists. split; [reflexivity|]. cbn [clevel]. congruence.
Qed.

Example c69_level_example :
  let s := run plain [Add "a"] (new 3 [0]) in levelIs 0 3 s /\ Forall (keepsLevel 0) [SetLevel 0; CompLevel 1 0; FlushOn 2; Add "b"] /\ nameIs 0 "a" s.
Proof. split; [eexists; split; reflexivity|]. split; [repeat constructor; discriminate|eexists; split; reflexivity]. Qed.

(** The level Default stands for the variable of the component if that is a
    number from 0 to 6, for the general one if the first is not set, not a
    number or negative, and the second is from 0 to 6, and else for that of
    the build.  Any other level stands for itself. *)
Theorem c69_default : forall e n u, capitals n u ->
  let own := ("OPENDAQ_" ++ u ++ "_LOG_LEVEL")%string in
  let isLevel v z := exists t, var e v = Some t /\ stoi t = Some z in
  (forall lv, lv <> Default -> fromParam e n lv = lv) /\
  (forall z, isLevel own z -> (0 <= z <= 6)%Z -> fromParam e n Default = Z.to_nat z) /\
  ((forall z, isLevel own z -> (z < 0)%Z) ->
     (forall z, isLevel "OPENDAQ_LOG_LEVEL" z -> (0 <= z <= 6)%Z -> fromParam e n Default = Z.to_nat z) /\
     ((forall z, isLevel "OPENDAQ_LOG_LEVEL" z -> (z < 0 \/ 6 < z)%Z) -> fromParam e n Default = built e)).
Proof.
  intros e n u U own isLevel. apply upper_name in U.
  assert (Y : forall v z, isLevel v z -> levelOf e v = z) by (intros v z [t [A B]]; unfold levelOf; rewrite A, B; reflexivity).
  assert (N : forall v, levelOf e v = (-1)%Z \/ isLevel v (levelOf e v)).
  { intro v. unfold levelOf, isLevel. destruct (var e v) as [t|]; [|left; reflexivity]. destruct (stoi t) as [z|] eqn:E; [|left; reflexivity]. right. exists t. split; [reflexivity|exact E]. }
  split; [intros lv H; unfold fromParam; apply Nat.eqb_neq in H; rewrite H; reflexivity|]. unfold fromParam. rewrite Nat.eqb_refl. unfold defaultLevel. rewrite <- U. fold own. cbv zeta. split.
  - intros z H B. rewrite (Y _ _ H). assert (L : (z <? 0)%Z = false) by (apply Z.ltb_ge; lia). rewrite !L. assert (G : (6 <? z)%Z = false) by (apply Z.ltb_ge; lia). rewrite G. reflexivity.
  - intro H. assert (L : (levelOf e own <? 0)%Z = true) by (apply Z.ltb_lt; destruct (N own) as [E|E]; [lia|exact (H _ E)]). rewrite L. split.
    + intros z Hz B. rewrite (Y _ _ Hz). assert (L2 : (z <? 0)%Z = false) by (apply Z.ltb_ge; lia). rewrite L2. assert (G : (6 <? z)%Z = false) by (apply Z.ltb_ge; lia). rewrite G. reflexivity.
    + intro Hz. destruct (N "OPENDAQ_LOG_LEVEL") as [E|E]; [rewrite E; reflexivity|]. destruct (Hz _ E) as [X|X].
      * apply Z.ltb_lt in X. rewrite X. reflexivity.
      * apply Z.ltb_lt in X. rewrite X. rewrite orb_true_r. reflexivity.
Qed.

(** Numbers in variables are decimal; those above 2147483647 do not count as
    numbers. *)
Theorem c69_numbers : forall n,
  let text := DecimalString.NilEmpty.string_of_uint (N.to_uint n) in
  ((n <= 2147483647)%N -> stoi text = Some (Z.of_N n)) /\ ((2147483647 < n)%N -> stoi text = None) /\
  ((n <= 2147483647)%N -> stoi (" -" ++ text)%string = Some (- Z.of_N n)%Z).
Proof.
  intros n text. split; [apply stoi_number|]. split; [apply stoi_large|]. intro L. assert (H := stoi_number n L). fold text in H.
  destruct (first_digit _ (to_uint_some n)) as [c [r [E [D [Sp [M P]]]]]]. fold text in E. unfold stoi in *. cbn [append skip]. change (isSpace " "%char) with true. cbv iota. cbn [skip].
  change (isSpace "-"%char) with false. cbv iota. cbn [signed]. rewrite E in *. cbn [skip] in H. rewrite Sp, (signed_digit c r M P) in H.
  destruct (number (String c r)) as [z|]; [|discriminate]. destruct ((-2147483648 <=? z) && (z <=? 2147483647))%Z eqn:B; [|discriminate]. injection H as ->.
  apply andb_true_iff in B. destruct B as [B1 B2]. apply Z.leb_le in B1. apply Z.leb_le in B2.
  assert (X : ((-2147483648 <=? - Z.of_N n) && (- Z.of_N n <=? 2147483647))%Z = true) by (apply andb_true_iff; split; apply Z.leb_le; lia). rewrite X. reflexivity.
Qed.

(** White space before them is skipped: blanks and the characters 9 to 13. *)
Theorem c69_spaces : forall c t, c = " "%char \/ (exists k, 9 <= k <= 13 /\ c = ascii_of_nat k) -> stoi (String c t) = stoi t.
Proof.
  intros c t H. assert (E : isSpace c = true).
  { destruct H as [->|[k [B ->]]]; [reflexivity|]. do 9 (destruct k as [|k]; [lia|]). do 5 (destruct k as [|k]; [reflexivity|]). lia. }
  unfold stoi. cbn [skip]. rewrite E. reflexivity.
Qed.

Example c69_default_example :
  capitals "reader" "READER" /\
  let e := Env (fun v => if String.eqb v "OPENDAQ_READER_LOG_LEVEL" then Some " 4x" else if String.eqb v "OPENDAQ_LOG_LEVEL" then Some "+1" else None) 2 in
  fromParam e "reader" Default = 4 /\ fromParam e "Reader" Default = 4 /\ fromParam e "other" Default = 1 /\ fromParam plain "other" Default = 2 /\
  stoi "" = None /\ stoi "abc" = None /\ stoi "-3" = Some (-3)%Z /\ stoi "99999999999" = None.
Proof. split; [apply upper_name; reflexivity|]. repeat split; vm_compute; reflexivity. Qed.

(** Finding: a number above 6 in the variable of a component hides the
    general variable. *)
Theorem c69_default_refuted : exists e n u, capitals n u /\
  var e ("OPENDAQ_" ++ u ++ "_LOG_LEVEL")%string = Some "9" /\ var e "OPENDAQ_LOG_LEVEL" = Some "5" /\ fromParam e n Default <> 5.
Proof.
  exists (Env (fun v => if String.eqb v "OPENDAQ_A_LOG_LEVEL" then Some "9" else if String.eqb v "OPENDAQ_LOG_LEVEL" then Some "5" else None) 2), "a", "A".
  split; [apply upper_name; reflexivity|]. repeat split; try (vm_compute; reflexivity). vm_compute. discriminate.
Qed.

(** No component ever has the level Default. *)
Theorem c69_resolved : forall e lv ss l i c, built e <= Off -> lv <= Default -> Forall sane l ->
  nth_error (comps (run e l (new lv ss))) i = Some c -> clevel c <= Off.
Proof.
  intros e lv ss l i c B L S0 H. assert (G : forall l s, Forall sane l -> bounded s -> bounded (run e l s)).
  { clear - B. induction l as [|p l IH]; intros s F W; [exact W|]. inversion F; subst. cbn [run]. apply IH; [assumption|]. apply step_bounded; assumption. }
  destruct (G l (new lv ss) S0) as [_ F]; [split; [exact L|constructor]|]. rewrite Forall_forall in F. apply F. apply nth_error_In in H. exact H.
Qed.

Example c69_resolved_example :
  Forall sane [Add "a"; CompLevel 0 Default] /\ built plain <= Off /\ nth_error (comps (run plain [Add "a"; CompLevel 0 Default] (new Default []))) 0 = Some (Comp "a" 2 6).
Proof. split; [repeat constructor|]. split; [unfold Off; cbn; lia|vm_compute; reflexivity]. Qed.

(** Every sink gets, in the order they were logged, exactly the messages of
    at least its level that their component accepted when they were logged;
    those it did not get yet wait for the thread. *)
Theorem c69_delivery : forall e lv ss l k sl, Forall keepsSinks l -> nth_error ss k = Some sl ->
  let s := run e l (new lv ss) in
  exists x, sinkOf k s = Some x /\ slevel x = sl /\
    got x ++ atLeast sl (waiting s) = atLeast sl (accepted e l (new lv ss)).
Proof.
  intros e lv ss l k sl F H s. destruct (run_delivery e l _ k _ F (new_sink lv ss k sl H)) as [x [A [B C]]]. exists x. split; [exact A|]. split; [exact B|]. exact C.
Qed.

(** Once the thread has worked off its queue they all have arrived. *)
Theorem c69_delivered : forall e lv ss l k sl, Forall keepsSinks l -> nth_error ss k = Some sl ->
  forall w, length (queue (run e l (new lv ss))) <= w ->
  exists x, sinkOf k (run e (l ++ repeat Work w) (new lv ss)) = Some x /\ got x = atLeast sl (accepted e l (new lv ss)).
Proof.
  intros e lv ss l k sl F H w W.
  assert (D : forall w s, length (queue s) <= w -> queue (run e (repeat Work w) s) = [] /\ accepted e (repeat Work w) s = []).
  { clear. induction w as [|w IH]; intros s L; [destruct (queue s) eqn:Q; [split; [exact Q|reflexivity]|cbn [length] in L; lia]|].
    cbn [repeat run accepted step app]. apply IH. unfold work. destruct (queue s) as [|t r] eqn:Q; [rewrite Q; cbn [length]; lia|]. cbn [queue length] in *. lia. }
  destruct (D w (run e l (new lv ss)) W) as [Q A].
  assert (F2 : Forall keepsSinks (l ++ repeat Work w)).
  { apply Forall_app. split; [exact F|]. clear. induction w; cbn [repeat]; constructor; [exact Coq.Init.Logic.I|exact IHw]. }
  destruct (c69_delivery e lv ss _ k sl F2 H) as [x [X [_ Y]]]. exists x. split; [exact X|]. rewrite accepted_app, A, app_nil_r, run_app in Y.
  unfold waiting in Y. rewrite Q in Y. cbn [flat_map] in Y. change (atLeast sl []) with (@nil entry) in Y. rewrite app_nil_r in Y. exact Y.
Qed.

Example c69_delivery_example :
  let l := [Add "a"; Log 0 "x" 2; CompLevel 0 4; Log 0 "y" 3; Log 0 "z" 5; Work] in
  Forall keepsSinks l /\ accepted plain l (new 2 [0; 4]) = [(0, "x", 2); (0, "z", 5)] /\
  map got (sinks (run plain (l ++ repeat Work 1) (new 2 [0; 4]))) = [[(0, "x", 2); (0, "z", 5)]; [(0, "z", 5)]].
Proof. split; [repeat constructor|]. split; vm_compute; reflexivity. Qed.

(** Even if the levels of sinks are changed at any time, a sink gets only
    messages that were accepted, each once and in order. *)
Theorem c69_order : forall e lv ss l k x,
  sinkOf k (run e l (new lv ss)) = Some x ->
  sub (got x ++ waiting (run e l (new lv ss))) (accepted e l (new lv ss)).
Proof.
  intros e lv ss l k x H. destruct (run_order e l _ k x H) as [y [A B]]. cbn [new sinks] in A. rewrite nth_error_map in A.
  destruct (nth_error ss k) as [v|]; [|discriminate]. injection A as <-. exact B.
Qed.

(** A message is accepted exactly if its level is at least that of the
    component, as asked before. *)
Theorem c69_should : forall e s i m lv v, levelIs i v s ->
  (shouldLog i lv s = true <-> v <= lv) /\
  (v <= lv -> waiting (step e (Log i m lv) s) = waiting s ++ [(i, m, lv)]) /\
  (lv < v -> step e (Log i m lv) s = s).
Proof.
  intros e s i m lv v [c [H <-]]. cbn [step]. unfold log, shouldLog. rewrite H. rewrite Nat.leb_le. split; [reflexivity|]. split.
  - intro L. apply Nat.leb_le in L. rewrite L. unfold waiting. cbn [post queue]. rewrite flat_map_app. reflexivity.
  - intro L. apply Nat.leb_gt in L. rewrite L. reflexivity.
Qed.

(** Finding: a component of level Off accepts messages of level Off. *)
Theorem c69_off_refuted : exists e s i m, levelIs i Off s /\ waiting (step e (Log i m Off) s) <> waiting s.
Proof.
  exists plain, (run plain [Add "a"] (new Off [0])), 0, "x". split; [eexists; split; reflexivity|]. vm_compute. discriminate.
Qed.

(** Finding: for sinks the level Default is above all others, not the default
    one. *)
Theorem c69_sink_default_refuted : forall e s k x y, sinkOf k (step e (SinkLevel k Default) s) = Some x ->
  snd y <= Off -> deliver y x = x.
Proof.
  intros e s k x y H L. unfold sinkOf in H. cbn [step withSinks sinks] in H. rewrite nth_update, Nat.eqb_refl in H.
  destruct (nth_error (sinks s) k) as [z|]; [|discriminate]. injection H as <-. unfold deliver, eLevel. cbn [slevel].
  destruct (Nat.leb_spec Default (snd y)) as [G|G]; [unfold Default, Off in *; lia|reflexivity].
Qed.

(** After a flush of a logger that has a component, a flush of a component or
    the removal of one, all messages accepted before, of any component, have
    reached their sinks and were written out as soon as the thread has worked
    once more than there were entries in its queue, whatever else happens
    meanwhile. *)
Theorem c69_flush_partial : forall e lv ss l p l2 k sl, Forall keepsSinks l -> Forall keepsSinks l2 -> nth_error ss k = Some sl ->
  let s := run e l (new lv ss) in
  flushes p s -> length (queue s) < works l2 ->
  exists x r, sinkOf k (run e (l ++ p :: l2) (new lv ss)) = Some x /\
    got x = atLeast sl (accepted e l (new lv ss)) ++ r /\
    length (atLeast sl (accepted e l (new lv ss))) <= flushed x.
Proof.
  intros e lv ss l p l2 k sl F F2 H s N W. destruct (c69_delivery e lv ss l k sl F H) as [y [Y [Ys Yd]]]. fold s in Y, Yd.
  assert (Fin := made_fine e lv ss l k y Y).
  assert (Q : keepsSinks p /\ (exists r, queue (step e p s) = queue s ++ FlushT :: r) /\ (sinks (step e p s) = sinks s \/ sinks (step e p s) = map flushSink (sinks s))).
  { destruct p; cbn [flushes] in N; try (destruct N; fail); cbn [step].
    - destruct N as [i N]. unfold remove. rewrite N. split; [exact Coq.Init.Logic.I|]. split; [eexists; reflexivity|left; reflexivity].
    - destruct N as [c N]. assert (L : i < length (comps s)) by (apply nth_error_Some; congruence). apply Nat.ltb_lt in L. rewrite L.
      split; [exact Coq.Init.Logic.I|]. split; [eexists; reflexivity|left; reflexivity].
    - split; [exact Coq.Init.Logic.I|]. split; [|right; reflexivity]. unfold flush. cbv zeta. cbn [withSinks post queue]. destruct (names s) as [|n ns]; [destruct N; reflexivity|]. eexists. reflexivity. }
  destruct Q as [Kp [[q Q] Sk]].
  assert (A : exists y', nth_error (sinks (step e p s)) k = Some y' /\ slevel y' = slevel y /\ got y' = got y /\ flushed y' <= length (got y')).
  { destruct Sk as [Sk|Sk]; rewrite Sk; [exists y; repeat split; assumption|]. exists (flushSink y). split; [apply map_nth_error; exact Y|]. repeat split. cbn [flushSink flushed got]. lia. }
  destruct A as [y' [A [As [Ag Fy]]]].
  destruct (flush_later e l2 _ k _ _ _ F2 A Fy Q W) as [x [X [Xs Xf]]].
  assert (E : run e (l ++ p :: l2) (new lv ss) = run e l2 (step e p s)) by (rewrite run_app; reflexivity).
  assert (Len : length (atLeast sl (accepted e l (new lv ss))) <= flushed x).
  { rewrite <- Yd, app_length. rewrite As, Ag, Ys in Xf. change (waiting s) with (msgs (queue s)). lia. }
  assert (F3 : Forall keepsSinks (l ++ p :: l2)) by (apply Forall_app; split; [exact F|constructor; [exact Kp|exact F2]]).
  destruct (c69_delivery e lv ss _ k sl F3 H) as [x' [X' [_ Xd]]]. rewrite E in X', Xd. unfold sinkOf in X'. rewrite X in X'. injection X' as <-.
  rewrite accepted_app, atLeast_app in Xd. destruct (prefix _ _ _ _ _ Xd) as [r R]; [lia|].
  exists x, r. rewrite E. split; [exact X|]. split; [exact R|exact Len].
Qed.

(** A flush of the logger at once writes out what its sinks have. *)
Theorem c69_flush_now : forall e s k x, sinkOf k s = Some x ->
  exists x', sinkOf k (step e Flush s) = Some x' /\ got x' = got x /\ slevel x' = slevel x /\ flushed x' = length (got x).
Proof.
  intros e s k x H. exists (flushSink x). split; [|repeat split]. unfold sinkOf in *. cbn [step]. unfold flush. cbv zeta. cbn [withSinks post sinks]. apply map_nth_error. exact H.
Qed.

(** Setting the level of a sink, of the logger or the flush level of a
    component changes nothing else. *)
Theorem c69_sink_level : forall e s k lv x, sinkOf k s = Some x ->
  let s' := step e (SinkLevel k lv) s in
  sinkOf k s' = Some (Sink lv (got x) (flushed x)) /\ (forall j, j <> k -> sinkOf j s' = sinkOf j s) /\
  comps s' = comps s /\ names s' = names s /\ queue s' = queue s /\ level s' = level s.
Proof.
  intros e s k lv x H s'. unfold s', sinkOf in *. cbn [step withSinks sinks comps names queue level]. rewrite nth_update, Nat.eqb_refl, H. split; [reflexivity|]. split; [|repeat split].
  intros j N. rewrite nth_update. apply Nat.neq_sym, Nat.eqb_neq in N. rewrite N. reflexivity.
Qed.

Theorem c69_logger_level : forall e s lv, let s' := step e (SetLevel lv) s in
  level s' = lv /\ comps s' = comps s /\ names s' = names s /\ queue s' = queue s /\ sinks s' = sinks s.
Proof. intros. repeat split. Qed.

Theorem c69_comp_flush_level : forall e s i lv c, nth_error (comps s) i = Some c ->
  let s' := step e (CompFlushOn i lv) s in
  flushIs i lv s' /\ (forall j, j <> i -> nth_error (comps s') j = nth_error (comps s) j) /\ sinks s' = sinks s /\ queue s' = queue s.
Proof.
  intros e s i lv c H s'. unfold s', flushIs. cbn [step compFlushOn withComps comps sinks queue]. split; [rewrite nth_update, Nat.eqb_refl, H; eexists; split; reflexivity|].
  split; [|split; reflexivity]. intros j N. rewrite nth_update. apply Nat.neq_sym, Nat.eqb_neq in N. rewrite N. reflexivity.
Qed.

Example c69_flush_example :
  let l := [Add "a"; Log 0 "x" 2; Log 0 "y" 3] in
  flushes Flush (run plain l (new 2 [0])) /\ flushes (CompFlush 0) (run plain l (new 2 [0])) /\ flushes (Remove "a") (run plain l (new 2 [0])) /\
  length (queue (run plain l (new 2 [0]))) < works [Work; Log 0 "z" 3; Work; Work] /\
  map flushed (sinks (run plain (l ++ Flush :: [Work; Log 0 "z" 3; Work; Work]) (new 2 [0]))) = [2].
Proof.
  split; [vm_compute; discriminate|]. split; [eexists; vm_compute; reflexivity|]. split; [eexists; vm_compute; reflexivity|].
  split; [vm_compute; lia|vm_compute; reflexivity].
Qed.

(** Finding: without components, a flush does not write out messages of
    removed ones that wait for the thread, even after it has worked. *)
Theorem c69_flush_refuted : exists e l s,
  s = run e l (new 2 [0]) /\ accepted e l (new 2 [0]) = [(0, "x", 2)] /\
  forall w, 2 <= w -> map (fun x => (got x, flushed x)) (sinks (run e (Flush :: repeat Work w) s)) = [([(0, "x", 2)], 0)].
Proof.
  exists plain, [Add "a"; Remove "a"; Log 0 "x" 2], (run plain [Add "a"; Remove "a"; Log 0 "x" 2] (new 2 [0])).
  split; [reflexivity|]. split; [vm_compute; reflexivity|]. intros w W. destruct w as [|[|w]]; [lia|lia|].
  assert (Z : forall w s, queue s = [] -> run plain (repeat Work w) s = s).
  { clear. induction w as [|w IH]; intros s Q; [reflexivity|]. cbn [repeat run step]. unfold work at 1. rewrite Q. apply IH. exact Q. }
  change (run plain (Flush :: repeat Work (S (S w))) ?s) with (run plain (repeat Work w) (work (work (flush s)))). rewrite Z; vm_compute; reflexivity.
Qed.

(** Messages of at least the flush level of their component, other than Off,
    are written out when they arrive. *)
Theorem c69_auto : forall e s x r c, queue s = Msg x :: r -> nth_error (comps s) (fst (fst x)) = Some c ->
  cflush c <= snd x -> snd x <> Off ->
  Forall (fun k => flushed k = length (got k)) (sinks (step e Work s)).
Proof.
  intros e s x r c Q H L N. cbn [step]. unfold work. rewrite Q. cbv zeta. cbn [sinks]. unfold autoFlush. rewrite H. apply Nat.leb_le in L. unfold eLevel.
  apply Nat.eqb_neq in N. rewrite L, N. cbn [andb negb]. apply Forall_forall. intros k K. apply in_map_iff in K. destruct K as [y [<- _]]. reflexivity.
Qed.

(** Others are not. *)
Theorem c69_auto_not : forall e s x r c k y, queue s = Msg x :: r -> nth_error (comps s) (fst (fst x)) = Some c ->
  snd x < cflush c \/ snd x = Off -> sinkOf k s = Some y ->
  exists y', sinkOf k (step e Work s) = Some y' /\ flushed y' = flushed y.
Proof.
  intros e s x r c k y Q H L Y. cbn [step]. unfold work. rewrite Q. cbv zeta. unfold sinkOf in *. cbn [sinks]. unfold autoFlush. rewrite H. unfold eLevel.
  assert (Z : (cflush c <=? snd x) && negb (snd x =? Off) = false).
  { destruct L as [L|L]; [apply Nat.leb_gt in L; rewrite L; reflexivity|rewrite L, Nat.eqb_refl; apply andb_false_r]. }
  rewrite Z. exists (deliver x y). split; [apply map_nth_error; exact Y|]. unfold deliver. destruct (slevel y <=? eLevel x); reflexivity.
Qed.

Example c69_auto_example :
  let s := run plain [FlushOn 4; Add "a"; Log 0 "x" 4] (new 2 [0]) in
  queue s = [Msg (0, "x", 4)] /\ nth_error (comps s) 0 = Some (Comp "a" 2 4).
Proof. split; vm_compute; reflexivity. Qed.

(** The flush level of a logger is that of all its components, now and later
    ones, unless it is set on the components; others keep theirs. *)
Theorem c69_flush_level : forall e lv ss l n i,
  Forall (fun p => forall j v, p <> CompFlushOn j v) l ->
  let s := run e l (new lv ss) in find n (names s) = Some i -> flushIs i (flushLevel s) s.
Proof.
  intros e lv ss l n i F s.
  assert (G : forall l s, wf s -> Forall (fun p => forall j v, p <> CompFlushOn j v) l -> (forall n i, find n (names s) = Some i -> flushIs i (flushLevel s) s) ->
              forall n i, find n (names (run e l s)) = Some i -> flushIs i (flushLevel (run e l s)) (run e l s)).
  { clear. induction l as [|p l IH]; intros s W F H; [exact H|]. inversion F as [|? ? F1 F2]; subst. cbn [run]. apply IH; [apply step_wf; exact W|exact F2|]. clear IH.
    intros n i. assert (Cr : forall m, find m (names s) = None -> find n (names (create e m s)) = Some i -> flushIs i (flushLevel (create e m s)) (create e m s)).
    { intros m M. cbn [create names find flushLevel]. destruct (String.eqb m n).
      - intro E. injection E as <-. eexists. split; [cbn [create comps]; rewrite nth_error_app2, Nat.sub_diag by lia; reflexivity|reflexivity].
      - intro E. destruct (H n i E) as [c [A B]]. exists c. split; [cbn [create comps]; apply nth_snoc; exact A|exact B]. }
    destruct p; cbn [step]; try (apply H).
    - intro E. unfold flushOn in *. cbn [names flushLevel] in *. apply find_in in E as E2. destruct W as [_ W]. destruct (W n i E2) as [[c [A _]] _].
      apply (onAll_in lv (names s) (comps s) i c A). apply in_map_iff. exists (n, i). split; [reflexivity|exact E2].
    - unfold add. destruct (String.eqb n0 ""); [apply H|]. destruct (find n0 (names s)) eqn:E; [apply H|apply Cr; exact E].
    - unfold getOrAdd. destruct (String.eqb n0 ""); [apply H|]. destruct (find n0 (names s)) eqn:E; [apply H|apply Cr; exact E].
    - unfold remove. destruct (find n0 (names s)); [|apply H]. cbn [fst names flushLevel]. rewrite find_filter. destruct (String.eqb n0 n); [discriminate|apply H].
    - intro E. destruct (H n i E) as [c [A B]]. cbn [compLevel withComps flushLevel]. unfold flushIs. cbn [compLevel withComps comps]. rewrite nth_update, A.
      destruct (i0 =? i); eexists; (split; [reflexivity|]); exact B.
    - destruct (F1 i0 lv). reflexivity.
    - destruct (i0 <? length (comps s)); apply H.
    - unfold log. destruct (shouldLog i0 lv s); apply H.
    - unfold work. destruct (queue s); apply H. }
  apply (G l (new lv ss)); [split; [constructor|intros ? ? []]|exact F|intros ? ? E; discriminate].
Qed.

Theorem c69_flush_level_others : forall e s lv i, ~ (exists n, In (n, i) (names s)) ->
  nth_error (comps (step e (FlushOn lv) s)) i = nth_error (comps s) i.
Proof.
  intros e s lv i N. cbn [step flushOn comps]. apply (onAll_other lv (names s) (comps s) i). intro H. apply in_map_iff in H. destruct H as [[n j] [E H]]. cbn [snd] in E. subst j. apply N. exists n. exact H.
Qed.

Example c69_flush_level_example :
  let s := run plain [Add "a"; Remove "a"; Add "b"; FlushOn 4; Add "c"] (new 2 [0]) in
  flushIs 0 6 s /\ flushIs 1 4 s /\ flushIs 2 4 s /\ find "c" (names s) = Some 2.
Proof. repeat split; try (eexists; split; reflexivity); vm_compute; reflexivity. Qed.

Print Assumptions c69_names.
Print Assumptions c69_add.
Print Assumptions c69_same.
Print Assumptions c69_remove.
Print Assumptions c69_level.
Print Assumptions c69_level_set.
Print Assumptions c69_default.
Print Assumptions c69_numbers.
Print Assumptions c69_spaces.
Print Assumptions c69_default_refuted.
Print Assumptions c69_resolved.
Print Assumptions c69_delivery.
Print Assumptions c69_delivered.
Print Assumptions c69_order.
Print Assumptions c69_should.
Print Assumptions c69_off_refuted.
Print Assumptions c69_sink_default_refuted.
Print Assumptions c69_flush_partial.
Print Assumptions c69_flush_refuted.
Print Assumptions c69_auto.
Print Assumptions c69_auto_not.
Print Assumptions c69_flush_now.
Print Assumptions c69_sink_level.
Print Assumptions c69_logger_level.
Print Assumptions c69_comp_flush_level.
Print Assumptions c69_flush_level.
Print Assumptions c69_flush_level_others.
