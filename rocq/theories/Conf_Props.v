(** C50: a saved configuration brings back the function blocks and their connections. *)
From Coq Require Import List Bool Arith Lia.
From Verif Require Import Conf_Model Conf_Spec Conf_Core Conf_Upd Conf_Proofs Conf_Any.
Import ListNotations.

(** Loading what was saved of [t] into the device [x] makes it the same as [t]:
    the same components and the same connections, whatever function blocks there
    were before. [x] has to have the fixed components (the channels, the built-in
    function blocks), their ports have to be free, and no connection may run in a
    circle. What is missing for the full claim: ports of fixed components that are
    connected otherwise (c50_keeps_old_refuted), properties and attributes. *)
Theorem c50_roundtrip_partial : forall w t x,
  tidy t -> tidy x -> sound w t -> regrows w t -> acyclic t ->
  fits w x t -> provided w x t -> ports_free w x t ->
  exists n0 r, (forall fuel, n0 <= fuel -> load w fuel x (save w t) = Loaded r) /\ same r t.
Proof. exact roundtrip. Qed.

(** A device can load its own configuration, and nothing changes. *)
Theorem c50_own : forall w t, tidy t -> sound w t -> regrows w t -> acyclic t -> provided w t t ->
  exists n0 r, (forall fuel, n0 <= fuel -> load w fuel t (save w t) = Loaded r) /\ same r t.
Proof.
  intros w t T S R A P. apply roundtrip; auto.
  - intros p m H. exists m. auto.
  - intros p m m' F H. pose proof (at_find _ _ _ (fixed_at _ _ _ _ F) (tidy_tidyf t T)) as Z1. pose proof (at_find _ _ _ H (tidy_tidyf t T)) as Z2.
    assert (m' = m) as -> by congruence. split; [exact (proj1 (ports_once w t S p m H))|auto].
Qed.

(** When types are missing (a module is not installed any more), all that does not
    need them is brought back: the components that there can be, and the
    connections between them. *)
Theorem c50_missing_types : forall w t x,
  tidy t -> tidy x -> sound w t -> plain w -> acyclic t -> rooted x -> fits w x t -> ports_free w x t ->
  exists n0 r, (forall fuel, n0 <= fuel -> load w fuel x (save w t) = Loaded r) /\ reduced w x t r.
Proof. exact missing. Qed.

(** Whatever is loaded, and whether or not it fails: the fixed components stay, and
    nothing is there afterwards that was neither there before nor in the file: no
    component, and no connection of a component to a signal. *)
Theorem c50_any_fixed_stay : forall w fuel x c r, tidy x ->
  load w fuel x c = Loaded r \/ load w fuel x c = Failed r ->
  forall p m, fixed w x p m -> exists m', fixed w r p m' /\ nty m' = nty m.
Proof. intros w fuel x c r T H. exact (proj1 (any w fuel x c r T H)). Qed.
Theorem c50_any_nothing_invented : forall w fuel x c r, tidy x ->
  load w fuel x c = Loaded r \/ load w fuel x c = Failed r ->
  forall p m', at_ r p m' ->
    ((exists m, at_ x p m /\ nty m = nty m') \/ (exists po, listed c p (nty m') po))
    /\ (forall port s, In (port, s) (ncn m') ->
         (exists m, at_ x p m /\ In (port, s) (ncn m))
         \/ (exists ty po port', listed c p ty po /\ In (port', Some s) po)).
Proof.
  intros w fuel x c r T H p m' A. destruct (any w fuel x c r T H) as (_ & B & C). split; [exact (B p m' A)|]. intros port s. exact (C p m' port s A).
Qed.

(** ** A case that meets the hypotheses *)

(** Type 0 is the device, 1 a channel with one port and one signal, 2 a function
    block that can be added and that always has one more port than are connected,
    3 a function block whose module is not installed, 4 a sub-device. *)
Definition ex_w : world :=
  World (fun _ ty => Nat.eqb ty 2) (fun p _ => negb (path_eqb p [29])) (fun ty => Nat.eqb ty 4)
    (fun ty c => match ty with 1 => [0] | 2 => seq 0 (S (length c)) | 3 => [0] | _ => [] end)
    (fun ty c => match ty with 1 => [0] | 2 => [0] | 3 => [0] | _ => [] end)
    (fun _ _ _ _ => true).
(** Channel 10 feeds both ports of block 20, which feeds block 21, inside of which
    there is block 22 fed by block 20; channel 11 is fed by block 21. *)
Definition ex_t : node :=
  Node 0 0 [] [Node 10 1 [] []; Node 11 1 [(0, ([21], 0))] [];
               Node 21 2 [(0, ([20], 0))] [Node 22 2 [(0, ([20], 0))] []];
               Node 20 2 [(1, ([10], 0)); (0, ([10], 0))] []].
(** Another block on the device it is loaded into, connected to channel 11. *)
Definition ex_x : node :=
  Node 0 0 [] [Node 10 1 [] []; Node 11 1 [(0, ([23], 0))] []; Node 23 2 [(0, ([10], 0))] []].

Ltac walk :=
  repeat match goal with
  | H : at_ (Node _ _ _ _) _ _ |- _ => inversion H; clear H; subst
  | H : fixed _ (Node _ _ _ _) _ _ |- _ => inversion H; clear H; subst
  | H : In _ (nsubs (Node _ _ _ _)) |- _ => cbn [nsubs] in H
  | H : In _ (ncn (Node _ _ _ _)) |- _ => cbn [ncn] in H
  | H : In _ (_ :: _) |- _ => destruct H as [H|H]; [subst|]
  | H : In _ [] |- _ => destruct H
  | H : (_, _) = (_, _) |- _ => injection H; clear H; intros; subst
  | H : w_avail ex_w _ _ = _ |- _ => vm_compute in H; first [discriminate|clear H]
  end.

Lemma ex_tidy : tidy ex_t /\ tidy ex_x.
Proof.
  split; intros p m H; unfold ex_t, ex_x in H; walk; cbn [nsubs map nid]; repeat constructor; cbn [In]; intuition discriminate.
Qed.
Lemma ex_sound : sound ex_w ex_t.
Proof.
  split.
  - intros p m H. unfold ex_t in H. walk; vm_compute; split; repeat constructor; cbn [In]; intuition discriminate.
  - intros p m port s H K. unfold ex_t in H. walk; vm_compute; auto.
  - intros p m port q n H K. unfold ex_t in H.
    assert (A10 : at_ ex_t [10] (Node 10 1 [] [])) by (apply find_at; vm_compute; reflexivity).
    assert (A20 : at_ ex_t [20] (Node 20 2 [(1, ([10], 0)); (0, ([10], 0))] [])) by (apply find_at; vm_compute; reflexivity).
    assert (A21 : at_ ex_t [21] (Node 21 2 [(0, ([20], 0))] [Node 22 2 [(0, ([20], 0))] []])) by (apply find_at; vm_compute; reflexivity).
    walk; eexists; (split; [eassumption|intros c _; left; reflexivity]).
  - intros p m k H K A. unfold ex_t in H. walk; vm_compute; reflexivity.
Qed.
Lemma ex_regrows : regrows ex_w ex_t.
Proof.
  assert (Q : forall before port after (c cn : conns), seq 0 (S (length cn)) = before ++ port :: after ->
            (forall q, In q (map fst cn) <-> q < length cn) -> In port (map fst cn) ->
            (forall q, In q before -> In q (map fst cn) -> In q (map fst c)) ->
            NoDup (map fst c) -> In port (seq 0 (S (length c)))).
  { intros before port after c cn E A P H D. apply in_seq.
    assert (Lb : length before < S (length cn)).
    { pose proof (f_equal (@length _) E) as Y. rewrite seq_length, app_length in Y. cbn [length] in Y. lia. }
    assert (length before = port).
    { pose proof (f_equal (fun l => nth (length before) l 0) E) as Z. cbn beta in Z. rewrite app_nth2, Nat.sub_diag in Z by lia. cbn [nth] in Z.
      rewrite seq_nth in Z; lia. }
    apply A in P.
    assert (length before <= length (map fst c)).
    { apply NoDup_incl_length.
      - pose proof (seq_NoDup (S (length cn)) 0) as Z. rewrite E in Z. clear -Z.
        induction before as [|a b IH]; [constructor|]. inversion Z as [|? ? N Z']; subst. constructor; [|exact (IH Z')]. intros K. apply N. apply in_or_app. left. exact K.
      - intros q Hq. apply H; [exact Hq|]. apply A. destruct (In_nth _ _ 0 Hq) as (j & J1 & J2).
        pose proof (f_equal (fun l => nth j l 0) E) as Z. cbn beta in Z. rewrite app_nth1, seq_nth in Z by lia. lia. }
    rewrite map_length in *. lia. }
  intros p m before port after s c H E K D Sub Hb. split; [|intros _; reflexivity]. unfold ex_t in H.
  assert (Hb' : forall q, In q before -> In q (map fst (ncn m)) -> In q (map fst c)).
  { intros q Hq Hm. apply in_map_iff in Hm. destruct Hm as ((q', r) & <- & Hm). cbn [fst] in *. apply in_map_iff. exists (q', r). auto. }
  assert (Kp : In port (map fst (ncn m))) by (apply in_map_iff; exists (port, s); auto).
  assert (C : nty m = 2 /\ (forall q, In q (map fst (ncn m)) <-> q < length (ncn m)) \/ nty m = 1 /\ port = 0).
  { clear -H K. walk; cbn [nty ncn map fst length In]; try (right; split; reflexivity).
    all: left; split; [reflexivity|]; intros q; lia. }
  destruct C as [(C1 & C2)|(C1 & ->)]; rewrite C1 in *; cbn [ex_w w_ports] in *; [|left; reflexivity].
  exact (Q before port after c (ncn m) E C2 Kp Hb' D).
Qed.
Lemma ex_acyclic : acyclic ex_t.
Proof.
  exists (fun p => match p with [10] => 0 | [20] => 1 | [21] => 2 | _ => 3 end). intros p m port s H K. unfold ex_t in H. walk; vm_compute; lia.
Qed.
Example c50_roundtrip_case : tidy ex_t /\ tidy ex_x /\ sound ex_w ex_t /\ regrows ex_w ex_t /\ acyclic ex_t
  /\ fits ex_w ex_x ex_t /\ provided ex_w ex_x ex_t /\ ports_free ex_w ex_x ex_t
  /\ load ex_w 20 ex_x (save ex_w ex_t) =
     Loaded (Node 0 0 [] [Node 10 1 [] []; Node 11 1 [(0, ([21], 0))] [];
               Node 21 2 [(0, ([20], 0))] [Node 22 2 [(0, ([20], 0))] []];
               Node 20 2 [(0, ([10], 0)); (1, ([10], 0))] []]).
Proof.
  split; [exact (proj1 ex_tidy)|]. split; [exact (proj2 ex_tidy)|]. split; [exact ex_sound|]. split; [exact ex_regrows|]. split; [exact ex_acyclic|].
  split; [|split; [|split]].
  - intros p m H. unfold ex_x in H. walk; eexists; (split; [apply fixedf_fixed; vm_compute; reflexivity|reflexivity]).
  - intros p m H. unfold ex_t in H. walk; apply keptf_kept; vm_compute; reflexivity.
  - intros p m m' F H. unfold ex_x in F. walk; (split; [repeat constructor; cbn [In]; intuition discriminate|]); intros port s K; walk.
    all: right; exists [], ex_x, (Node 23 2 [(0, ([10], 0))] []), []; (split; [constructor|]); (split; [right; right; left; reflexivity|]); split; reflexivity.
  - vm_compute. reflexivity.
Qed.
Example c50_own_case : provided ex_w ex_t ex_t.
Proof. intros p m H. unfold ex_t in H. walk; apply keptf_kept; vm_compute; reflexivity. Qed.

(** A file of another device, with a channel that is not there, a block given twice and
    a connection to a signal that is not there: it fails at the second block 20. *)
Example c50_any_case :
  load ex_w 20 ex_x (Cfg 0 0 [] [] [Cfg 12 1 [(0, Some ([10], 0))] [0] []; Cfg 20 2 [(0, Some ([99], 0)); (1, Some ([10], 0))] [0] []])
  = Loaded (Node 0 0 [] [Node 10 1 [] []; Node 11 1 [] []; Node 20 2 [(0, ([10], 0))] []])
  /\ load ex_w 20 ex_x (Cfg 0 0 [] [] [Cfg 20 2 [] [0] []; Cfg 20 2 [] [0] []])
  = Failed (Node 0 0 [] [Node 10 1 [] []; Node 11 1 [] []; Node 20 2 [] []]).
Proof. split; vm_compute; reflexivity. Qed.

(** The same without the module of type 3: block 30, fed by channel 10, is lost, and
    with it the connection from it to channel 11; block 20 is brought back. *)
Definition ex_p : world :=
  World (fun _ ty => Nat.eqb ty 2) (fun p _ => negb (path_eqb p [29])) (fun ty => Nat.eqb ty 4)
    (fun ty _ => match ty with 1 => [0] | 2 => [0; 1] | 3 => [0] | _ => [] end)
    (fun ty _ => match ty with 1 => [0] | 2 => [0] | 3 => [0] | _ => [] end)
    (fun _ _ _ _ => true).
Definition ex_t3 : node :=
  Node 0 0 [] [Node 10 1 [] []; Node 11 1 [(0, ([30], 0))] []; Node 30 3 [(0, ([10], 0))] [];
               Node 20 2 [(0, ([30], 0)); (1, ([10], 0))] []].
Definition ex_x3 : node := Node 0 0 [] [Node 10 1 [] []; Node 11 1 [(0, ([23], 0))] []; Node 23 2 [(0, ([10], 0))] []].
Ltac walk3 :=
  walk; repeat match goal with H : w_avail ex_p _ _ = _ |- _ => vm_compute in H; first [discriminate|clear H] end.
Example c50_missing_types_case : tidy ex_t3 /\ tidy ex_x3 /\ sound ex_p ex_t3 /\ plain ex_p /\ acyclic ex_t3 /\ rooted ex_x3
  /\ fits ex_p ex_x3 ex_t3 /\ ports_free ex_p ex_x3 ex_t3
  /\ load ex_p 20 ex_x3 (save ex_p ex_t3) =
     Loaded (Node 0 0 [] [Node 10 1 [] []; Node 11 1 [] []; Node 20 2 [(1, ([10], 0))] []]).
Proof.
  split; [intros p m H; unfold ex_t3 in H; walk3; cbn [nsubs map nid]; repeat constructor; cbn [In]; intuition discriminate|].
  split; [intros p m H; unfold ex_x3 in H; walk3; cbn [nsubs map nid]; repeat constructor; cbn [In]; intuition discriminate|].
  split; [|split; [repeat split|split; [|split; [|split; [|split]]]]].
  - split.
    + intros p m H. unfold ex_t3 in H. walk3; vm_compute; split; repeat constructor; cbn [In]; intuition discriminate.
    + intros p m port s H K. unfold ex_t3 in H. walk3; vm_compute; auto.
    + intros p m port q n H K. unfold ex_t3 in H.
      assert (A10 : at_ ex_t3 [10] (Node 10 1 [] [])) by (apply find_at; vm_compute; reflexivity).
      assert (A30 : at_ ex_t3 [30] (Node 30 3 [(0, ([10], 0))] [])) by (apply find_at; vm_compute; reflexivity).
      walk3; eexists; (split; [eassumption|intros c _; left; reflexivity]).
    + intros p m k H K A. unfold ex_t3 in H. walk3; vm_compute; reflexivity.
  - exists (fun p => match p with [10] => 0 | [30] => 1 | _ => 3 end). intros p m port s H K. unfold ex_t3 in H. walk3; vm_compute; lia.
  - intros p m port s H K. unfold ex_x3 in H. walk3; eexists; apply find_at; vm_compute; reflexivity.
  - intros p m H. unfold ex_x3 in H. walk3; eexists; (split; [apply fixedf_fixed; vm_compute; reflexivity|reflexivity]).
  - intros p m m' F H. unfold ex_x3 in F. walk3; (split; [repeat constructor; cbn [In]; intuition discriminate|]); intros port s K; walk3.
    all: right; exists [], ex_x3, (Node 23 2 [(0, ([10], 0))] []), []; (split; [constructor|]); (split; [right; right; left; reflexivity|]); split; reflexivity.
  - vm_compute. reflexivity.
Qed.

(** ** What goes wrong *)

(** One function block that cannot be created (its module refuses) makes the whole
    load fail, after the function blocks that were there have been removed: neither
    the old nor the new configuration is there, also not the saved block 20 that
    could be created, and nothing is connected. *)
Theorem c50_one_failure_loses_all_refuted : exists w t x r,
  tidy t /\ tidy x /\ (exists m, at_ x [23] m) /\ (exists m, at_ t [20] m) /\ w_ok w [20] 2 = true
  /\ (forall fuel, load w fuel x (save w t) = Failed r) /\ nsubs r = [Node 10 1 [] []].
Proof.
  exists ex_w, (Node 0 0 [] [Node 10 1 [] []; Node 29 2 [(0, ([10], 0))] []; Node 20 2 [(0, ([10], 0))] []]),
    (Node 0 0 [] [Node 10 1 [] []; Node 23 2 [(0, ([10], 0))] []]), (Node 0 0 [] [Node 10 1 [] []]).
  split; [intros p m H; walk; cbn [nsubs map nid]; repeat constructor; cbn [In]; intuition discriminate|].
  split; [intros p m H; walk; cbn [nsubs map nid]; repeat constructor; cbn [In]; intuition discriminate|].
  split; [eexists; apply find_at; vm_compute; reflexivity|]. split; [eexists; apply find_at; vm_compute; reflexivity|].
  split; [reflexivity|]. split; [intros fuel; vm_compute; reflexivity|reflexivity].
Qed.
(** In a sub-device (type 4) the failure is swallowed: the load reports success
    although the block 20 of the sub-device is gone. *)
Theorem c50_failure_unnoticed_refuted : exists w t x, tidy t /\ tidy x /\ same x t
  /\ (exists m, at_ t [40; 20] m) /\ exists n0 r, (forall fuel, n0 <= fuel -> load w fuel x (save w t) = Loaded r) /\ ~ exists m, at_ r [40; 20] m.
Proof.
  set (w := World (fun _ ty => Nat.eqb ty 2) (fun p _ => negb (path_eqb p [40; 20])) (fun ty => Nat.eqb ty 4)
    (fun ty _ => match ty with 2 => [0] | _ => [] end) (fun ty _ => match ty with 2 => [0] | _ => [] end) (fun _ _ _ _ => true)).
  set (t := Node 0 0 [] [Node 40 4 [] [Node 20 2 [] []]]).
  exists w, t, t. assert (T : tidy t) by (intros p m H; unfold t in H; walk; cbn [nsubs map nid]; repeat constructor; cbn [In]; intuition discriminate).
  split; [exact T|]. split; [exact T|]. split.
  { split; intros p m H; exists m; [|exact H]. split; [exact H|]. split; [reflexivity|]. unfold t in H. walk; (split; [constructor|tauto]). }
  split; [eexists; apply find_at; vm_compute; reflexivity|].
  exists 3, (Node 0 0 [] [Node 40 4 [] []]). split.
  - intros fuel H. destruct fuel as [|[|[|fuel]]]; [lia|lia|lia|]. vm_compute. reflexivity.
  - intros (m & H). apply at_find in H; [discriminate|]. intros q m' K. apply find_at in K. walk; cbn [nsubs map nid]; repeat constructor; cbn [In]; intuition discriminate.
Qed.
(** A port of a fixed component that is connected keeps its connection, whatever was
    saved: here to nothing, and to another channel. *)
Theorem c50_keeps_old_refuted : exists w t t' x,
  tidy t /\ tidy t' /\ sound w t /\ sound w t' /\ acyclic t /\ acyclic t' /\ ~ same x t /\ ~ same x t'
  /\ exists n0, forall fuel, n0 <= fuel -> load w fuel x (save w t) = Loaded x /\ load w fuel x (save w t') = Loaded x.
Proof.
  set (t := Node 0 0 [] [Node 10 1 [] []; Node 11 1 [] []; Node 12 1 [] []]).
  set (t' := Node 0 0 [] [Node 10 1 [] []; Node 11 1 [] []; Node 12 1 [(0, ([11], 0))] []]).
  set (x := Node 0 0 [] [Node 10 1 [] []; Node 11 1 [] []; Node 12 1 [(0, ([10], 0))] []]).
  exists ex_w, t, t', x.
  split; [intros p m H; unfold t in H; walk; cbn [nsubs map nid]; repeat constructor; cbn [In]; intuition discriminate|].
  split; [intros p m H; unfold t' in H; walk; cbn [nsubs map nid]; repeat constructor; cbn [In]; intuition discriminate|].
  assert (Tx : tidyf x) by (intros q m H; apply find_at in H; unfold x in H; walk; cbn [nsubs map nid]; repeat constructor; cbn [In]; intuition discriminate).
  assert (A : at_ t' [11] (Node 11 1 [] [])) by (apply find_at; vm_compute; reflexivity).
  split; [|split; [|split; [|split; [|split; [|split]]]]].
  - split; intros p m; [|intros port s|intros port q n|intros k]; intros H; unfold t in H; intros; walk; cbn; repeat constructor; cbn [In]; intuition discriminate.
  - split; intros p m; [|intros port s|intros port q n|intros k]; intros H; unfold t' in H; intros; walk; try (cbn; repeat constructor; cbn [In]; intuition discriminate).
    exists (Node 11 1 [] []). split; [exact A|]. intros c _. left. reflexivity.
  - exists (fun _ => 0). intros p m port s H K. unfold t in H. walk.
  - exists (fun p => match p with [12] => 1 | _ => 0 end). intros p m port s H K. unfold t' in H. walk; vm_compute; lia.
  - intros (S1 & _). destruct (S1 [12] (Node 12 1 [] [])) as (m' & A' & _ & _ & L); [apply find_at; vm_compute; reflexivity|]. apply at_find in A'; [|exact Tx]; injection A' as <-.
    exact (proj1 (L (0, ([10], 0))) (or_introl eq_refl)).
  - intros (S1 & _). destruct (S1 [12] (Node 12 1 [(0, ([11], 0))] [])) as (m' & A' & _ & _ & L); [apply find_at; vm_compute; reflexivity|]. apply at_find in A'; [|exact Tx]; injection A' as <-.
    destruct (proj1 (L (0, ([10], 0))) (or_introl eq_refl)) as [Z|[]]. discriminate.
  - exists 2. intros fuel H. destruct fuel as [|[|fuel]]; [lia|lia|]. split; vm_compute; reflexivity.
Qed.
(** A configuration in which a connection runs in a circle (such as a file edited by
    hand or merged from two) is never done loading: the calls nest without end. *)
Theorem c50_circle_never_loads_refuted : exists w t x, tidy t /\ tidy x /\ fits w x t /\ provided w x t /\ sound w t
  /\ forall fuel, load w fuel x (save w t) = Endless.
Proof.
  set (t := Node 0 0 [] [Node 20 2 [(0, ([21], 0))] []; Node 21 2 [(0, ([20], 0))] []]).
  set (x := Node 0 0 [] []).
  exists ex_w, t, x.
  split; [intros p m H; unfold t in H; walk; cbn [nsubs map nid]; repeat constructor; cbn [In]; intuition discriminate|].
  split; [intros p m H; unfold x in H; walk; cbn [nsubs map nid]; repeat constructor|].
  split; [intros p m H; unfold x in H; walk; eexists; (split; [apply fixedf_fixed; vm_compute; reflexivity|reflexivity])|].
  split; [intros p m H; unfold t in H; walk; apply keptf_kept; vm_compute; reflexivity|]. split.
  { assert (A20 : at_ t [20] (Node 20 2 [(0, ([21], 0))] [])) by (apply find_at; vm_compute; reflexivity).
    assert (A21 : at_ t [21] (Node 21 2 [(0, ([20], 0))] [])) by (apply find_at; vm_compute; reflexivity).
    split.
    - intros p m H. unfold t in H. walk; vm_compute; split; repeat constructor; cbn [In]; intuition discriminate.
    - intros p m port s H K. unfold t in H. walk; vm_compute; auto.
    - intros p m port q n H K. unfold t in H. walk; eexists; (split; [eassumption|intros c _; left; reflexivity]).
    - intros p m k H K A. unfold t in H. walk; vm_compute; reflexivity. }
  set (T := Node 0 0 [] [Node 20 2 [] []; Node 21 2 [] []]).
  set (X := Ctx [([20], [(0, ([21], 0))]); ([21], [(0, ([20], 0))])] [([21], 0); ([20], 0)]).
  assert (C : forall f, ended ex_w T f (Live [] X) [20] = None /\ ended ex_w T f (Live [] X) [21] = None).
  { induction f as [|f (IH1 & IH2)]; [split; reflexivity|]. split; cbn [ended].
    - change (find T [20]) with (Some (Node 20 2 [] [])). cbv iota beta.
      change (pget [20] (x_conns (l_ctx (Live [] X)))) with (Some [(0, (([21] : path), 0))]). cbv iota beta zeta. cbn [loop1].
      change (existsb (Nat.eqb 0) (w_ports ex_w (nty (Node 20 2 [] [])) (conns_of T (Live [] X) [20]))) with true. cbv iota.
      unfold port_ended. change (aget 0 (conns_of T (Live [] X) [20])) with (@None sig). cbv iota. unfold get_signal.
      change (pget [20] (x_conns (l_ctx (Live [] X)))) with (Some [(0, (([21] : path), 0))]). cbv iota. change (aget 0 [(0, (([21] : path), 0))]) with (Some (([21] : path), 0)). cbv iota zeta.
      change (existsb (sig_eqb ([21], 0)) (x_deps (l_ctx (Live [] X)))) with true.
      change (pget (fst (([21] : path), 0)) (x_conns (l_ctx (Live [] X)))) with (Some [(0, (([20] : path), 0))]). change (find T (fst (([21] : path), 0))) with (Some (Node 21 2 [] [])).
      cbv iota beta. cbn [andb fst]. rewrite IH2. reflexivity.
    - change (find T [21]) with (Some (Node 21 2 [] [])). cbv iota beta.
      change (pget [21] (x_conns (l_ctx (Live [] X)))) with (Some [(0, (([20] : path), 0))]). cbv iota beta zeta. cbn [loop1].
      change (existsb (Nat.eqb 0) (w_ports ex_w (nty (Node 21 2 [] [])) (conns_of T (Live [] X) [21]))) with true. cbv iota.
      unfold port_ended. change (aget 0 (conns_of T (Live [] X) [21])) with (@None sig). cbv iota. unfold get_signal.
      change (pget [21] (x_conns (l_ctx (Live [] X)))) with (Some [(0, (([20] : path), 0))]). cbv iota. change (aget 0 [(0, (([20] : path), 0))]) with (Some (([20] : path), 0)). cbv iota zeta.
      change (existsb (sig_eqb ([20], 0)) (x_deps (l_ctx (Live [] X)))) with true.
      change (pget (fst (([20] : path), 0)) (x_conns (l_ctx (Live [] X)))) with (Some [(0, (([21] : path), 0))]). change (find T (fst (([20] : path), 0))) with (Some (Node 20 2 [] [])).
      cbv iota beta. cbn [andb fst]. rewrite IH1. reflexivity. }
  intros fuel. unfold load.
  assert (U : upd ex_w [] x (save ex_w t) (Ctx [] []) = (T, X, [], true)) by (vm_compute; reflexivity). rewrite U. cbv iota.
  change (prune [] T) with T. destruct fuel as [|f]; [reflexivity|]. cbn [ended]. change (find T []) with (Some T). cbv iota.
  change (pget [] (x_conns (l_ctx (Live [] X)))) with (@None conns). cbv iota zeta. cbn [loop1 loop2 l_conns l_ctx].
  change (pdel [] (x_conns X)) with (x_conns X). change (map (fun k : node => [] ++ [nid k]) (nsubs T)) with [[20]; [21]] .
  cbn [all_ended]. change (Live [] {| x_conns := x_conns X; x_deps := x_deps X |}) with (Live [] X). rewrite (proj1 (C f)). reflexivity.
Qed.
(** If a saved port is not there when the connections are made, its signal is
    connected to another port that happens to be free: numbered ports that were
    connected and disconnected in turn do not come back under their numbers. *)
Theorem c50_wrong_port_refuted : exists w t x, tidy t /\ tidy x /\ sound w t /\ acyclic t /\ fits w x t /\ provided w x t /\ ports_free w x t
  /\ exists n0 r m, (forall fuel, n0 <= fuel -> load w fuel x (save w t) = Loaded r)
     /\ at_ t [20] (Node 20 2 [(7, ([10], 0))] []) /\ at_ r [20] m /\ ncn m = [(1, ([10], 0))].
Proof.
  (* a block that always has one free port, and whose first port was left unconnected *)
  set (w := World (fun _ ty => Nat.eqb ty 2) (fun _ _ => true) (fun _ => false)
    (fun ty c => match ty with 2 => match aget 7 c with Some _ => [1; 7] | None => [1] end | _ => [] end)
    (fun ty _ => match ty with 1 => [0] | _ => [] end) (fun _ _ _ _ => true)).
  set (t := Node 0 0 [] [Node 10 1 [] []; Node 20 2 [(7, ([10], 0))] []]).
  set (x := Node 0 0 [] [Node 10 1 [] []]).
  exists w, t, x.
  assert (A10 : at_ t [10] (Node 10 1 [] [])) by (apply find_at; vm_compute; reflexivity).
  split; [intros p m H; unfold t in H; walk; cbn [nsubs map nid]; repeat constructor; cbn [In]; intuition discriminate|].
  split; [intros p m H; unfold x in H; walk; cbn [nsubs map nid]; repeat constructor; cbn [In]; intuition discriminate|].
  split; [|split; [|split; [|split; [|split]]]].
  - split.
    + intros p m H. unfold t in H. walk; vm_compute; split; repeat constructor; cbn [In]; intuition discriminate.
    + intros p m port s H K. unfold t in H. walk; vm_compute; auto.
    + intros p m port q n H K. unfold t in H. walk; eexists; (split; [eassumption|intros c _; left; reflexivity]).
    + intros p m k H K A. reflexivity.
  - exists (fun p => match p with [20] => 1 | _ => 0 end). intros p m port s H K. unfold t in H. walk; vm_compute; lia.
  - intros p m H. unfold x in H. walk; eexists; (split; [apply fixedf_fixed; vm_compute; reflexivity|reflexivity]).
  - intros p m H. unfold t in H. walk; apply keptf_kept; vm_compute; reflexivity.
  - intros p m m' F H. unfold x in F. walk; (split; [constructor|]); intros port s K; destruct K.
  - exists 3, (Node 0 0 [] [Node 10 1 [] []; Node 20 2 [(1, ([10], 0))] []]), (Node 20 2 [(1, ([10], 0))] []).
    split; [intros fuel H; destruct fuel as [|[|[|fuel]]]; [lia|lia|lia|]; vm_compute; reflexivity|].
    split; [apply find_at; vm_compute; reflexivity|]. split; [apply find_at; vm_compute; reflexivity|reflexivity].
Qed.

Print Assumptions c50_roundtrip_partial.
Print Assumptions c50_own.
Print Assumptions c50_missing_types.
Print Assumptions c50_any_fixed_stay.
Print Assumptions c50_any_nothing_invented.
Print Assumptions c50_one_failure_loses_all_refuted.
Print Assumptions c50_failure_unnoticed_refuted.
Print Assumptions c50_keeps_old_refuted.
Print Assumptions c50_circle_never_loads_refuted.
Print Assumptions c50_wrong_port_refuted.
