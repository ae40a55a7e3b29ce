(** * MMgr_Props: property C65 *)
From Coq Require Import Ascii String List Bool Arith ZArith Lia Permutation.
From Verif Require Import CStat_Model CStat_Proofs MMgr_Model MMgr_Spec MMgr_Proofs MMgr_Proofs2.
Import ListNotations.
Open Scope string_scope.
Open Scope nat_scope.
Open Scope list_scope.

(** ** Connection strings *)

(** A connection string without "?" has no options. *)
Theorem c65_no_options : forall s, ~ occurs "?" s -> splitConnection s = Some (s, []).
Proof. intros s N. unfold splitConnection. rewrite split_none by exact N. reflexivity. Qed.

(** Options written after "?" are read back, the first value of a key. *)
Theorem c65_options : forall b l, ~ occurs "?" b -> l <> [] -> Forall cleanPair l ->
  exists o, splitConnection (b ++ "?" ++ optionText l)%string = Some (b, o) /\ firstValues l o.
Proof. intros b l N L F. exists (keepFirst l []). split; [apply split_written; assumption|apply keepFirst_first]. Qed.

(** Nothing else is accepted. *)
Theorem c65_options_only : forall s b o, splitConnection s = Some (b, o) ->
  ~ occurs "?" b /\ ((s = b /\ o = []) \/
    exists l, l <> [] /\ Forall cleanPair l /\ s = (b ++ "?" ++ optionText l)%string /\ firstValues l o).
Proof.
  intros s b o H. destruct (split_sound s b o H) as [N [E|[l [L [F [E ->]]]]]]; split; try exact N.
  - left. exact E.
  - right. exists l. split; [exact L|]. split; [exact F|]. split; [exact E|]. apply keepFirst_first.
Qed.

Example c65_options_ex :
  splitConnection "daq.nd://10.0.0.1?Port=7420&User=a&Port=1" = Some ("daq.nd://10.0.0.1", [("Port", "7420"); ("User", "a")]) /\
  splitConnection "daq.nd://x?" = None /\ splitConnection "daq.nd://x?a=1=2" = None /\ splitConnection "a?b=1?c=2" = None.
Proof. repeat split. Qed.

(** The prefix is what is before "://", or everything. *)
Theorem c65_prefix : forall p r, ~ occurs ":" p -> prefixOf (p ++ "://" ++ r)%string = p.
Proof. exact prefix_spec. Qed.

Theorem c65_prefix_whole : forall s, (forall a r, s <> (a ++ "://" ++ r)%string) -> prefixOf s = s.
Proof. exact prefix_whole. Qed.

Example c65_prefix_ex : prefixOf "daq.nd://[::1]:7420/" = "daq.nd" /\ prefixOf "COM1" = "COM1".
Proof. split; reflexivity. Qed.

(** ** Found devices *)

(** A listed device is not hidden, and its connection string finds it. *)
Theorem c65_listed : forall ipmod mods d, In d (available (scan ipmod mods)) ->
  d_hidden d = false /\ dget (d_conn d) (scan ipmod mods) = Some d.
Proof.
  intros ipmod mods d H. unfold available in H. apply filter_In in H. destruct H as [H V].
  split; [destruct (d_hidden d); [discriminate|reflexivity]|]. apply in_map_iff in H. destruct H as [[k x] [E H]].
  cbn [snd] in E. subst x. assert (K : keyed (scan ipmod mods)).
  { unfold scan. apply scan_keyed. split; [constructor|intros k2 d2 []]. }
  rewrite (proj2 K k d H). apply in_dget; [exact (proj1 K)|exact H].
Qed.

(** Every device that can be identified is found under its identification,
    with the capabilities of every report of it, the first of each protocol;
    an entry is the first report of it, or the one with a changeable address. *)
Theorem c65_found_partial : forall ipmod mods man ser,
  wellBehaved (reported mods) -> onceEach (reported mods) -> onceEach (map snd ipmod) ->
  forall caps, offered (idText man ser) (reported mods) caps -> caps <> [] ->
  exists v base, dget (idText man ser) (scan ipmod mods) = Some v /\
    d_conn v = idText man ser /\
    NoDup (map cp_id (d_caps v)) /\
    (forall c, In c (d_caps v) <-> firstCap (capsOf (dget (idText man ser) ipmod) ++ caps) c) /\
    d_man v = d_man base /\ d_ser v = d_ser base /\ d_hidden v = d_hidden base /\
    (dget (idText man ser) ipmod = Some base \/
     dget (idText man ser) ipmod = None /\ identified base /\ idText (d_man base) (d_ser base) = idText man ser /\
     exists l1 l2, reported mods = l1 ++ base :: l2 /\
       forall d, In d l1 -> ~ (identified d /\ idText (d_man d) (d_ser d) = idText man ser)).
Proof.
  intros ipmod mods man ser W Oe Oi caps Of C.
  assert (St : starts "daq://" (idText man ser) = true) by (apply starts_spec; exists (man ++ "_" ++ ser)%string; reflexivity).
  assert (Nw : forall w, dget (idText man ser) ipmod = Some w -> NoDup (map cp_id (d_caps w))).
  { intros w X. apply Oi. apply dget_in in X. apply in_map_iff. exists (idText man ser, w). split; [reflexivity|exact X]. }
  assert (E0 : entry ipmod (idText man ser) [] (dget (idText man ser) [])) by (exists []; split; [constructor|reflexivity]).
  assert (E := scan_entry ipmod (idText man ser) (reported mods) [] [] St Nw Oe W E0). cbn [app] in E.
  destruct E as [caps2 [O2 E]]. rewrite (offered_fun _ _ _ Of caps2 O2) in *. unfold scan. rewrite reported_scan.
  destruct (dget (idText man ser) (fold_left (group ipmod) (reported mods) [])) as [v|]; [|contradiction].
  destruct E as [_ [base [B Ev]]]. exists v, base. split; [reflexivity|]. rewrite Ev. split; [reflexivity|]. cbn [withConn withCaps d_caps d_man d_ser d_hidden].
  destruct (addCaps_spec (capsOf (dget (idText man ser) ipmod) ++ caps2) [] (NoDup_nil _)) as [N [_ G]].
  split; [exact N|]. split.
  { intro c. rewrite G. cbn [In map]. tauto. }
  split; [reflexivity|]. split; [reflexivity|]. split; [reflexivity|].
  destruct (dget (idText man ser) ipmod) as [w|]; [left; congruence|right].
  destruct B as [l1 [l2 [X [B1 [B2 B3]]]]]. split; [reflexivity|]. split; [exact B1|]. split; [exact B2|]. exists l1, l2. split; assumption.
Qed.

(** There is no entry for an identification that nobody reported. *)
Theorem c65_not_found_partial : forall ipmod mods man ser,
  wellBehaved (reported mods) -> onceEach (reported mods) -> onceEach (map snd ipmod) ->
  offered (idText man ser) (reported mods) [] -> dget (idText man ser) (scan ipmod mods) = None.
Proof.
  intros ipmod mods man ser W Oe Oi Of.
  assert (St : starts "daq://" (idText man ser) = true) by (apply starts_spec; exists (man ++ "_" ++ ser)%string; reflexivity).
  assert (Nw : forall w, dget (idText man ser) ipmod = Some w -> NoDup (map cp_id (d_caps w))).
  { intros w X. apply Oi. apply dget_in in X. apply in_map_iff. exists (idText man ser, w). split; [reflexivity|exact X]. }
  assert (E0 : entry ipmod (idText man ser) [] (dget (idText man ser) [])) by (exists []; split; [constructor|reflexivity]).
  assert (E := scan_entry ipmod (idText man ser) (reported mods) [] [] St Nw Oe W E0). cbn [app] in E.
  destruct E as [caps2 [O2 E]]. rewrite <- (offered_fun _ _ _ Of caps2 O2) in *. unfold scan. rewrite reported_scan.
  destruct (dget (idText man ser) (fold_left (group ipmod) (reported mods) [])) as [v|]; [|reflexivity].
  destruct E as [X _]. destruct X. reflexivity.
Qed.

(** A device that cannot be identified is found under its connection string,
    the last report of it. *)
Theorem c65_unidentified_partial : forall ipmod mods l1 d l2, reported mods = l1 ++ d :: l2 -> ~ identified d ->
  starts "daq://" (d_conn d) = false ->
  (forall d2, In d2 l2 -> ~ identified d2 -> d_conn d2 <> d_conn d) ->
  dget (d_conn d) (scan ipmod mods) = Some d.
Proof.
  intros ipmod mods l1 d l2 R N St L. unfold scan. rewrite reported_scan, R, fold_left_app. cbn [fold_left].
  rewrite scan_plain_keep by assumption. rewrite group_plain by exact St.
  destruct (plain d) eqn:P; [|apply plain_spec in P; contradiction]. rewrite String.eqb_refl. reflexivity.
Qed.

Definition exNative := Cap nativeId PBoth "daq.nd://10.0.0.1" [Addr "IPv4" "daq.nd://10.0.0.1" Unreachable; Addr "IPv6" "daq.nd://[fe80::1]" Unknown; Addr "IPv4" "daq.nd://10.0.0.2" Reachable].
Definition exOpcua := Cap "OpenDAQOPCUAConfiguration" PConfiguration "daq.opcua://10.0.0.1" [].
Definition exLt := Cap "OpenDAQLTStreaming" PStreaming "daq.lt://10.0.0.1" [].
Definition exMods := [Some [Dev "openDAQ" "s1" "daq.opcua://10.0.0.1" [exOpcua] false; Dev "" "" "serial://COM1" [] false]; None;
                      Some [Dev "openDAQ" "s1" "daq.nd://10.0.0.1" [exNative; exOpcua] false; Dev "openDAQ" "s2" "daq.lt://10.0.0.9" [exLt] true]].

Example c65_found_ex :
  map d_conn (available (scan [] exMods)) = ["daq://openDAQ_s1"; "serial://COM1"] /\
  option_map (fun d => map cp_id (d_caps d)) (dget "daq://openDAQ_s1" (scan [] exMods)) =
    Some ["OpenDAQOPCUAConfiguration"; nativeId] /\
  wellBehaved (reported exMods) /\ onceEach (reported exMods) /\
  offered "daq://openDAQ_s1" (reported exMods) [exOpcua; exNative; exOpcua].
Proof.
  split; [reflexivity|]. split; [reflexivity|]. split; [|split].
  - intros d [<-|[<-|[<-|[<-|[]]]]] _; reflexivity.
  - intros d [<-|[<-|[<-|[<-|[]]]]]; cbn [d_caps map cp_id]; repeat (constructor; [cbn [In]; intuition discriminate|]); constructor.
  - cbn [reported exMods app]. change [exOpcua; exNative; exOpcua] with ([exOpcua] ++ [exNative; exOpcua] ++ []).
    apply (offered_yes _ (Dev "openDAQ" "s1" "daq.opcua://10.0.0.1" [exOpcua] false)); [repeat split; discriminate|reflexivity|].
    apply offered_no; [intros [[H _] _]; apply H; reflexivity|].
    apply (offered_yes _ (Dev "openDAQ" "s1" "daq.nd://10.0.0.1" [exNative; exOpcua] false)); [repeat split; discriminate|reflexivity|].
    apply offered_no; [intros [_ H]; discriminate|]. constructor.
Qed.

(** Refuted: different devices are different entries.  The manufacturer and
    the serial number are joined with "_". *)
Theorem c65_different_devices_refuted :
  ~ (forall ipmod mods d1 d2, In d1 (reported mods) -> In d2 (reported mods) -> identified d1 -> identified d2 ->
       wellBehaved (reported mods) -> (d_man d1, d_ser d1) <> (d_man d2, d_ser d2) ->
       exists k1 k2 v1 v2, k1 <> k2 /\ dget k1 (scan ipmod mods) = Some v1 /\ dget k2 (scan ipmod mods) = Some v2).
Proof.
  intro H. set (d1 := Dev "a_b" "c" "x" [exLt] false). set (d2 := Dev "a" "b_c" "y" [exNative] false).
  destruct (H [] [Some [d1; d2]] d1 d2) as [k1 [k2 [v1 [v2 [N [A B]]]]]].
  - left. reflexivity.
  - right. left. reflexivity.
  - repeat split; discriminate.
  - repeat split; discriminate.
  - intros d [<-|[<-|[]]] _; reflexivity.
  - discriminate.
  - apply dget_in in A, B. unfold scan in A, B. cbn [flat_map app fold_left] in A, B.
    vm_compute in A, B. destruct A as [A|[]], B as [B|[]]. congruence.
Qed.

(** Refuted: no reported device is lost.  Of two devices without
    identification and with the same connection string only the last is kept. *)
Theorem c65_none_lost_refuted :
  ~ (forall ipmod mods d, In d (reported mods) -> ~ identified d -> In d (map snd (scan ipmod mods))).
Proof.
  intro H. specialize (H [] [Some [Dev "A" "" "x://1" [] false; Dev "B" "" "x://1" [] false]] (Dev "A" "" "x://1" [] false)).
  vm_compute in H. destruct H as [H|[]]; [left; reflexivity| |discriminate]. intros [_ [X _]]. apply X. reflexivity.
Qed.

(** Refuted without [wellBehaved]: a device that cannot be identified takes
    the entry of one that can. *)
Theorem c65_entry_kept_refuted :
  ~ (forall ipmod mods d, In d (reported mods) -> identified d ->
       exists v, dget (idText (d_man d) (d_ser d)) (scan ipmod mods) = Some v /\ forall c, In c (d_caps d) -> hasCap (cp_id c) (d_caps v) = true).
Proof.
  intro H. destruct (H [] [Some [Dev "m" "s" "x" [exLt] false; Dev "" "" "daq://m_s" [] false]] (Dev "m" "s" "x" [exLt] false)) as [v [E C]].
  - left. reflexivity.
  - repeat split; discriminate.
  - vm_compute in E. injection E as <-. specialize (C exLt (or_introl eq_refl)). discriminate.
Qed.

(** ** Smart connections *)

(** A connection string that does not start with "daq://" is used as it is. *)
Theorem c65_direct : forall g s t, starts "daq://" s = false -> resolve g s t = Some s.
Proof. intros g s t H. unfold resolve. rewrite H. reflexivity. Qed.

(** One that does uses the first of the most preferred protocols of the found
    device; an address type that is asked for is used if there is one. *)
Theorem c65_smart : forall g s t, starts "daq://" s = true ->
  (forall x, resolve g s t = Some x <->
     exists d c, dget s g = Some d /\ firstBest protocolRank (d_caps d) c /\
       ((t = "IPv4" \/ t = "IPv6") /\ (exists a, firstBest addressRank (ofType t (cp_addrs c)) a /\ x = ad_conn a) \/
        ~ ((t = "IPv4" \/ t = "IPv6") /\ ofType t (cp_addrs c) <> []) /\ x = cp_conn c)) /\
  (resolve g s t = None <-> dget s g = None \/ exists d, dget s g = Some d /\ d_caps d = []).
Proof.
  intros g s t St. unfold resolve. rewrite St.
  assert (T : (String.eqb t "IPv4" || String.eqb t "IPv6") = true <-> t = "IPv4" \/ t = "IPv6").
  { rewrite orb_true_iff, !String.eqb_eq. reflexivity. }
  destruct (dget s g) as [d|] eqn:D.
  2:{ split; [|split; [intros _; left; reflexivity|intros _; reflexivity]].
      intro x. split; [discriminate|]. intros [d [c [X _]]]. discriminate. }
  destruct (d_caps d) as [|c0 r] eqn:C.
  { cbn [resolveCap option_map]. split; [|split; [intros _; right; exists d; split; [reflexivity|exact C]|intros _; reflexivity]].
    intro x. split; [discriminate|]. intros [d2 [c [X [[l1 [l2 [n [B _]]]] _]]]]. injection X as <-. rewrite C in B. destruct l1; discriminate. }
  unfold resolveCap. set (b := select c0 (c0 :: r)). cbn [option_map snd].
  assert (B : firstBest protocolRank (c0 :: r) b) by apply select_best.
  assert (U : forall c, firstBest protocolRank (d_caps d) c -> c = b).
  { intros c H. rewrite C in H. apply (firstBest_unique protocolRank (c0 :: r)); [| |exact H|exact B].
    - intro a. exists (rankOf a). apply rankOf_spec. reflexivity.
    - intros a n m A1 A2. apply rankOf_spec in A1, A2. congruence. }
  assert (Pick := pick_spec t (cp_addrs b) [] None Unreachable (conj eq_refl eq_refl)). cbn [app] in Pick.
  assert (Ua : forall a1 a2, firstBest addressRank (ofType t (cp_addrs b)) a1 -> firstBest addressRank (ofType t (cp_addrs b)) a2 -> a1 = a2).
  { intros a1 a2. apply firstBest_unique.
    - intro a. exists (reachRank (ad_reach a)). reflexivity.
    - unfold addressRank. congruence. }
  assert (Ne : forall a, firstBest addressRank (ofType t (cp_addrs b)) a -> ofType t (cp_addrs b) <> []).
  { intros a [l1 [l2 [n [X _]]]] Y. rewrite Y in X. destruct l1; discriminate. }
  split; [|split; [discriminate|intros [X|[d2 [X Y]]]; [discriminate|injection X as <-; rewrite C in Y; discriminate]]].
  intro x. unfold connectionWithType.
  destruct (String.eqb t "IPv4" || String.eqb t "IPv6") eqn:TT.
  - assert (T1 := proj1 T eq_refl). destruct (pickAddress t (cp_addrs b) None Unreachable) as [y|].
    + destruct Pick as [a [Ba ->]]. split.
      * intro H. injection H as <-. exists d, b. split; [reflexivity|]. split; [rewrite C; exact B|]. left. split; [exact T1|]. exists a. split; [exact Ba|reflexivity].
      * intros [d2 [c [X [Bc H]]]]. injection X as <-. apply U in Bc. subst c. destruct H as [[_ [a2 [B2 ->]]]|[N _]].
        -- f_equal. f_equal. apply Ua; assumption.
        -- destruct N. split; [exact T1|exact (Ne a Ba)].
    + split.
      * intro H. injection H as <-. exists d, b. split; [reflexivity|]. split; [rewrite C; exact B|]. right. split; [intros [_ N]; exact (N Pick)|reflexivity].
      * intros [d2 [c [X [Bc H]]]]. injection X as <-. apply U in Bc. subst c. destruct H as [[_ [a2 [B2 _]]]|[_ ->]]; [|reflexivity].
        destruct (Ne a2 B2 Pick).
  - assert (T1 : ~ (t = "IPv4" \/ t = "IPv6")) by (intro X; apply T in X; congruence). split.
    + intro H. injection H as <-. exists d, b. split; [reflexivity|]. split; [rewrite C; exact B|]. right. tauto.
    + intros [d2 [c [X [Bc H]]]]. injection X as <-. apply U in Bc. subst c. destruct H as [[X _]|[_ ->]]; [contradiction|reflexivity].
Qed.

Example c65_smart_ex :
  resolve (scan [] exMods) "daq://openDAQ_s1" "IPv4" = Some "daq.nd://10.0.0.2" /\
  resolve (scan [] exMods) "daq://openDAQ_s1" "IPv6" = Some "daq.nd://[fe80::1]" /\
  resolve (scan [] exMods) "daq://openDAQ_s1" "" = Some "daq.nd://10.0.0.1" /\
  resolve (scan [] exMods) "daq://openDAQ_s2" "IPv4" = Some "daq.lt://10.0.0.1" /\
  resolve (scan [] exMods) "daq://openDAQ_s3" "IPv4" = None.
Proof. repeat split. Qed.

(** ** Creating devices *)

(** A device is created by the first module with a type for the prefix, and
    only by it: its failure is the failure of the call. *)
Theorem c65_create : forall mods g t s i ty c o,
  createDevice mods g t s = Created i ty c o <->
  exists b m, splitConnection s = Some (b, o) /\ b <> "" /\ resolve g b t = Some c /\
    nth_error mods i = Some m /\ takes m (prefixOf c) ty /\ m_creates m c = true /\
    forall j m2, j < i -> nth_error mods j = Some m2 -> passes m2 (prefixOf c).
Proof.
  intros mods g t s i ty c o. unfold createDevice. split.
  - intro H. destruct (splitConnection s) as [[b o2]|]; [|discriminate]. destruct (String.eqb b EmptyString) eqn:B; [discriminate|].
    destruct (resolve g b t) as [c2|] eqn:R; [|discriminate]. destruct (createWith 0 mods c2) as [i2 ty2| | |] eqn:W; try discriminate.
    injection H as <- <- <- <-. apply createWith_made in W. destruct W as [j [m [-> [N [T [C P]]]]]]. cbn [Nat.add] in *.
    exists b, m. apply String.eqb_neq in B. split; [reflexivity|]. split; [exact B|]. split; [exact R|]. split; [exact N|]. split; [exact T|]. split; [exact C|exact P].
  - intros [b [m [-> [B [-> [N [T [C P]]]]]]]]. apply String.eqb_neq in B. rewrite B.
    assert (W : createWith 0 mods c = Made i ty).
    { apply createWith_made. exists i, m. split; [reflexivity|]. split; [exact N|]. split; [exact T|]. split; [exact C|exact P]. }
    rewrite W. reflexivity.
Qed.

Example c65_create_ex :
  let mods := [Modul NoTypes (fun _ => true); Modul (Types [("A", "x"); ("B", "y")]) (fun _ => true); Modul (Types [("C", "y")]) (fun _ => true)] in
  createDevice mods [] "" "y://1?a=2" = Created 1 "B" "y://1" [("a", "2")] /\ createDevice mods [] "" "z://1" = Failed.
Proof. split; reflexivity. Qed.

(** When one module has a type for the prefix, a streaming is made once, by
    it. *)
Theorem c65_streaming_partial : forall a m b s ty,
  (forall x, In x (a ++ b) -> passes x (prefixOf s)) -> takes m (prefixOf s) ty ->
  createStreaming 0 (a ++ m :: b) s [] =
  if m_creates m s then ([length a], Some (Some (length a))) else ([], None).
Proof.
  intros a m b s ty P T. rewrite (stream_one a 0 m b s ty); [reflexivity| | |exact T];
    intros x X; apply P; apply in_or_app; [left|right]; exact X.
Qed.

(** No module has one: no streaming. *)
Theorem c65_no_streaming : forall l s, (forall x, In x l -> passes x (prefixOf s)) -> createStreaming 0 l s [] = ([], Some None).
Proof. intros l s H. rewrite stream_skip by exact H. reflexivity. Qed.

Example c65_streaming_ex :
  createStreaming 0 [Modul NoTypes (fun _ => true); Modul (Types [("A", "x")]) (fun _ => true)] "x://1" [] = ([1], Some (Some 1)).
Proof. reflexivity. Qed.

(** Refuted: one call makes one streaming.  With two modules for a prefix both
    make one, and the last is returned. *)
Theorem c65_one_streaming_refuted :
  ~ (forall mods s, length (fst (createStreaming 0 mods s [])) <= 1).
Proof.
  intro H. specialize (H [Modul (Types [("A", "x")]) (fun _ => true); Modul (Types [("B", "x")]) (fun _ => true)] "x://1").
  vm_compute in H. lia.
Qed.

(** ** Several devices at once *)

(** Whatever the order in which the devices get connected: every requested
    string has its own result, and the answer tells all, some or none. *)
Theorem c65_several : forall ok args ends, NoDup args -> Permutation ends args -> args <> [] ->
  exists r, createDevices ok args ends =
      (Some r, if forallb ok args then AllCreated else if existsb ok args then SomeCreated else NoneCreated) /\
    map fst (v_devices r) = args /\
    forall c, In c args -> dget c (v_devices r) = Some (ok c) /\ dget c (v_codes r) = Some (ok c).
Proof.
  intros ok args ends N P A. unfold createDevices. destruct args as [|a0 args0] eqn:Ea; [destruct A; reflexivity|]. rewrite <- Ea in *.
  assert (Ne : NoDup ends) by (apply (Permutation_NoDup (Permutation_sym P)); exact N).
  set (s0 := Several (map (fun c => (c, false)) args) [] 0).
  destruct (ends_spec ok ends s0 Ne) as [C [D E]]. cbv zeta in C, D, E. cbv zeta.
  set (r := fold_left (oneEnds ok) ends s0) in *. exists r.
  assert (K0 : map fst (v_devices s0) = args).
  { cbn [s0 v_devices]. rewrite map_map. cbn [fst]. apply map_id. }
  assert (L : length (filter ok ends) = length (filter ok args)).
  { clear - P. induction P as [|x l l2 P IH|x y l|l l2 l3 P1 IH1 P2 IH2]; cbn [filter]; [reflexivity| | |congruence].
    - destruct (ok x); cbn [length]; congruence.
    - destruct (ok x), (ok y); reflexivity. }
  split; [|split].
  - f_equal. rewrite C. cbn [s0 v_count Nat.add]. rewrite L.
    destruct (forallb ok args) eqn:FA.
    + assert (X : length (filter ok args) = length args) by (apply filter_all; apply forallb_forall; exact FA).
      rewrite X, Nat.eqb_refl. reflexivity.
    + destruct (length (filter ok args) =? length args) eqn:X.
      { apply Nat.eqb_eq in X. assert (Y := proj1 (filter_all ok args) X). apply forallb_forall in Y. congruence. }
      destruct (existsb ok args) eqn:EX.
      * destruct (length (filter ok args) =? 0) eqn:Z; [|reflexivity]. apply Nat.eqb_eq in Z.
        assert (Y := proj1 (filter_none ok args) Z). apply existsb_exists in EX. destruct EX as [x [I1 I2]]. rewrite (Y x I1) in I2. discriminate.
      * assert (Z : length (filter ok args) = 0).
        { apply filter_none. intros x I1. destruct (ok x) eqn:O; [|reflexivity].
          assert (Y : existsb ok args = true) by (apply existsb_exists; exists x; split; assumption). congruence. }
        rewrite Z. reflexivity.
  - assert (K : map fst (v_devices r) = map fst (v_devices s0)).
    { apply ends_keys. rewrite K0. intros x X. exact (Permutation_in x P X). }
    rewrite K. exact K0.
  - intros c I1. assert (I2 : In c ends) by exact (Permutation_in c (Permutation_sym P) I1).
    rewrite D, E. destruct (in_dec string_dec c ends); [split; reflexivity|contradiction].
Qed.

Example c65_several_ex :
  createDevices (fun c => String.eqb c "a") ["a"; "b"] ["b"; "a"] = (Some (Several [("a", true); ("b", false)] [("b", false); ("a", true)] 1), SomeCreated).
Proof. reflexivity. Qed.

(** ** Local ids *)

(** The local id chosen for a function block is new. *)
Theorem c65_local_id : forall ty ids s, newLocalId ty ids = Some s -> ~ In s ids.
Proof.
  intros ty ids s H I1. unfold newLocalId in H. assert (Z0 : (0 <= intMax)%Z) by (unfold intMax; lia).
  destruct (max_spec ty ids 0 Z0) as [B [U _]]. cbv zeta in H.
  destruct (maxNumber ty ids 0 =? intMax)%Z eqn:E; [discriminate|]. apply Z.eqb_neq in E. injection H as <-.
  set (m := maxNumber ty ids 0) in *. assert (L : (Z.of_nat (Z.to_nat (m + 1)) <= intMax)%Z) by lia.
  assert (X := U _ _ I1 (number_own ty (Z.to_nat (m + 1)) L)). lia.
Qed.

(** It is the type and a number, one more than the largest of the items of the
    type, and there is one unless that number is the largest int. *)
Theorem c65_local_id_next_partial : forall ty ids,
  (forall id z, In id ids -> number ty id = Some z -> (z < intMax)%Z) ->
  exists n, newLocalId ty ids = Some (ty ++ "_" ++ decimal (S n))%string /\
    (n = 0 \/ exists id, In id ids /\ number ty id = Some (Z.of_nat n)) /\
    forall k, In (ty ++ "_" ++ decimal k)%string ids -> (Z.of_nat k <= intMax)%Z -> k <= n.
Proof.
  intros ty ids H. unfold newLocalId. assert (Z0 : (0 <= intMax)%Z) by (unfold intMax; lia).
  destruct (max_spec ty ids 0 Z0) as [B [U C]]. cbv zeta. set (m := maxNumber ty ids 0) in *.
  assert (L : (m < intMax)%Z).
  { destruct C as [C|[id [I1 N]]]; [unfold intMax in *; lia|exact (H id m I1 N)]. }
  destruct (m =? intMax)%Z eqn:E; [apply Z.eqb_eq in E; lia|]. exists (Z.to_nat m).
  split; [do 4 f_equal; lia|]. split.
  - destruct C as [C|[id [I1 N]]]; [left; lia|right; exists id; split; [exact I1|]]. rewrite Z2Nat.id by lia. exact N.
  - intros k I1 K. assert (X := U _ _ I1 (number_own ty k K)). lia.
Qed.

Example c65_local_id_ex :
  newLocalId "RefFBModuleScaling" ["RefFBModuleScaling_1"; "RefFBModuleScaling_x"; "Other_9"; "RefFBModuleScaling_12"; "RefFBModuleScaling"] = Some "RefFBModuleScaling_13".
Proof. reflexivity. Qed.

(** Refuted: there is always a local id.  After "_2147483647" the number
    overflows, although other numbers are free. *)
Theorem c65_local_id_refuted : ~ (forall ty ids, newLocalId ty ids <> None).
Proof. intro H. apply (H "T" ["T_2147483647"]). reflexivity. Qed.

(** ** Configurations *)

(** The configuration a device is created with: an option of the connection
    string, else the given configuration, else the general value where the
    device has the default. *)
Theorem c65_config : forall gen device g o n, NoDup (map fst gen) -> NoDup (map fst o) ->
  (match g with Full gen1 _ => NoDup (map fst gen1) | _ => True end) ->
  dget n (deviceConfig gen device g o) = expected gen device g o n.
Proof.
  intros gen device g o n Ng No Nf. unfold deviceConfig, expected. destruct g as [|c|gen1 device1].
  - rewrite options_get by exact No. rewrite copy_get by exact Ng. destruct (dget n device); reflexivity.
  - rewrite options_get by exact No. rewrite dget_override. rewrite copy_get.
    2:{ rewrite override_keys. exact Ng. }
    destruct (dget n device) as [x|]; [|reflexivity]. f_equal. destruct (dget n o); [reflexivity|].
    destruct (dget n c) as [v|] eqn:C; [reflexivity|]. unfold fromGeneral. rewrite dget_override, C.
    destruct (dget n gen); reflexivity.
  - rewrite options_get by exact No. rewrite copy_get by exact Nf. destruct (dget n device1); destruct (dget n device); reflexivity.
Qed.

Example c65_config_ex :
  deviceConfig [("Username", ("", "")); ("Password", ("", ""))] [("Username", ""); ("Port", "7420"); ("Path", "/")]
    (Simple [("Username", "ann"); ("Port", "1")]) [("Port", "99"); ("Foreign", "x")] = [("Username", "ann"); ("Port", "99"); ("Path", "/")].
Proof. reflexivity. Qed.

(** Refuted: a value given for one device is used.  One that equals the
    general default is replaced by the general value. *)
Theorem c65_given_value_refuted :
  ~ (forall gen device gen1 device1 n x, dget n device1 = Some x -> dget n (deviceConfig gen device (Full gen1 device1) []) = Some x).
Proof.
  intro H. specialize (H [] [] [("Username", ("ann", ""))] [("Username", "")] "Username" "" eq_refl). discriminate.
Qed.

(** ** Capabilities of a connected device *)

(** The connected device has the protocols of both sides, each once; one that
    only one side knows is as that side says, of the others each property is
    merged. *)
Theorem c65_merge : forall disc have, NoDup (map pc_id disc) -> NoDup (map pc_id have) ->
  NoDup (map pc_id (mergeCaps disc have)) /\
  forall id,
    (findCap id disc = None -> findCap id (mergeCaps disc have) = findCap id have) /\
    (findCap id have = None -> findCap id (mergeCaps disc have) = findCap id disc) /\
    (forall c h, findCap id disc = Some c -> findCap id have = Some h -> NoDup (map fst (pc_props c)) ->
       exists r, findCap id (mergeCaps disc have) = Some (PCap id r) /\
         forall n, dget n r = mergedProp (dget n (pc_props c)) (dget n (pc_props h))).
Proof.
  intros disc have Nd Nh. destruct (mergeCaps_spec disc have Nd Nh) as [N G]. split; [exact N|]. intro id. rewrite G. split; [|split].
  - intros ->. reflexivity.
  - intros ->. destruct (findCap id disc); reflexivity.
  - intros c h -> -> Np. exists (mergeProps (pc_props c) (pc_props h)). split; [reflexivity|]. intro n. apply mergeProps_get. exact Np.
Qed.

Example c65_merge_ex :
  mergeCaps [PCap "A" [("Port", ("1", "0")); ("Host", ("", ""))]; PCap "B" []] [PCap "C" []; PCap "A" [("Host", ("h", "")); ("Port", ("7", "-1"))]] =
  [PCap "C" []; PCap "A" [("Host", ("h", "")); ("Port", ("1", "-1"))]; PCap "B" []].
Proof. reflexivity. Qed.

(** Refuted: a value found by discovery is kept.  A property that the device
    does not know is added with its default value. *)
Theorem c65_discovered_value_refuted :
  ~ (forall disc have n v d, dget n disc = Some (v, d) -> dget n have = None -> option_map fst (dget n (mergeProps disc have)) = Some v).
Proof. intro H. specialize (H [("Path", ("/x", "/"))] [] "Path" "/x" "/" eq_refl eq_refl). discriminate. Qed.

Print Assumptions c65_no_options.
Print Assumptions c65_options.
Print Assumptions c65_options_only.
Print Assumptions c65_prefix.
Print Assumptions c65_prefix_whole.
Print Assumptions c65_listed.
Print Assumptions c65_found_partial.
Print Assumptions c65_not_found_partial.
Print Assumptions c65_unidentified_partial.
Print Assumptions c65_different_devices_refuted.
Print Assumptions c65_none_lost_refuted.
Print Assumptions c65_entry_kept_refuted.
Print Assumptions c65_direct.
Print Assumptions c65_smart.
Print Assumptions c65_create.
Print Assumptions c65_streaming_partial.
Print Assumptions c65_no_streaming.
Print Assumptions c65_one_streaming_refuted.
Print Assumptions c65_several.
Print Assumptions c65_local_id.
Print Assumptions c65_local_id_next_partial.
Print Assumptions c65_local_id_refuted.
Print Assumptions c65_config.
Print Assumptions c65_given_value_refuted.
Print Assumptions c65_merge.
Print Assumptions c65_discovered_value_refuted.
