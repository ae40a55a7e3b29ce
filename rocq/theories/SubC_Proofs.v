(** Proofs about the client side of a streaming. *)
From Coq Require Import List Bool Arith Lia.
From Verif Require Import SubC_Model SubC_Spec.
Import ListNotations.

Lemma id_eqb_iff a : forall b, id_eqb a b = true <-> a = b.
Proof.
  induction a as [|x a IH]; intros [|y b]; cbn [id_eqb]; try (split; congruence).
  rewrite andb_true_iff, Nat.eqb_eq, IH. split; [intros [-> ->]; reflexivity|intro E; inversion E; auto].
Qed.
Lemma id_eqb_refl a : id_eqb a a = true.
Proof. apply id_eqb_iff; reflexivity. Qed.
Lemma id_eqb_neq a b : id_eqb a b = false <-> a <> b.
Proof. rewrite <- id_eqb_iff. destruct (id_eqb a b); split; congruence. Qed.
Lemma id_dec (a b : id) : {a = b} + {a <> b}.
Proof. destruct (id_eqb a b) eqn:E; [left; apply id_eqb_iff; exact E|right; apply id_eqb_neq; exact E]. Qed.
Lemma starts_refl a : starts a a = true.
Proof. induction a as [|x a IH]; cbn [starts]; [reflexivity|rewrite Nat.eqb_refl; exact IH]. Qed.
Lemma ends_refl a : ends_with a a = true.
Proof. unfold ends_with. rewrite Nat.ltb_irrefl. apply starts_refl. Qed.
Lemma idmem_iff x l : existsb (id_eqb x) l = true <-> In x l.
Proof.
  rewrite existsb_exists. split; [intros (y & H & E); apply id_eqb_iff in E; subst; exact H|].
  intro H. exists x. split; [exact H|apply id_eqb_refl].
Qed.
Lemma remove_id_in x y l : In y (remove_id x l) <-> In y l /\ y <> x.
Proof.
  unfold remove_id. rewrite filter_In, negb_true_iff, id_eqb_neq. split; intros [A B]; split; congruence.
Qed.

(* ---------- items ---------- *)
Definition keys (l : list item) : list id := map i_key l.
Lemma find_item_some k l i : find_item k l = Some i -> In i l /\ i_key i = k.
Proof. unfold find_item. intro H. apply find_some in H. destruct H as [A B]. apply id_eqb_iff in B. auto. Qed.
Lemma find_item_none k l : find_item k l = None <-> ~ In k (keys l).
Proof.
  unfold find_item, keys. split.
  - intros H X. apply in_map_iff in X. destruct X as (i & E & X). apply (find_none _ _ H) in X. apply id_eqb_neq in X. contradiction.
  - intro H. destruct (find _ l) as [i|] eqn:E; [|reflexivity]. apply find_some in E. destruct E as [A B]. apply id_eqb_iff in B.
    exfalso. apply H. apply in_map_iff. eauto.
Qed.
Lemma find_item_in k l i : NoDup (keys l) -> In i l -> i_key i = k -> find_item k l = Some i.
Proof.
  unfold find_item, keys. induction l as [|j l IH]; intros N H E; [destruct H|]. cbn [map find] in *. inversion N as [|? ? N1 N2]; subst.
  destruct H as [->|H]; [rewrite id_eqb_refl; reflexivity|].
  destruct (id_eqb (i_key j) (i_key i)) eqn:X; [|apply IH; auto]. apply id_eqb_iff in X. exfalso. apply N1. rewrite X. apply in_map. exact H.
Qed.
Lemma erase_keys_in k l : forall i, In i (erase_item k l) -> In i l.
Proof.
  induction l as [|j l IH]; intros i H; cbn [erase_item] in H; [destruct H|]. destruct (id_eqb (i_key j) k); [right; exact H|].
  destruct H as [->|H]; [left; reflexivity|right; auto].
Qed.
Lemma erase_in k l : NoDup (keys l) -> forall i, In i (erase_item k l) <-> In i l /\ i_key i <> k.
Proof.
  unfold keys. induction l as [|j l IH]; intros N i; cbn [erase_item map] in *; [cbn [In]; tauto|]. inversion N as [|? ? N1 N2]; subst.
  destruct (id_eqb (i_key j) k) eqn:X.
  - apply id_eqb_iff in X. subst k. cbn [In]. split.
    + intro H. split; [right; exact H|]. intro E. apply N1. rewrite <- E. apply in_map. exact H.
    + intros [[->|H] E]; [contradiction|exact H].
  - apply id_eqb_neq in X. cbn [In]. rewrite (IH N2). split.
    + intros [->|[H E]]; [auto|auto].
    + intros [[->|H] E]; auto.
Qed.
Lemma erase_nd k l : NoDup (keys l) -> NoDup (keys (erase_item k l)).
Proof.
  unfold keys. induction l as [|j l IH]; intro N; cbn [erase_item map] in *; [constructor|]. inversion N as [|? ? N1 N2]; subst.
  destruct (id_eqb (i_key j) k); [exact N2|]. cbn [map]. constructor; [|auto].
  intro H. apply in_map_iff in H. destruct H as (i & E & H). apply erase_keys_in in H. apply N1. rewrite <- E. apply in_map. exact H.
Qed.
Lemma set_cnt_keys k n l : keys (set_cnt k n l) = keys l.
Proof.
  unfold keys. induction l as [|j l IH]; cbn [set_cnt map]; [reflexivity|]. destruct (id_eqb (i_key j) k); cbn [map i_key]; [reflexivity|f_equal; exact IH].
Qed.
Lemma set_cnt_in k n l : NoDup (keys l) -> forall j, In j (set_cnt k n l) <->
  (In j l /\ i_key j <> k) \/ exists i, In i l /\ i_key i = k /\ j = mkI k n (i_rid i).
Proof.
  unfold keys. induction l as [|j0 l IH]; intros N j; cbn [set_cnt map] in *.
  - cbn [In]. split; [intros []|intros [[[] _]|(i & [] & _)]].
  - inversion N as [|? ? N1 N2]; subst. destruct (id_eqb (i_key j0) k) eqn:X.
    + apply id_eqb_iff in X. subst k. cbn [In]. split.
      * intros [<-|H]; [right; exists j0; auto|left]. split; [auto|]. intro E. apply N1. rewrite <- E. apply in_map. exact H.
      * intros [[[->|H] E]|(i & [->|H] & E & ->)]; [contradiction|auto|auto|]. exfalso. apply N1. rewrite <- E. apply in_map. exact H.
    + apply id_eqb_neq in X. cbn [In]. rewrite (IH N2). split.
      * intros [->|[[H E]|(i & H & E & ->)]]; [auto|auto|right; exists i; auto].
      * intros [[[->|H] E]|(i & [->|H] & E & ->)]; [auto|auto|contradiction|right; right; exists i; auto].
Qed.
Lemma insert_in i l : ~ In (i_key i) (keys l) -> insert_item i l = l ++ [i].
Proof. intro H. unfold insert_item. apply find_item_none in H. rewrite H. reflexivity. Qed.
Lemma nd_snoc {A} (l : list A) x : NoDup l -> ~ In x l -> NoDup (l ++ [x]).
Proof.
  intros N H. induction l as [|a l IH]; cbn [app]; [constructor; [auto|constructor]|].
  inversion N as [|? ? N1 N2]; subst. constructor.
  - rewrite in_app_iff. intros [X|[X|[]]]; [contradiction|subst; apply H; left; reflexivity].
  - apply IH; [exact N2|]. intro X. apply H. right. exact X.
Qed.

(* ---------- subscriptions on the wire ---------- *)
Lemma subscribed_snoc w n x : Subscribed (w ++ [n]) x <->
  n = RSub x \/ (Subscribed w x /\ n <> RUnsub x /\ n <> Gone x /\ n <> Fresh).
Proof.
  split.
  - intro H. inversion H as [w' x' E|w' x' n' H1 H2 H3 H4 E]; apply app_inj_tail in E; destruct E; subst; [left; reflexivity|right; auto].
  - intros [->|(A & B & C & D)]; [constructor|apply Su_other; assumption].
Qed.
Lemma not_subscribed_nil x : ~ Subscribed [] x.
Proof. intro H. inversion H as [w' x' E|w' x' n' H1 H2 H3 H4 E]; destruct w'; discriminate E. Qed.

Section Ids.
  Variables Rs Xs : id -> Prop.
  Hypothesis U : Unambiguous Rs Xs.

  Definition keyof (av : list id) (r : id) : id := match find (fun x => ends_with r x) av with Some x => x | None => r end.
  Lemma keyof_yes av r x : Rs r -> (forall y, In y av -> Xs y) -> In x av -> ends_with r x = true -> keyof av r = x.
  Proof.
    intros R A I1 E. unfold keyof. destruct (find (fun y => ends_with r y) av) as [y|] eqn:F.
    - apply find_some in F. destruct F as [F1 F2]. apply (un_one _ _ U r); auto.
    - apply (find_none _ _ F) in I1. congruence.
  Qed.
  Lemma keyof_no av r : (forall x, In x av -> ends_with r x = false) -> keyof av r = r.
  Proof.
    intro H. unfold keyof. destruct (find (fun y => ends_with r y) av) as [y|] eqn:F; [|reflexivity].
    apply find_some in F. destruct F as [F1 F2]. rewrite (H _ F1) in F2. discriminate.
  Qed.
  Lemma keyof_cases av r : (exists x, In x av /\ ends_with r x = true /\ keyof av r = x) \/
                           ((forall x, In x av -> ends_with r x = false) /\ keyof av r = r).
  Proof.
    unfold keyof. destruct (find (fun y => ends_with r y) av) as [y|] eqn:F.
    - apply find_some in F. left. exists y. tauto.
    - right. split; [|reflexivity]. intros x Hx. exact (find_none _ _ F x Hx).
  Qed.
  Lemma keyof_inj av r q : (forall y, In y av -> Xs y) -> Rs r -> Rs q -> keyof av r = keyof av q -> r = q.
  Proof.
    intros A R Q E. destruct (keyof_cases av r) as [(x & X1 & X2 & X3)|[X1 X3]], (keyof_cases av q) as [(y & Y1 & Y2 & Y3)|[Y1 Y3]].
    - apply (un_whose _ _ U r q x); auto. congruence.
    - exfalso. assert (Z : x = q) by congruence. rewrite Z in X1. specialize (Y1 q X1). rewrite ends_refl in Y1. discriminate.
    - exfalso. assert (Z : y = r) by congruence. rewrite Z in Y1. specialize (X1 r Y1). rewrite ends_refl in X1. discriminate.
    - congruence.
  Qed.
  (** a key is an announced id exactly when the signal is available *)
  Lemma keyof_avail av r : (forall y, In y av -> Xs y) -> Rs r -> (In (keyof av r) av <-> exists x, In x av /\ ends_with r x = true).
  Proof.
    intros A R. destruct (keyof_cases av r) as [(x & X1 & X2 & X3)|[X1 X3]]; rewrite X3.
    - split; [intros _; exists x; auto|auto].
    - split; [|intros (x & H1 & H2); rewrite (X1 x H1) in H2; discriminate]. intro H. specialize (X1 r H). rewrite ends_refl in X1. discriminate.
  Qed.

  Record inv (st : state) : Prop := {
    in_nd : NoDup (keys (st_items st));
    in_key : forall i, In i (st_items st) -> Rs (i_rid i) /\ i_key i = keyof (st_avail st) (i_rid i);
    in_av : forall x, In x (st_avail st) -> Xs x
  }.
  Definition cnts (st : state) (r : id) (n : nat) : Prop := exists i, In i (st_items st) /\ i_rid i = r /\ i_cnt i = n.
  Definition wired (st : state) : Prop :=
    Proper (st_wire st) /\ forall x, Subscribed (st_wire st) x <->
      In x (st_avail st) /\ exists i, In i (st_items st) /\ i_key i = x /\ 0 < i_cnt i.

  Lemma find_key st r i : inv st -> Rs r -> (find_item (key_of st r) (st_items st) = Some i <-> In i (st_items st) /\ i_rid i = r).
  Proof.
    intros V R. change (key_of st r) with (keyof (st_avail st) r). split.
    - intro H. apply find_item_some in H. destruct H as [A B]. split; [exact A|].
      destruct (in_key st V i A) as [C D]. apply (keyof_inj (st_avail st)); [apply (in_av st V)|exact C|exact R|congruence].
    - intros [A B]. apply find_item_in; [apply (in_nd st V)|exact A|]. destruct (in_key st V i A) as [C D]. congruence.
  Qed.
  Lemma find_key_none st r : inv st -> Rs r -> find_item (key_of st r) (st_items st) = None -> forall i, In i (st_items st) -> i_rid i <> r.
  Proof.
    intros V R H i Hi E. assert (X : find_item (key_of st r) (st_items st) = Some i) by (apply (find_key st r i V R); auto). congruence.
  Qed.
  Lemma rid_unique st i j : inv st -> In i (st_items st) -> In j (st_items st) -> i_rid i = i_rid j -> i = j.
  Proof.
    intros V A B E. destruct (in_key st V i A) as [C _].
    assert (X : find_item (key_of st (i_rid i)) (st_items st) = Some i) by (apply (find_key st _ i V C); auto).
    assert (Y : find_item (key_of st (i_rid i)) (st_items st) = Some j) by (apply (find_key st _ j V C); auto). congruence.
  Qed.
  Lemma cnts_fun st r n m : inv st -> cnts st r n -> cnts st r m -> n = m.
  Proof.
    intros V (i & A & B & C) (j & A' & B' & C'). assert (i = j) by (apply (rid_unique st); auto; congruence). subst j. congruence.
  Qed.

  (* --- changing one count --- *)
  Lemma with_cnt st r i n : inv st -> In i (st_items st) -> i_rid i = r ->
    inv (with_items st (set_cnt (key_of st r) n (st_items st))) /\
    (forall q m, cnts (with_items st (set_cnt (key_of st r) n (st_items st))) q m <-> (q <> r /\ cnts st q m) \/ (q = r /\ m = n)).
  Proof.
    intros V A B. assert (N := in_nd st V). destruct (in_key st V i A) as [C D].
    assert (K : key_of st r = i_key i) by (change (key_of st r) with (keyof (st_avail st) r); congruence).
    split.
    - constructor; cbn [with_items st_items st_avail].
      + rewrite set_cnt_keys. exact N.
      + intros j H. apply (set_cnt_in _ _ _ N) in H. destruct H as [[H _]|(j0 & H & E & ->)]; [apply (in_key st V); exact H|].
        cbn [i_rid i_key]. destruct (in_key st V j0 H) as [P Q]. split; [exact P|congruence].
      + apply (in_av st V).
    - intros q m. unfold cnts; cbn [with_items st_items]. split.
      + intros (j & H & E1 & E2). apply (set_cnt_in _ _ _ N) in H. destruct H as [[H X]|(j0 & H & E & ->)].
        * left. split; [|exists j; auto]. intros ->. apply X. rewrite K. f_equal. apply (rid_unique st); auto. congruence.
        * right. cbn [i_rid i_cnt] in *. split; [|congruence]. rewrite <- E1, <- B. f_equal. apply (rid_unique st); auto.
          assert (F1 := find_item_in _ _ _ N H E). assert (F2 := find_item_in _ _ _ N A (eq_sym K)). congruence.
      + intros [[X (j & H & E1 & E2)]|[-> ->]].
        * exists j. split; [|auto]. apply (set_cnt_in _ _ _ N). left. split; [exact H|]. intro E. apply X.
          rewrite <- E1, <- B. f_equal. assert (F1 := find_item_in _ _ _ N H E). assert (F2 := find_item_in _ _ _ N A (eq_sym K)). congruence.
        * exists (mkI (key_of st r) n (i_rid i)). split; [|auto]. apply (set_cnt_in _ _ _ N). right. exists i. auto.
  Qed.

  (** the wire, in terms of counts *)
  Definition wanted (st : state) (x : id) : Prop :=
    In x (st_avail st) /\ exists r n, ends_with r x = true /\ cnts st r n /\ 0 < n.
  Lemma wanted_iff st x : inv st -> (wanted st x <-> In x (st_avail st) /\ exists i, In i (st_items st) /\ i_key i = x /\ 0 < i_cnt i).
  Proof.
    intro V. unfold wanted. split.
    - intros (A & r & n & E & (i & H & E1 & E2) & P). split; [exact A|]. exists i. split; [exact H|]. split; [|lia].
      destruct (in_key st V i H) as [C D]. rewrite D. apply keyof_yes; [exact C|apply (in_av st V)|exact A|congruence].
    - intros (A & i & H & E & P). split; [exact A|]. exists (i_rid i), (i_cnt i). split; [|split; [exists i; auto|exact P]].
      destruct (in_key st V i H) as [C D]. destruct (keyof_cases (st_avail st) (i_rid i)) as [(y & Y1 & Y2 & Y3)|[Y1 Y3]].
      + congruence.
      + replace x with (i_rid i) by congruence. apply ends_refl.
  Qed.
  Definition good (st : state) : Prop :=
    inv st /\ Proper (st_wire st) /\ forall x, Subscribed (st_wire st) x <-> wanted st x.

  Lemma sid_some st r : streaming_id st r = Some (key_of st r) \/ (streaming_id st r = None /\ key_of st r = r).
  Proof. unfold key_of. destruct (streaming_id st r); auto. Qed.

  Lemma sub_good st r n : good st -> Rs r -> cnts st r n ->
    good (fst (do_subscribe st r false)) /\ snd (do_subscribe st r false) = OK /\
    st_avail (fst (do_subscribe st r false)) = st_avail st /\
    forall q m, cnts (fst (do_subscribe st r false)) q m <-> (q <> r /\ cnts st q m) \/ (q = r /\ m = S n).
  Proof.
    intros (V & P & W) R (i & Hi & Er & En). unfold do_subscribe.
    rewrite (proj2 (find_key st r i V R) (conj Hi Er)). rewrite En.
    destruct (with_cnt st r i (S n) V Hi Er) as [V1 C1]. set (st1 := with_items st (set_cnt (key_of st r) (S n) (st_items st))) in *.
    assert (Cr : cnts st r n) by (exists i; auto). clear En.
    destruct (streaming_id st r) as [x|] eqn:F.
    - assert (Kx : key_of st r = x) by (unfold key_of; rewrite F; reflexivity).
      assert (Fx : In x (st_avail st) /\ ends_with r x = true) by (apply find_some in F; exact F). destruct Fx as [Fx1 Fx2].
      assert (Own : forall y q, In y (st_avail st) -> ends_with q y = true -> Rs q -> q = r -> y = x).
      { intros y q Hy Ey Rq ->. apply (un_one _ _ U r); auto; apply (in_av st V); auto. }
      destruct (Nat.ltb 0 n) eqn:Z.
      + apply Nat.ltb_lt in Z. cbn [fst snd]. split; [|auto]. split; [exact V1|]. split; [exact P|].
        intro y. change (st_wire st1) with (st_wire st). rewrite W. unfold wanted. change (st_avail st1) with (st_avail st). split.
        * intros (A & q & m & E & C & L). split; [exact A|]. destruct (id_dec q r) as [->|N].
          -- exists r, (S n). split; [exact E|]. split; [apply C1; auto|lia].
          -- exists q, m. split; [exact E|]. split; [apply C1; auto|exact L].
        * intros (A & q & m & E & C & L). split; [exact A|]. apply C1 in C. destruct C as [[N C]|[-> ->]]; [exists q, m; auto|exists r, n; auto].
      + apply Nat.ltb_ge in Z. assert (n = 0) by lia. clear Z. subst n. cbn [fst snd]. rewrite Kx.
        assert (NS : ~ Subscribed (st_wire st) x).
        { rewrite W. intros (_ & q & m & E & C & L).
          assert (Rq : Rs q) by (destruct C as (j & J1 & J2 & J3); rewrite <- J2; apply (in_key st V); exact J1).
          assert (q = r) by (apply (un_whose _ _ U q r x); auto; apply (in_av st V); exact Fx1). subst q.
          assert (m = 0) by exact (cnts_fun st r m 0 V C Cr). lia. }
        split.
        * split; [|split].
          -- constructor; [apply (in_nd st1 V1)|apply (in_key st1 V1)|apply (in_av st1 V1)].
          -- apply Pr_sub; assumption.
          -- intro y. cbn [say st_wire]. change (st_wire st1) with (st_wire st). rewrite subscribed_snoc. unfold wanted; cbn [say st_avail].
             change (st_avail st1) with (st_avail st).
             assert (CC : forall q m, cnts (say st1 (RSub x)) q m <-> cnts st1 q m) by (intros; unfold cnts; reflexivity).
             split.
             ++ intros [E|(S1 & _)].
                ** inversion E; subst y. split; [exact Fx1|]. exists r, 1. split; [exact Fx2|]. split; [apply CC, C1; auto|lia].
                ** apply W in S1. destruct S1 as (A & q & m & E & C & L). split; [exact A|]. destruct (id_dec q r) as [->|N].
                   --- exfalso. assert (m = 0) by exact (cnts_fun st r m 0 V C Cr). lia.
                   --- exists q, m. split; [exact E|]. split; [apply CC, C1; auto|exact L].
             ++ intros (A & q & m & E & C & L). apply CC, C1 in C. destruct C as [[N C]|[-> ->]].
                ** right. split; [apply W; split; [exact A|exists q, m; auto]|]. split; [discriminate|split; discriminate].
                ** left. f_equal. symmetry. exact (Own y r A E R eq_refl).
        * split; [reflexivity|]. split; [reflexivity|]. exact C1.
    - cbn [fst snd]. split; [|auto]. split; [exact V1|]. split; [exact P|].
      intro y. change (st_wire st1) with (st_wire st). rewrite W. unfold wanted. change (st_avail st1) with (st_avail st).
      assert (No : In y (st_avail st) -> ends_with r y = true -> False).
      { intros A E. unfold streaming_id in F. apply (find_none _ _ F) in A. congruence. }
      split; intros (A & q & m & E & C & L); (split; [exact A|]); exists q, m; (split; [exact E|]); (split; [|exact L]).
      + apply C1. left. split; [|exact C]. intros ->. exact (No A E).
      + apply C1 in C. destruct C as [[N C]|[-> ->]]; [exact C|]. exfalso. exact (No A E).
  Qed.

  Lemma unsub_good st r n : good st -> Rs r -> cnts st r (S n) ->
    good (fst (do_unsubscribe st r false)) /\ snd (do_unsubscribe st r false) = OK /\
    st_avail (fst (do_unsubscribe st r false)) = st_avail st /\
    forall q m, cnts (fst (do_unsubscribe st r false)) q m <-> (q <> r /\ cnts st q m) \/ (q = r /\ m = n).
  Proof.
    intros (V & P & W) R (i & Hi & Er & En). unfold do_unsubscribe.
    rewrite (proj2 (find_key st r i V R) (conj Hi Er)). rewrite En.
    destruct (with_cnt st r i n V Hi Er) as [V1 C1]. set (st1 := with_items st (set_cnt (key_of st r) n (st_items st))) in *.
    assert (Cr : cnts st r (S n)) by (exists i; auto). clear En.
    destruct (streaming_id st r) as [x|] eqn:F.
    - assert (Kx : key_of st r = x) by (unfold key_of; rewrite F; reflexivity).
      assert (Fx : In x (st_avail st) /\ ends_with r x = true) by (apply find_some in F; exact F). destruct Fx as [Fx1 Fx2].
      assert (Rq' : forall q m, cnts st q m -> Rs q).
      { intros q m (j & J1 & J2 & J3). rewrite <- J2. apply (in_key st V). exact J1. }
      destruct (Nat.ltb 0 n) eqn:Z.
      + apply Nat.ltb_lt in Z. cbn [fst snd]. split; [|auto]. split; [exact V1|]. split; [exact P|].
        intro y. change (st_wire st1) with (st_wire st). rewrite W. unfold wanted. change (st_avail st1) with (st_avail st). split.
        * intros (A & q & m & E & C & L). split; [exact A|]. destruct (id_dec q r) as [->|N].
          -- exists r, n. split; [exact E|]. split; [apply C1; auto|lia].
          -- exists q, m. split; [exact E|]. split; [apply C1; auto|exact L].
        * intros (A & q & m & E & C & L). split; [exact A|]. apply C1 in C. destruct C as [[N C]|[-> ->]]; [exists q, m; auto|exists r, (S n)].
          split; [exact E|]. split; [exact Cr|lia].
      + apply Nat.ltb_ge in Z. assert (n = 0) by lia. clear Z. subst n. cbn [fst snd]. rewrite Kx.
        assert (YS : Subscribed (st_wire st) x).
        { rewrite W. split; [exact Fx1|]. exists r, 1. auto. }
        split.
        * split; [|split].
          -- constructor; [apply (in_nd st1 V1)|apply (in_key st1 V1)|apply (in_av st1 V1)].
          -- apply Pr_unsub; assumption.
          -- intro y. cbn [say st_wire]. change (st_wire st1) with (st_wire st). rewrite subscribed_snoc. unfold wanted; cbn [say st_avail].
             change (st_avail st1) with (st_avail st).
             assert (CC : forall q m, cnts (say st1 (RUnsub x)) q m <-> cnts st1 q m) by (intros; unfold cnts; reflexivity).
             split.
             ++ intros [E|(S1 & N1 & _)]; [discriminate E|].
                apply W in S1. destruct S1 as (A & q & m & E & C & L). split; [exact A|]. destruct (id_dec q r) as [->|N].
                ** exfalso. apply N1. f_equal. apply (un_one _ _ U r); auto; apply (in_av st V); auto.
                ** exists q, m. split; [exact E|]. split; [apply CC, C1; auto|exact L].
             ++ intros (A & q & m & E & C & L). apply CC, C1 in C. destruct C as [[N C]|[-> ->]]; [|lia].
                right. split; [apply W; split; [exact A|exists q, m; auto]|]. split; [|split]; try discriminate.
                intro X. inversion X; subst y. apply N. apply (un_whose _ _ U q r x); auto; [eapply Rq'; eauto|apply (in_av st V); exact Fx1].
        * split; [reflexivity|]. split; [reflexivity|]. exact C1.
    - cbn [fst snd]. split; [|auto]. split; [exact V1|]. split; [exact P|].
      intro y. change (st_wire st1) with (st_wire st). rewrite W. unfold wanted. change (st_avail st1) with (st_avail st).
      assert (No : In y (st_avail st) -> ends_with r y = true -> False).
      { intros A E. unfold streaming_id in F. apply (find_none _ _ F) in A. congruence. }
      split; intros (A & q & m & E & C & L); (split; [exact A|]); exists q, m; (split; [exact E|]); (split; [|exact L]).
      + apply C1. left. split; [|exact C]. intros ->. exact (No A E).
      + apply C1 in C. destruct C as [[N C]|[-> ->]]; [exact C|]. exfalso. exact (No A E).
  Qed.

  Lemma add_good st r : good st -> Rs r ->
    good (fst (add_signal st r)) /\ st_avail (fst (add_signal st r)) = st_avail st /\
    forall q m, cnts (fst (add_signal st r)) q m <-> cnts st q m \/ (q = r /\ m = 0 /\ forall k, ~ cnts st r k).
  Proof.
    intros (V & P & W) R. unfold add_signal. destruct (find_item (key_of st r) (st_items st)) as [i|] eqn:F; cbn [fst].
    - split; [split; [exact V|split; [exact P|exact W]]|]. split; [reflexivity|].
      intros q m. split; [auto|]. intros [H|(-> & -> & H)]; [exact H|]. exfalso. apply (find_key st r i V R) in F. apply (H (i_cnt i)). exists i. tauto.
    - assert (NK : ~ In (key_of st r) (keys (st_items st))) by (apply find_item_none; exact F).
      rewrite insert_in by exact NK.
      assert (NR : forall k, ~ cnts st r k).
      { intros k (i & A & B & C). exact (find_key_none st r V R F i A B). }
      assert (C1 : forall q m, cnts (with_items st (st_items st ++ [mkI (key_of st r) 0 r])) q m <-> cnts st q m \/ (q = r /\ m = 0 /\ forall k, ~ cnts st r k)).
      { intros q m. unfold cnts; cbn [with_items st_items]. split.
        - intros (j & H & E1 & E2). apply in_app_iff in H. destruct H as [H|[<-|[]]]; [left; exists j; auto|right; cbn [i_rid i_cnt] in *; auto].
        - intros [(j & H & E)|(-> & -> & _)]; [exists j; split; [apply in_app_iff; left; exact H|exact E]|].
          exists (mkI (key_of st r) 0 r). split; [apply in_app_iff; right; left; reflexivity|auto]. }
      split; [|split; [reflexivity|exact C1]].
      split; [|split].
      + constructor; cbn [with_items st_items st_avail].
        * unfold keys. rewrite map_app. apply nd_snoc; [apply (in_nd st V)|exact NK].
        * intros i H. apply in_app_iff in H. destruct H as [H|[<-|[]]]; [apply (in_key st V); exact H|]. cbn [i_rid i_key]. split; [exact R|reflexivity].
        * apply (in_av st V).
      + exact P.
      + intro y. cbn [with_items st_wire]. rewrite W. unfold wanted; cbn [with_items st_avail].
        split; intros (A & q & m & E & C & L); (split; [exact A|]); exists q, m; (split; [exact E|]); (split; [|exact L]).
        * apply C1. left. exact C.
        * apply C1 in C. destruct C as [C|(_ & -> & _)]; [exact C|lia].
  Qed.

  Lemma drop_good st r : good st -> Rs r -> (forall n, cnts st r n -> n = 0) ->
    good (fst (remove_signal st r)) /\ st_avail (fst (remove_signal st r)) = st_avail st /\
    forall q m, cnts (fst (remove_signal st r)) q m <-> cnts st q m /\ q <> r.
  Proof.
    intros (V & P & W) R Z. unfold remove_signal. destruct (find_item (key_of st r) (st_items st)) as [i|] eqn:F; cbn [fst].
    - assert (N := in_nd st V). pose proof (proj1 (find_key st r i V R) F) as [Hi Er].
      assert (K : key_of st r = i_key i) by (apply find_item_some in F; symmetry; tauto).
      assert (C1 : forall q m, cnts (with_items st (erase_item (key_of st r) (st_items st))) q m <-> cnts st q m /\ q <> r).
      { intros q m. unfold cnts; cbn [with_items st_items]. split.
        - intros (j & H & E1 & E2). apply (erase_in _ _ N) in H. destruct H as [H X]. split; [exists j; auto|]. intros ->. apply X. rewrite K.
          f_equal. apply (rid_unique st); auto. congruence.
        - intros [(j & H & E1 & E2) X]. exists j. split; [|auto]. apply (erase_in _ _ N). split; [exact H|]. intro E. apply X.
          rewrite <- E1, <- Er. f_equal. assert (F1 := find_item_in _ _ _ N H E). congruence. }
      split; [|split; [reflexivity|exact C1]].
      split; [|split].
      + constructor; cbn [with_items st_items st_avail]; [apply erase_nd; exact N| |apply (in_av st V)].
        intros j H. apply (erase_in _ _ N) in H. apply (in_key st V). tauto.
      + exact P.
      + intro y. cbn [with_items st_wire]. rewrite W. unfold wanted; cbn [with_items st_avail].
        split; intros (A & q & m & E & C & L); (split; [exact A|]); exists q, m; (split; [exact E|]); (split; [|exact L]).
        * apply C1. split; [exact C|]. intros ->. apply Z in C. lia.
        * apply C1 in C. tauto.
    - split; [split; [exact V|split; [exact P|exact W]]|]. split; [reflexivity|].
      intros q m. split; [|tauto]. intros H. split; [exact H|]. intros ->. destruct H as (i & A & B & C). exact (find_key_none st r V R F i A B).
  Qed.

  (* --- availability --- *)
  Lemma rekey_facts l old new i : NoDup (keys l) -> In i l -> i_key i = old -> ~ In new (keys (erase_item old l)) ->
    NoDup (keys (rekey old new l)) /\
    forall j, In j (rekey old new l) <-> (In j l /\ i_key j <> old) \/ j = mkI new (i_cnt i) (i_rid i).
  Proof.
    intros N Hi E NN. unfold rekey. rewrite (find_item_in _ _ _ N Hi E). rewrite insert_in by exact NN. split.
    - unfold keys. rewrite map_app. apply nd_snoc; [apply erase_nd; exact N|exact NN].
    - intro j. rewrite in_app_iff. rewrite (erase_in _ _ N). cbn [In]. split; [intros [H|[H|[]]]; auto|intros [H|H]; auto].
  Qed.

  Lemma av_good st x : good st -> Xs x -> ~ In x (st_avail st) ->
    good (resubscribe (remap_available (with_avail st (x :: st_avail st)) x) x) /\
    (forall y, In y (st_avail (resubscribe (remap_available (with_avail st (x :: st_avail st)) x) x)) <-> y = x \/ In y (st_avail st)) /\
    forall q m, cnts (resubscribe (remap_available (with_avail st (x :: st_avail st)) x) x) q m <-> cnts st q m.
  Proof.
    intros (V & P & W) X NA. assert (N := in_nd st V).
    set (st1 := remap_available (with_avail st (x :: st_avail st)) x).
    assert (AX : forall y, In y (x :: st_avail st) -> Xs y) by (intros y [<-|H]; [exact X|apply (in_av st V); exact H]).
    assert (Av1 : st_avail st1 = x :: st_avail st).
    { unfold st1, remap_available. destruct (find _ _) as [i|]; [destruct (id_eqb (i_key i) x)|]; reflexivity. }
    assert (Wi1 : st_wire st1 = st_wire st).
    { unfold st1, remap_available. destruct (find _ _) as [i|]; [destruct (id_eqb (i_key i) x)|]; reflexivity. }
    (* the keys that end with x belong to the signal that matches x *)
    assert (Keys : forall i, In i (st_items st) -> (ends_with (i_key i) x = true <-> ends_with (i_rid i) x = true) /\
                             (ends_with (i_rid i) x = true -> i_key i = i_rid i)).
    { intros i Hi. destruct (in_key st V i Hi) as [C D]. rewrite D.
      destruct (keyof_cases (st_avail st) (i_rid i)) as [(y & Y1 & Y2 & Y3)|[Y1 Y3]]; rewrite Y3.
      - split.
        + split.
          * intro E. assert (Q : y = x) by (apply (un_flat _ _ U); auto; apply (in_av st V); auto). exfalso; apply NA; rewrite <- Q; exact Y1.
          * intro E. assert (Q : y = x) by (apply (un_one _ _ U (i_rid i)); auto; apply (in_av st V); auto). exfalso; apply NA; rewrite <- Q; exact Y1.
        + intro E. assert (Q : y = x) by (apply (un_one _ _ U (i_rid i)); auto; apply (in_av st V); auto). exfalso; apply NA; rewrite <- Q; exact Y1.
      - split; [reflexivity|auto]. }
    assert (Other : forall i, In i (st_items st) -> ends_with (i_rid i) x = false -> i_key i = keyof (x :: st_avail st) (i_rid i)).
    { intros i Hi E. destruct (in_key st V i Hi) as [C D]. rewrite D. unfold keyof. cbn [find]. rewrite E. reflexivity. }
    assert (New : forall r, ends_with r x = true -> keyof (x :: st_avail st) r = x).
    { intros r E. unfold keyof. cbn [find]. rewrite E. reflexivity. }
    (* the items after the remapping *)
    assert (Core : NoDup (keys (st_items st1)) /\
       (forall i, In i (st_items st1) -> Rs (i_rid i) /\ i_key i = keyof (x :: st_avail st) (i_rid i)) /\
       (forall q m, cnts st1 q m <-> cnts st q m)).
    { unfold st1, remap_available. cbn [with_avail st_items].
      destruct (find (fun i => ends_with (i_key i) x) (st_items st)) as [i|] eqn:F.
      - apply find_some in F. destruct F as [Hi Ei]. destruct (Keys i Hi) as [K1 K2]. assert (Er := proj1 K1 Ei). assert (Ek := K2 Er).
        destruct (in_key st V i Hi) as [Ci Di].
        assert (Only : forall j, In j (st_items st) -> ends_with (i_rid j) x = true -> j = i).
        { intros j Hj Ej. apply (rid_unique st); auto. destruct (in_key st V j Hj) as [Cj _]. apply (un_whose _ _ U (i_rid j) (i_rid i) x); auto. }
        destruct (id_eqb (i_key i) x) eqn:Z.
        + apply id_eqb_iff in Z. cbn [with_avail st_items]. split; [exact N|]. split; [|intros; reflexivity].
          intros j Hj. destruct (in_key st V j Hj) as [Cj Dj]. split; [exact Cj|].
          destruct (ends_with (i_rid j) x) eqn:Ej; [|apply Other; assumption]. rewrite (New _ Ej). rewrite (Only j Hj Ej). exact Z.
        + apply id_eqb_neq in Z. cbn [with_items with_avail st_items].
          assert (NN : ~ In x (keys (erase_item (i_key i) (st_items st)))).
          { intro H. apply in_map_iff in H. destruct H as (j & E & Hj). apply (erase_in _ _ N) in Hj. destruct Hj as [Hj Xj].
            assert (Ej : ends_with (i_key j) x = true) by (rewrite E; apply ends_refl). destruct (Keys j Hj) as [K3 _]. apply K3 in Ej.
            rewrite (Only j Hj Ej) in Xj. contradiction. }
          destruct (rekey_facts (st_items st) (i_key i) x i N Hi eq_refl NN) as [M1 M2].
          split; [exact M1|]. split.
          * intros j Hj. apply M2 in Hj. destruct Hj as [[Hj Xj]| ->].
            -- destruct (in_key st V j Hj) as [Cj Dj]. split; [exact Cj|]. apply Other; [exact Hj|].
               destruct (ends_with (i_rid j) x) eqn:Ej; [|reflexivity]. rewrite (Only j Hj Ej) in Xj. contradiction.
            -- cbn [i_rid i_key]. split; [exact Ci|]. symmetry. apply New. exact Er.
          * intros q m. unfold cnts. cbn [with_items with_avail st_items]. split.
            -- intros (j & Hj & E1 & E2). apply M2 in Hj. destruct Hj as [[Hj Xj]| ->]; [exists j; auto|exists i; auto].
            -- intros (j & Hj & E1 & E2). destruct (id_dec (i_key j) (i_key i)) as [Ej|Ej].
               ++ assert (j = i) by (assert (F1 := find_item_in _ _ _ N Hj Ej); assert (F2 := find_item_in _ _ _ N Hi eq_refl); congruence). subst j.
                  exists (mkI x (i_cnt i) (i_rid i)). split; [apply M2; right; reflexivity|auto].
               ++ exists j. split; [apply M2; left; auto|auto].
      - cbn [with_avail st_items]. split; [exact N|]. split; [|intros; reflexivity].
        intros j Hj. destruct (in_key st V j Hj) as [Cj Dj]. split; [exact Cj|]. apply Other; [exact Hj|].
        destruct (ends_with (i_rid j) x) eqn:Ej; [|reflexivity]. destruct (Keys j Hj) as [K3 _]. apply K3 in Ej. apply (find_none _ _ F) in Hj. congruence. }
    destruct Core as (M1 & M2 & M3).
    assert (V1 : inv st1). { constructor; [exact M1| |]; rewrite Av1; [exact M2|exact AX]. }
    assert (NS : ~ Subscribed (st_wire st) x) by (rewrite W; intros [A _]; contradiction).
    unfold resubscribe.
    assert (FI : forall i, find_item x (st_items st1) = Some i -> In i (st_items st1) /\ ends_with (i_rid i) x = true).
    { intros i F. apply find_item_some in F. destruct F as [F1 F2]. split; [exact F1|]. destruct (M2 i F1) as [C D].
      destruct (ends_with (i_rid i) x) eqn:E; [reflexivity|]. exfalso.
      assert (Kc := keyof_cases (x :: st_avail st) (i_rid i)). rewrite <- D, F2 in Kc. destruct Kc as [(y & Y1 & Y2 & Y3)|[Y1 Y3]]; [congruence|].
      rewrite <- Y3 in E. rewrite ends_refl in E. discriminate. }
    destruct (find_item x (st_items st1)) as [i|] eqn:F; [destruct (Nat.ltb 0 (i_cnt i)) eqn:Z|].
    - destruct (FI i eq_refl) as [Hi Ei]. apply Nat.ltb_lt in Z.
      split; [|split; [intro y; cbn [say st_avail]; rewrite Av1; cbn [In]; split; intros [H|H]; auto|intros q m; rewrite <- M3; reflexivity]].
      split; [constructor; [apply (in_nd st1 V1)|apply (in_key st1 V1)|apply (in_av st1 V1)]|]. split.
      + cbn [say st_wire]. rewrite Wi1. apply Pr_sub; assumption.
      + intro y. cbn [say st_wire]. rewrite Wi1, subscribed_snoc, W. unfold wanted. cbn [say st_avail]. rewrite Av1.
        assert (CC : forall q m, cnts (say st1 (RSub x)) q m <-> cnts st q m) by (intros; rewrite <- M3; reflexivity).
        split.
        * intros [E|((A & q & m & E & C & L) & _)].
          -- inversion E; subst y. split; [left; reflexivity|]. exists (i_rid i), (i_cnt i). split; [exact Ei|]. split; [apply CC, M3; exists i; auto|exact Z].
          -- split; [right; exact A|]. exists q, m. split; [exact E|]. split; [apply CC; exact C|exact L].
        * intros ([<-|A] & q & m & E & C & L); [left; reflexivity|]. right. split; [split; [exact A|]; exists q, m; split; [exact E|]; split; [apply CC; exact C|exact L]|].
          split; [discriminate|split; discriminate].
    - destruct (FI i eq_refl) as [Hi Ei]. apply Nat.ltb_ge in Z.
      split; [|split; [intro y; rewrite Av1; cbn [In]; split; intros [H|H]; auto|exact M3]].
      split; [exact V1|]. split; [rewrite Wi1; exact P|]. intro y. rewrite Wi1, W. unfold wanted. rewrite Av1. split.
      + intros (A & q & m & E & C & L). split; [right; exact A|]. exists q, m. split; [exact E|]. split; [apply M3; exact C|exact L].
      + intros ([<-|A] & q & m & E & C & L).
        * exfalso. assert (Cq := C). destruct C as (j & J1 & J2 & J3). destruct (M2 j J1) as [Cj _]. destruct (M2 i Hi) as [Ci _].
          assert (j = i) by (apply (rid_unique st1); auto; rewrite J2; apply (un_whose _ _ U q (i_rid i) x); auto; congruence). subst j. lia.
        * split; [exact A|]. exists q, m. split; [exact E|]. split; [apply M3; exact C|exact L].
    - split; [|split; [intro y; rewrite Av1; cbn [In]; split; intros [H|H]; auto|exact M3]].
      split; [exact V1|]. split; [rewrite Wi1; exact P|]. intro y. rewrite Wi1, W. unfold wanted. rewrite Av1. split.
      + intros (A & q & m & E & C & L). split; [right; exact A|]. exists q, m. split; [exact E|]. split; [apply M3; exact C|exact L].
      + intros ([<-|A] & q & m & E & C & L).
        * exfalso. destruct C as (j & J1 & J2 & J3). destruct (M2 j J1) as [Cj Dj].
          assert (i_key j = x) by (rewrite Dj; apply New; congruence). apply find_item_none in F. apply F. apply in_map_iff. exists j. auto.
        * split; [exact A|]. exists q, m. split; [exact E|]. split; [apply M3; exact C|exact L].
  Qed.

  (** taking ids away: the invariant relates the items to a given set of ids *)
  Record inv' (av : list id) (st : state) : Prop := {
    in_nd' : NoDup (keys (st_items st));
    in_key' : forall i, In i (st_items st) -> Rs (i_rid i) /\ i_key i = keyof av (i_rid i)
  }.
  Lemma unav_core st x av av' : inv' av st -> (forall y, In y av -> Xs y) -> In x av ->
    (forall y, In y av' <-> In y av /\ y <> x) ->
    inv' av' (remap_unavailable st x) /\ st_wire (remap_unavailable st x) = st_wire st /\ st_avail (remap_unavailable st x) = st_avail st /\
    forall q m, cnts (remap_unavailable st x) q m <-> cnts st q m.
  Proof.
    intros V AX A0 AV'. assert (N := in_nd' av st V).
    assert (AX' : forall y, In y av' -> Xs y) by (intros y H; apply AX; apply AV'; exact H).
    assert (KI : forall i, In i (st_items st) -> i_key i = x -> ends_with (i_rid i) x = true).
    { intros i Hi E. destruct (in_key' av st V i Hi) as [C D]. destruct (keyof_cases av (i_rid i)) as [(y & Y1 & Y2 & Y3)|[Y1 Y3]]; [congruence|].
      replace x with (i_rid i) by congruence. apply ends_refl. }
    assert (Other : forall i, In i (st_items st) -> ends_with (i_rid i) x = false -> i_key i = keyof av' (i_rid i)).
    { intros i Hi E. destruct (in_key' av st V i Hi) as [C D]. rewrite D. destruct (keyof_cases av (i_rid i)) as [(y & Y1 & Y2 & Y3)|[Y1 Y3]]; rewrite Y3.
      - symmetry. apply keyof_yes; [exact C|exact AX'| |exact Y2]. apply AV'. split; [exact Y1|congruence].
      - symmetry. apply keyof_no. intros y Hy. apply Y1. apply AV'. exact Hy. }
    assert (Mine : forall r, Rs r -> ends_with r x = true -> keyof av' r = r).
    { intros r R E. apply keyof_no. intros y Hy. destruct (ends_with r y) eqn:Ey; [|reflexivity]. apply AV' in Hy. destruct Hy as [H1 H2].
      exfalso. apply H2. apply (un_one _ _ U r); auto. }
    unfold remap_unavailable. destruct (find_item x (st_items st)) as [i|] eqn:F.
    - pose proof (find_item_some _ _ _ F) as [Hi Ek]. destruct (in_key' av st V i Hi) as [Ci Di]. assert (Ei := KI i Hi Ek).
      assert (Only : forall j, In j (st_items st) -> ends_with (i_rid j) x = true -> j = i).
      { intros j Hj Ej. destruct (in_key' av st V j Hj) as [Cj Dj].
        assert (Rj : i_rid j = i_rid i) by (apply (un_whose _ _ U _ _ x); auto).
        assert (Kj : i_key j = x) by (rewrite Dj; apply keyof_yes; auto).
        assert (F1 := find_item_in _ _ _ N Hj Kj). congruence. }
      destruct (id_eqb (i_rid i) x) eqn:Z.
      + apply id_eqb_iff in Z. split; [|split; [reflexivity|split; [reflexivity|intros; reflexivity]]]. constructor; [exact N|]. intros j Hj. destruct (in_key' av st V j Hj) as [Cj Dj]. split; [exact Cj|].
        destruct (ends_with (i_rid j) x) eqn:Ej; [|apply Other; assumption]. assert (Q := Only j Hj Ej). subst j. rewrite (Mine (i_rid i) Ci Ei). congruence.
      + apply id_eqb_neq in Z.
        assert (NN : ~ In (i_rid i) (keys (erase_item x (st_items st)))).
        { intro H. apply in_map_iff in H. destruct H as (j & E & Hj). apply (erase_in _ _ N) in Hj. destruct Hj as [Hj Xj].
          destruct (in_key' av st V j Hj) as [Cj Dj].
          destruct (keyof_cases av (i_rid j)) as [(y & Y1 & Y2 & Y3)|[Y1 Y3]].
          - assert (Q : y = i_rid i) by congruence. rewrite Q in Y1. assert (i_rid i = x); [|contradiction].
            apply (un_one _ _ U (i_rid i)); auto. apply ends_refl.
          - assert (Q : i_rid j = i_rid i) by congruence. rewrite <- Q in Ei. rewrite (Y1 x A0) in Ei. discriminate. }
        destruct (rekey_facts (st_items st) x (i_rid i) i N Hi Ek NN) as [M1 M2].
        split.
        * constructor; cbn [with_items st_items]; [exact M1|]. intros j Hj. apply M2 in Hj. destruct Hj as [[Hj Xj]| ->].
          -- destruct (in_key' av st V j Hj) as [Cj Dj]. split; [exact Cj|]. apply Other; [exact Hj|].
             destruct (ends_with (i_rid j) x) eqn:Ej; [|reflexivity]. rewrite (Only j Hj Ej) in Xj. contradiction.
          -- cbn [i_rid i_key]. split; [exact Ci|]. symmetry. apply Mine; assumption.
        * split; [reflexivity|]. split; [reflexivity|]. intros q m. unfold cnts. cbn [with_items st_items]. split.
          -- intros (j & Hj & E1 & E2). apply M2 in Hj. destruct Hj as [[Hj Xj]| ->]; [exists j; auto|exists i; auto].
          -- intros (j & Hj & E1 & E2). destruct (id_dec (i_key j) x) as [Ej|Ej].
             ++ assert (Q := Only j Hj (KI j Hj Ej)). subst j. exists (mkI (i_rid i) (i_cnt i) (i_rid i)). split; [apply M2; right; reflexivity|auto].
             ++ exists j. split; [apply M2; left; auto|auto].
    - split; [|split; [reflexivity|split; [reflexivity|intros; reflexivity]]].
      constructor; [exact N|]. intros j Hj. destruct (in_key' av st V j Hj) as [Cj Dj]. split; [exact Cj|]. apply Other; [exact Hj|].
      destruct (ends_with (i_rid j) x) eqn:Ej; [|reflexivity]. exfalso. apply find_item_none in F. apply F. apply in_map_iff. exists j. split; [|exact Hj].
      rewrite Dj. apply keyof_yes; auto.
  Qed.

  Lemma unav_good st x : good st -> In x (st_avail st) ->
    good (say (remap_unavailable (with_avail st (remove_id x (st_avail st))) x) (Gone x)) /\
    (forall y, In y (st_avail (remap_unavailable (with_avail st (remove_id x (st_avail st))) x)) <-> In y (st_avail st) /\ y <> x) /\
    forall q m, cnts (say (remap_unavailable (with_avail st (remove_id x (st_avail st))) x) (Gone x)) q m <-> cnts st q m.
  Proof.
    intros (V & P & W) A. set (st0 := with_avail st (remove_id x (st_avail st))).
    assert (V0 : inv' (st_avail st) st0) by (constructor; [apply (in_nd st V)|apply (in_key st V)]).
    assert (AV' : forall y, In y (remove_id x (st_avail st)) <-> In y (st_avail st) /\ y <> x) by (intro y; apply remove_id_in).
    destruct (unav_core st0 x (st_avail st) (remove_id x (st_avail st)) V0 (in_av st V) A AV') as (V1 & W1 & A1 & C1).
    set (st1 := remap_unavailable st0 x) in *.
    assert (CC : forall q m, cnts (say st1 (Gone x)) q m <-> cnts st q m).
    { intros q m. transitivity (cnts st1 q m); [reflexivity|]. rewrite C1. reflexivity. }
    split; [|split; [intro y; rewrite A1; apply AV'|exact CC]].
    split; [|split].
    - constructor; cbn [say st_items st_avail]; [apply (in_nd' _ _ V1)| |].
      + rewrite A1. apply (in_key' _ _ V1).
      + rewrite A1. intros y Hy. apply AV' in Hy. apply (in_av st V). tauto.
    - cbn [say st_wire]. rewrite W1. apply Pr_gone. exact P.
    - intro y. cbn [say st_wire]. rewrite W1, subscribed_snoc. change (st_wire st0) with (st_wire st). rewrite W. unfold wanted. cbn [say st_avail]. rewrite A1. split.
      + intros [E|((B & q & m & E & C & L) & _ & N & _)]; [discriminate E|]. split; [apply AV'; split; [exact B|congruence]|]. exists q, m. split; [exact E|]. split; [apply CC; exact C|exact L].
      + intros (B & q & m & E & C & L). apply AV' in B. right. split; [split; [tauto|]; exists q, m; split; [exact E|]; split; [apply CC; exact C|exact L]|].
        split; [|split]; try discriminate. intro X. inversion X. subst y. tauto.
  Qed.

  Lemma unav_all : forall l st, (forall y, In y l -> Xs y) -> NoDup l -> inv' l st ->
    inv' [] (fold_left remap_unavailable l st) /\ st_wire (fold_left remap_unavailable l st) = st_wire st /\
    forall q m, cnts (fold_left remap_unavailable l st) q m <-> cnts st q m.
  Proof.
    induction l as [|x l IH]; intros st AX N V; cbn [fold_left]; [split; [exact V|split; [reflexivity|intros; reflexivity]]|].
    inversion N as [|? ? N1 N2]; subst.
    assert (AV' : forall y, In y l <-> In y (x :: l) /\ y <> x).
    { intro y. cbn [In]. split; [intro H; split; [right; exact H|intros ->; contradiction]|intros [[->|H] E]; [contradiction|exact H]]. }
    destruct (unav_core st x (x :: l) l V AX (or_introl eq_refl) AV') as (V1 & W1 & _ & C1).
    destruct (IH (remap_unavailable st x)) as (V2 & W2 & C2); [intros; apply AX; right; assumption|exact N2|exact V1|].
    split; [exact V2|]. split; [congruence|]. intros q m. rewrite C2. apply C1.
  Qed.

  Lemma fresh_good st : good st -> NoDup (st_avail st) ->
    good (start_reconnection st) /\ st_avail (start_reconnection st) = [] /\ forall q m, cnts (start_reconnection st) q m <-> cnts st q m.
  Proof.
    intros (V & P & W) N. unfold start_reconnection.
    assert (V0 : inv' (st_avail st) st) by (constructor; [apply (in_nd st V)|apply (in_key st V)]).
    destruct (unav_all (st_avail st) st (in_av st V) N V0) as (V1 & W1 & C1).
    split; [|split; [reflexivity|intros q m; rewrite <- C1; reflexivity]].
    split; [constructor; cbn; [apply (in_nd' _ _ V1)|apply (in_key' _ _ V1)|intros x []]|]. split.
    - cbn [say st_wire with_rec with_avail]. rewrite W1. apply Pr_fresh. exact P.
    - intro y. cbn [say st_wire with_rec with_avail]. rewrite subscribed_snoc. unfold wanted. cbn [say st_avail with_rec with_avail].
      split; [intros [E|(_ & _ & _ & N1)]; [discriminate E|contradiction]|intros [[] _]].
  Qed.
End Ids.

(* ---------- histories ---------- *)
Lemma run_snoc skipd st h o : run skipd st (h ++ [o]) = fst (step skipd (run skipd st h) o).
Proof. unfold run. rewrite fold_left_app. reflexivity. Qed.
Lemma announced_snoc h o x : Announced (h ++ [o]) x <-> o = Available x \/ (Announced h x /\ o <> Unavailable x /\ o <> Reconnecting).
Proof.
  split.
  - intro H. inversion H as [h' x' E|h' x' o' H1 H2 H3 E]; apply app_inj_tail in E; destruct E; subst; [left; reflexivity|right; auto].
  - intros [->|(A & B & C)]; [constructor|apply An_other; assumption].
Qed.
Lemma added_snoc h o r : Added (h ++ [o]) r <-> o = Add r \/ (Added h r /\ o <> Drop r).
Proof.
  split.
  - intro H. inversion H as [h' x' E|h' x' o' H1 H2 E]; apply app_inj_tail in E; destruct E; subst; [left; reflexivity|right; auto].
  - intros [->|(A & B)]; [constructor|apply Ad_other; assumption].
Qed.
Lemma not_announced_nil x : ~ Announced [] x.
Proof. intro H. inversion H as [h' x' E|h' x' o' H1 H2 H3 E]; destruct h'; discriminate E. Qed.
Lemma not_added_nil x : ~ Added [] x.
Proof. intro H. inversion H as [h' x' E|h' x' o' H1 H2 E]; destruct h'; discriminate E. Qed.

Lemma added_dec h r : Added h r \/ ~ Added h r.
Proof.
  induction h as [|o h IH] using rev_ind; [right; apply not_added_nil|]. rewrite added_snoc.
  assert (D1 : o = Add r \/ o <> Add r).
  { destruct o; try (right; discriminate). destruct (id_dec r0 r); [left; congruence|right; congruence]. }
  assert (D2 : o = Drop r \/ o <> Drop r).
  { destruct o; try (right; discriminate). destruct (id_dec r0 r); [left; congruence|right; congruence]. }
  tauto.
Qed.
Lemma mentions_dec skipd r v d : mentions skipd r v d \/ ~ mentions skipd r v d.
Proof.
  unfold mentions. destruct (id_dec r v); [tauto|]. destruct skipd; [right; intros [H|[H _]]; congruence|].
  destruct d as [q|]; [|right; intros [H|[_ H]]; congruence]. destruct (id_dec q r); [left; right; split; congruence|right; intros [H|[_ H]]; congruence].
Qed.
Lemma dsome_dec (d : option id) v : d = Some v \/ d <> Some v.
Proof. destruct d as [q|]; [|right; discriminate]. destruct (id_dec q v); [left; congruence|right; congruence]. Qed.

(** the number of consumers is determined by the history *)
Lemma consumers_fun skipd h : forall r n m, Consumers skipd h r n -> Consumers skipd h r m -> n = m.
Proof.
  induction h as [|o h IH] using rev_ind; intros r n m H K.
  - inversion H as [a E1 E2|a b c E|a b c d e f g i j k E|a b c d e f g i j k E|a b c d e f g i E]; try (destruct a; discriminate E).
    inversion K as [a' E1' E2'|a' b' c' E'|a' b' c' d' e' f' g' i' j' k' E'|a' b' c' d' e' f' g' i' j' k' E'|a' b' c' d' e' f' g' i' E']; try (destruct a'; discriminate E'). reflexivity.
  - inversion H as [a E1 E2|h1 r1 N1 E|h1 r1 n1 v1 d1 f1 C1 A1 M1 D1 E|h1 r1 n1 v1 d1 f1 C1 A1 M1 D1 E|h1 r1 n1 o1 C1 X1 Y1 Z1 E]; subst.
    { destruct h; discriminate. }
    all: apply app_inj_tail in E; destruct E; subst.
    all: inversion K as [a E1 E2|h2 r2 N2 E|h2 r2 n2 v2 d2 f2 C2 A2 M2 D2 E|h2 r2 n2 v2 d2 f2 C2 A2 M2 D2 E|h2 r2 n2 o2 C2 X2 Y2 Z2 E]; subst;
      try (apply app_inj_tail in E; destruct E as [E1 E2]; subst h2; try discriminate E2; try (inversion E2; subst)).
    all: try reflexivity.
    all: try (match goal with Q : [] = _ ++ [_] |- _ => exfalso; exact (app_cons_not_nil _ _ _ Q) end).
    all: try (exfalso; apply (Y2 v1 d1 f1 eq_refl); auto; fail).
    all: try (exfalso; apply (Z2 v1 d1 f1 eq_refl); auto; fail).
    all: try (exfalso; apply (Y1 v2 d2 f2 eq_refl); auto; fail).
    all: try (exfalso; apply (Z1 v2 d2 f2 eq_refl); auto; fail).
    all: try (exfalso; apply N1; apply X2; reflexivity).
    all: try (exfalso; apply N2; apply X1; reflexivity).
    all: assert (Q := IH _ _ _ C1 C2); congruence.
Qed.

Section Main.
  Variables Rs Xs : id -> Prop.
  Hypothesis U : Unambiguous Rs Xs.
  Variable skipd : bool.

  Definition faithful (h : list op) (st : state) : Prop :=
    good Rs Xs st /\ NoDup (st_avail st) /\
    (forall x, In x (st_avail st) <-> Announced h x) /\
    (forall r, Rs r -> (Added h r <-> exists n, cnts st r n)) /\
    (forall r n, cnts st r n -> Consumers skipd h r n).

  Lemma faithful_rs h st r n : faithful h st -> cnts st r n -> Rs r.
  Proof. intros ((V & _) & _) (i & A & B & C). rewrite <- B. apply (in_key _ _ st V). exact A. Qed.

  (** calls that leave the counts and the ids alone *)
  Lemma faithful_same h st st' o : faithful h st -> good Rs Xs st' -> st_avail st' = st_avail st ->
    (forall q m, cnts st' q m <-> cnts st q m) ->
    (forall x, Announced (h ++ [o]) x <-> Announced h x) -> (forall r, Rs r -> (Added (h ++ [o]) r <-> Added h r)) ->
    (forall r n, Consumers skipd h r n -> cnts st r n -> Consumers skipd (h ++ [o]) r n) -> faithful (h ++ [o]) st'.
  Proof.
    intros (G & N & A & B & C) G' Av Cn A' B' C'. split; [exact G'|]. rewrite Av. split; [exact N|]. split; [intro x; rewrite A'; apply A|]. split.
    - intros r R. rewrite (B' r R), (B r R). split; intros (n & H); exists n; apply Cn; exact H.
    - intros r n H. apply Cn in H. apply C'; [apply C; exact H|exact H].
  Qed.

  Lemma sub_mention r d : d <> Some r -> forall q, mentions skipd q r d <-> q = r \/ (skipd = false /\ d = Some q).
  Proof. intros N q. unfold mentions. reflexivity. Qed.

  Lemma faithful_sub h st r d : faithful h st -> Rs r -> (forall q, d = Some q -> Rs q) ->
    Added h r -> (forall q, d = Some q -> Added h q) ->
    faithful (h ++ [Subscribe r d false]) (fst (subscribe skipd st r d false)) /\
    snd (subscribe skipd st r d false) = match d with Some q => if id_eqb r q then BadParam else OK | None => OK end.
  Proof.
    intros F R RD AR AD. assert (F0 := F). destruct F as (G & N & A & B & C).
    assert (An : forall x, Announced (h ++ [Subscribe r d false]) x <-> Announced h x).
    { intro x. rewrite announced_snoc. split; [intros [E|H]; [discriminate E|tauto]|]. intro H. right. split; [exact H|split; discriminate]. }
    assert (Ad : forall q, Rs q -> (Added (h ++ [Subscribe r d false]) q <-> Added h q)).
    { intros q _. rewrite added_snoc. split; [intros [E|H]; [discriminate E|tauto]|]. intro H. right. split; [exact H|discriminate]. }
    assert (Co1 : forall q n, d <> Some r -> mentions skipd q r d -> Added h q -> Consumers skipd h q n -> Consumers skipd (h ++ [Subscribe r d false]) q (S n)).
    { intros q n D M A1 C1. apply Co_sub; auto. }
    assert (Co2 : forall q n, d = Some r \/ ~ mentions skipd q r d -> Consumers skipd h q n -> Consumers skipd (h ++ [Subscribe r d false]) q n).
    { intros q n M C1. apply Co_other; [exact C1|discriminate| |discriminate]. intros v d' f' E. inversion E; subst. tauto. }
    destruct (proj1 (B r R) AR) as (n & Cn).
    (* one or two counts go up *)
    assert (One : forall st', faithful h st -> (forall q, mentions skipd q r d <-> q = r) -> d <> Some r ->
       good Rs Xs st' -> st_avail st' = st_avail st -> (forall q m, cnts st' q m <-> (q <> r /\ cnts st q m) \/ (q = r /\ m = S n)) ->
       faithful (h ++ [Subscribe r d false]) st').
    { intros st' _ M D G' Av C'. split; [exact G'|]. rewrite Av. split; [exact N|]. split; [intro x; rewrite An; apply A|]. split.
      - intros q Q. rewrite (Ad q Q), (B q Q). split; intros (m & H).
        + destruct (id_dec q r) as [->|X]; [exists (S n); apply C'; auto|exists m; apply C'; auto].
        + apply C' in H. destruct H as [[_ H]|[-> ->]]; [exists m; exact H|exists n; exact Cn].
      - intros q m H. apply C' in H. destruct H as [[X H]|[-> ->]].
        + apply Co2; [right; rewrite M; exact X|apply C; exact H].
        + apply Co1; [exact D|apply M; reflexivity|exact AR|apply C; exact Cn]. }
    unfold subscribe. destruct d as [q|].
    - destruct (id_eqb r q) eqn:Z.
      + apply id_eqb_iff in Z. subst q. cbn [fst snd]. split; [|reflexivity].
        apply (faithful_same h st st); auto; intros; reflexivity.
      + apply id_eqb_neq in Z. assert (D : Some q <> Some r) by congruence.
        destruct skipd eqn:SK.
        * destruct (sub_good Rs Xs U st r n G R Cn) as (G1 & O1 & Av1 & C1). split; [|exact O1].
          apply One; auto. intro q'. unfold mentions. split; [intros [H|[H _]]; [exact H|discriminate]|auto].
        * destruct (proj1 (B q (RD q eq_refl)) (AD q eq_refl)) as (k & Ck).
          destruct (sub_good Rs Xs U st q k G (RD q eq_refl) Ck) as (G1 & O1 & Av1 & C1).
          destruct (do_subscribe st q false) as [st1 o1] eqn:E1. cbn [fst snd] in *. subst o1.
          assert (Cn1 : cnts st1 r n) by (apply C1; auto).
          destruct (sub_good Rs Xs U st1 r n G1 R Cn1) as (G2 & O2 & Av2 & C2).
          split; [|exact O2]. set (st2 := fst (do_subscribe st1 r false)) in *.
          split; [exact G2|]. rewrite Av2, Av1. split; [exact N|]. split; [intro x; rewrite An; apply A|]. split.
          -- intros p P. rewrite (Ad p P), (B p P). split; intros (m & H).
             ++ destruct (id_dec p r) as [->|X]; [exists (S n); apply C2; auto|].
                destruct (id_dec p q) as [->|X']; [exists (S k); apply C2; left; split; [exact X|]; apply C1; auto|].
                exists m. apply C2. left. split; [exact X|]. apply C1; auto.
             ++ apply C2 in H. destruct H as [[X H]|[-> ->]]; [|exists n; exact Cn].
                apply C1 in H. destruct H as [[X' H]|[-> ->]]; [exists m; exact H|exists k; exact Ck].
          -- intros p m H. rewrite SK. apply C2 in H. destruct H as [[X H]|[-> ->]].
             ++ apply C1 in H. destruct H as [[X' H]|[-> ->]].
                ** apply Co2; [|apply C; exact H]. right. unfold mentions. intros [Q|[_ Q]]; congruence.
                ** apply Co1; [exact D|right; auto|apply AD; reflexivity|apply C; exact Ck].
             ++ apply Co1; [exact D|left; reflexivity|exact AR|apply C; exact Cn].
    - destruct (sub_good Rs Xs U st r n G R Cn) as (G1 & O1 & Av1 & C1). split; [|exact O1].
      apply One; auto; [|discriminate]. intro q'. unfold mentions. split; [intros [H|[_ H]]; [exact H|discriminate]|auto].
  Qed.

  Lemma faithful_unsub h st r d : faithful h st -> Rs r -> (forall q, d = Some q -> Rs q) ->
    (forall q, mentions skipd q r d -> Added h q /\ exists n, Consumers skipd h q (S n)) ->
    faithful (h ++ [Unsubscribe r d false]) (fst (unsubscribe skipd st r d false)) /\
    snd (unsubscribe skipd st r d false) = match d with Some q => if id_eqb r q then BadParam else OK | None => OK end.
  Proof.
    intros F R RD AA. assert (F0 := F). destruct F as (G & N & A & B & C).
    assert (An : forall x, Announced (h ++ [Unsubscribe r d false]) x <-> Announced h x).
    { intro x. rewrite announced_snoc. split; [intros [E|H]; [discriminate E|tauto]|]. intro H. right. split; [exact H|split; discriminate]. }
    assert (Ad : forall q, Rs q -> (Added (h ++ [Unsubscribe r d false]) q <-> Added h q)).
    { intros q _. rewrite added_snoc. split; [intros [E|H]; [discriminate E|tauto]|]. intro H. right. split; [exact H|discriminate]. }
    assert (Co1 : forall q n, d <> Some r -> mentions skipd q r d -> Added h q -> Consumers skipd h q (S n) -> Consumers skipd (h ++ [Unsubscribe r d false]) q n).
    { intros q n D M A1 C1. apply Co_unsub; auto. }
    assert (Co2 : forall q n, d = Some r \/ ~ mentions skipd q r d -> Consumers skipd h q n -> Consumers skipd (h ++ [Unsubscribe r d false]) q n).
    { intros q n M C1. apply Co_other; [exact C1|discriminate|discriminate|]. intros v d' f' E. inversion E; subst. tauto. }
    assert (Has : forall q, Rs q -> mentions skipd q r d -> Added h q /\ exists n, cnts st q (S n)).
    { intros q Q M. destruct (AA q M) as [A1 (n & C1)]. split; [exact A1|]. destruct (proj1 (B q Q) A1) as (m & Cm).
      assert (m = S n) by (eapply consumers_fun; [apply C; exact Cm|exact C1]). subst m. exists n. exact Cm. }
    destruct (Has r R (or_introl eq_refl)) as [AR (n & Cn)].
    assert (One : forall st', (forall q, mentions skipd q r d <-> q = r) -> d <> Some r ->
       good Rs Xs st' -> st_avail st' = st_avail st -> (forall q m, cnts st' q m <-> (q <> r /\ cnts st q m) \/ (q = r /\ m = n)) ->
       faithful (h ++ [Unsubscribe r d false]) st').
    { intros st' M D G' Av C'. split; [exact G'|]. rewrite Av. split; [exact N|]. split; [intro x; rewrite An; apply A|]. split.
      - intros q Q. rewrite (Ad q Q), (B q Q). split; intros (m & H).
        + destruct (id_dec q r) as [->|X]; [exists n; apply C'; auto|exists m; apply C'; auto].
        + apply C' in H. destruct H as [[_ H]|[-> ->]]; [exists m; exact H|exists (S n); exact Cn].
      - intros q m H. apply C' in H. destruct H as [[X H]|[-> ->]].
        + apply Co2; [right; rewrite M; exact X|apply C; exact H].
        + apply Co1; [exact D|apply M; reflexivity|exact AR|apply C; exact Cn]. }
    unfold unsubscribe. destruct d as [q|].
    - destruct (id_eqb r q) eqn:Z.
      + apply id_eqb_iff in Z. subst q. cbn [fst snd]. split; [|reflexivity].
        apply (faithful_same h st st); auto; intros; reflexivity.
      + apply id_eqb_neq in Z. assert (D : Some q <> Some r) by congruence.
        destruct skipd eqn:SK.
        * destruct (unsub_good Rs Xs U st r n G R Cn) as (G1 & O1 & Av1 & C1). split; [|exact O1].
          apply One; auto. intro q'. unfold mentions. split; [intros [H|[H _]]; [exact H|discriminate]|auto].
        * destruct (Has q (RD q eq_refl)) as [AQ (k & Ck)]; [right; auto|].
          destruct (unsub_good Rs Xs U st q k G (RD q eq_refl) Ck) as (G1 & O1 & Av1 & C1).
          destruct (do_unsubscribe st q false) as [st1 o1] eqn:E1. cbn [fst snd] in *. subst o1.
          assert (Cn1 : cnts st1 r (S n)) by (apply C1; auto).
          destruct (unsub_good Rs Xs U st1 r n G1 R Cn1) as (G2 & O2 & Av2 & C2).
          split; [|exact O2]. set (st2 := fst (do_unsubscribe st1 r false)) in *.
          split; [exact G2|]. rewrite Av2, Av1. split; [exact N|]. split; [intro x; rewrite An; apply A|]. split.
          -- intros p P. rewrite (Ad p P), (B p P). split; intros (m & H).
             ++ destruct (id_dec p r) as [->|X]; [exists n; apply C2; auto|].
                destruct (id_dec p q) as [->|X']; [exists k; apply C2; left; split; [exact X|]; apply C1; auto|].
                exists m. apply C2. left. split; [exact X|]. apply C1; auto.
             ++ apply C2 in H. destruct H as [[X H]|[-> ->]]; [|exists (S n); exact Cn].
                apply C1 in H. destruct H as [[X' H]|[-> ->]]; [exists m; exact H|exists (S k); exact Ck].
          -- intros p m H. rewrite SK. apply C2 in H. destruct H as [[X H]|[-> ->]].
             ++ apply C1 in H. destruct H as [[X' H]|[-> ->]].
                ** apply Co2; [|apply C; exact H]. right. unfold mentions. intros [Q|[_ Q]]; congruence.
                ** apply Co1; [exact D|right; auto|exact AQ|apply C; exact Ck].
             ++ apply Co1; [exact D|left; reflexivity|exact AR|apply C; exact Cn].
    - destruct (unsub_good Rs Xs U st r n G R Cn) as (G1 & O1 & Av1 & C1). split; [|exact O1].
      apply One; auto; [|discriminate]. intro q'. unfold mentions. split; [intros [H|[_ H]]; [exact H|discriminate]|auto].
  Qed.

  Lemma remove_id_nd x l : NoDup l -> NoDup (remove_id x l).
  Proof. apply NoDup_filter. Qed.
  Lemma remap_av_avail st x : st_avail (resubscribe (remap_available st x) x) = st_avail st.
  Proof.
    unfold resubscribe, remap_available. destruct (find (fun i => ends_with (i_key i) x) (st_items st)) as [i|]; [destruct (id_eqb (i_key i) x)|];
      match goal with |- context [find_item x ?l] => destruct (find_item x l) as [j|]; [destruct (Nat.ltb 0 (i_cnt j))|] end; reflexivity.
  Qed.
  Lemma remap_un_avail st x : st_avail (remap_unavailable st x) = st_avail st.
  Proof. unfold remap_unavailable. destruct (find_item x (st_items st)) as [i|]; [destruct (id_eqb (i_rid i) x)|]; reflexivity. Qed.

  Lemma co_other_plain h o r n : Consumers skipd h r n -> (forall q, o <> Add q) -> (forall v d f, o <> Subscribe v d f) -> (forall v d f, o <> Unsubscribe v d f) ->
    Consumers skipd (h ++ [o]) r n.
  Proof.
    intros H A B C. apply Co_other; [exact H|intro E; exfalso; exact (A _ E)|intros v d f E; exfalso; exact (B _ _ _ E)|intros v d f E; exfalso; exact (C _ _ _ E)].
  Qed.

  Lemma faithful_step h st o : faithful h st -> uses Rs Xs o -> disciplined skipd h o -> faithful (h ++ [o]) (fst (step skipd st o)).
  Proof.
    intros F Us Di. assert (F0 := F). destruct F as (G & N & A & B & C).
    destruct o as [r|r|r d f|r d f|x|x| |]; cbn [step uses disciplined] in *.
    - destruct (add_good Rs Xs U st r G Us) as (G1 & Av1 & C1). split; [exact G1|]. rewrite Av1. split; [exact N|]. split; [|split].
      + intro x. rewrite announced_snoc, A. split; [intro H; right; split; [exact H|split; discriminate]|intros [E|H]; [discriminate E|tauto]].
      + intros q Q. rewrite added_snoc. split.
        * intros [E|[H _]]; [inversion E; subst q|apply (B q Q) in H; destruct H as (n & H); exists n; apply C1; auto].
          destruct (added_dec h r) as [AR|NR]; [apply (B r Q) in AR; destruct AR as (n & H); exists n; apply C1; auto|].
          exists 0. apply C1. right. split; [reflexivity|split; [reflexivity|]]. intros k H. apply NR. apply (B r Q). exists k. exact H.
        * intros (n & H). apply C1 in H. destruct H as [H|(-> & -> & H)]; [|left; reflexivity]. right. split; [apply (B q Q); exists n; exact H|discriminate].
      + intros q n H. apply C1 in H. destruct H as [H|(-> & -> & H)].
        * apply Co_other; [apply C; exact H| |discriminate|discriminate]. intro E. inversion E; subst q. apply (B r Us). exists n. exact H.
        * apply Co_add. intro AR. apply (B r Us) in AR. destruct AR as (k & K). exact (H k K).
    - assert (Z : forall n, cnts st r n -> n = 0).
      { intros n H. assert (AR : Added h r) by (apply (B r Us); exists n; exact H). exact (consumers_fun _ _ _ _ _ (C _ _ H) (Di AR)). }
      destruct (drop_good Rs Xs U st r G Us Z) as (G1 & Av1 & C1). split; [exact G1|]. rewrite Av1. split; [exact N|]. split; [|split].
      + intro x. rewrite announced_snoc, A. split; [intro H; right; split; [exact H|split; discriminate]|intros [E|H]; [discriminate E|tauto]].
      + intros q Q. rewrite added_snoc, (B q Q). split.
        * intros [E|[(n & H) X]]; [discriminate E|]. exists n. apply C1. split; [exact H|congruence].
        * intros (n & H). apply C1 in H. right. split; [exists n; tauto|]. intro E. inversion E. subst q. tauto.
      + intros q n H. apply C1 in H. apply co_other_plain; try (intros; discriminate). apply C. tauto.
    - destruct Us as [R RD]. destruct Di as (-> & AR & AD). apply faithful_sub; assumption.
    - destruct Us as [R RD]. destruct Di as (-> & AA). apply faithful_unsub; assumption.
    - unfold available. destruct (existsb (id_eqb x) (st_avail st)) eqn:M; cbn [fst].
      + apply idmem_iff in M. apply (faithful_same h st st); auto; try (intros; reflexivity).
        * intro y. rewrite announced_snoc. split; [intros [E|H]; [inversion E; subst; apply A; exact M|tauto]|intro H; right; split; [exact H|split; discriminate]].
        * intros r _. rewrite added_snoc. split; [intros [E|H]; [discriminate E|tauto]|intro H; right; split; [exact H|discriminate]].
        * intros r n H _. apply co_other_plain; auto; intros; discriminate.
      + assert (NM : ~ In x (st_avail st)) by (intro H; apply idmem_iff in H; congruence).
        destruct (av_good Rs Xs U st x G Us NM) as (G1 & Av1 & C1). split; [exact G1|]. split; [|split; [|split]].
        * rewrite remap_av_avail. cbn [with_avail st_avail]. constructor; assumption.
        * intro y. rewrite Av1, announced_snoc, A. split; [intros [->|H]; [left; reflexivity|right; split; [exact H|split; discriminate]]|intros [E|H]; [inversion E; auto|tauto]].
        * intros r R. rewrite added_snoc, (B r R). split; [intros [E|[(n & H) _]]; [discriminate E|]; exists n; apply C1; exact H|].
          intros (n & H). right. split; [exists n; apply C1; exact H|discriminate].
        * intros r n H. apply C1 in H. apply co_other_plain; try (intros; discriminate). apply C. exact H.
    - unfold unavailable. destruct (existsb (id_eqb x) (st_avail st)) eqn:M; cbn [fst].
      + apply idmem_iff in M. destruct (unav_good Rs Xs U st x G M) as (G1 & Av1 & C1). split; [exact G1|]. split; [|split; [|split]].
        * cbn [say st_avail]. rewrite remap_un_avail. cbn [with_avail st_avail]. apply remove_id_nd. exact N.
        * intro y. cbn [say st_avail]. rewrite Av1, announced_snoc, A. split.
          -- intros [H X]. right. split; [exact H|]. split; [congruence|discriminate].
          -- intros [E|(H & X & _)]; [discriminate E|]. split; [exact H|congruence].
        * intros r R. rewrite added_snoc, (B r R). split; [intros [E|[(n & H) _]]; [discriminate E|]; exists n; apply C1; exact H|].
          intros (n & H). right. split; [exists n; apply C1; exact H|discriminate].
        * intros r n H. apply C1 in H. apply co_other_plain; try (intros; discriminate). apply C. exact H.
      + assert (NM : ~ In x (st_avail st)) by (intro H; apply idmem_iff in H; congruence).
        apply (faithful_same h st st); auto; try (intros; reflexivity).
        * intro y. rewrite announced_snoc. split; [intros [E|H]; [discriminate E|tauto]|intro H; right; split; [exact H|split; [|discriminate]]].
          intro E. inversion E. subst y. apply NM. apply A. exact H.
        * intros r _. rewrite added_snoc. split; [intros [E|H]; [discriminate E|tauto]|intro H; right; split; [exact H|discriminate]].
        * intros r n H _. apply co_other_plain; auto; intros; discriminate.
    - cbn [fst]. destruct (fresh_good Rs Xs U st G N) as (G1 & Av1 & C1). split; [exact G1|]. split; [|split; [|split]].
      + rewrite Av1. constructor.
      + intro y. rewrite Av1, announced_snoc. split; [intros []|intros [E|(_ & _ & X)]; [discriminate E|contradiction]].
      + intros r R. rewrite added_snoc, (B r R). split; [intros [E|[(n & H) _]]; [discriminate E|]; exists n; apply C1; exact H|].
        intros (n & H). right. split; [exists n; apply C1; exact H|discriminate].
      + intros r n H. apply C1 in H. apply co_other_plain; try (intros; discriminate). apply C. exact H.
    - unfold complete_reconnection. destruct (st_rec st); cbn [fst].
      + apply (faithful_same h st); auto; try reflexivity.
        * destruct G as (V & P & W). split; [constructor; [apply (in_nd _ _ st V)|apply (in_key _ _ st V)|apply (in_av _ _ st V)]|]. split; [exact P|exact W].
        * intro y. rewrite announced_snoc. split; [intros [E|H]; [discriminate E|tauto]|intro H; right; split; [exact H|split; discriminate]].
        * intros r _. rewrite added_snoc. split; [intros [E|H]; [discriminate E|tauto]|intro H; right; split; [exact H|discriminate]].
        * intros r n H _. apply co_other_plain; auto; intros; discriminate.
      + apply (faithful_same h st); auto; try reflexivity.
        * intro y. rewrite announced_snoc. split; [intros [E|H]; [discriminate E|tauto]|intro H; right; split; [exact H|split; discriminate]].
        * intros r _. rewrite added_snoc. split; [intros [E|H]; [discriminate E|tauto]|intro H; right; split; [exact H|discriminate]].
        * intros r n H _. apply co_other_plain; auto; intros; discriminate.
  Qed.

  Lemma faithful_run h : Disciplined skipd Rs Xs h -> faithful h (run skipd init h).
  Proof.
    induction 1 as [|h o D IH Us Di].
    - split; [|split; [constructor|split; [|split]]].
      + split; [constructor; [constructor|intros i []|intros x []]|]. split; [constructor|].
        intro x. split; [intro H; exfalso; exact (not_subscribed_nil x H)|intros [[] _]].
      + intro x. split; [intros []|intro H; exfalso; exact (not_announced_nil x H)].
      + intros r R. split; [intro H; exfalso; exact (not_added_nil r H)|intros (n & i & [] & _)].
      + intros r n (i & [] & _).
    - rewrite run_snoc. apply faithful_step; assumption.
  Qed.

  Lemma subscribed_iff h x : Disciplined skipd Rs Xs h ->
    (Subscribed (st_wire (run skipd init h)) x <->
     Announced h x /\ exists r n, Rs r /\ ends_with r x = true /\ Added h r /\ Consumers skipd h r n /\ 0 < n).
  Proof.
    intro D. pose proof (faithful_run h D) as F. assert (F0 := F). destruct F as (G & N & A & B & C). destruct G as (V & P & W). rewrite W. unfold wanted. rewrite A. split.
    - intros (An & r & n & E & Cn & L). split; [exact An|]. assert (R := faithful_rs _ _ _ _ F0 Cn). exists r, n. split; [exact R|]. split; [exact E|].
      split; [apply (B r R); exists n; exact Cn|]. split; [apply C; exact Cn|exact L].
    - intros (An & r & n & R & E & Ad & Co & L). split; [exact An|]. apply (B r R) in Ad. destruct Ad as (m & Cm). exists r, m. split; [exact E|]. split; [exact Cm|].
      rewrite (consumers_fun _ _ _ _ _ (C _ _ Cm) Co). exact L.
  Qed.
  Lemma proper_run h : Disciplined skipd Rs Xs h -> Proper (st_wire (run skipd init h)).
  Proof. intro D. destruct (faithful_run h D) as ((V & P & W) & _). exact P. Qed.
  Lemma consumers_exist h r : Disciplined skipd Rs Xs h -> Rs r -> Added h r -> exists n, Consumers skipd h r n.
  Proof.
    intros D R Ad. destruct (faithful_run h D) as (G & N & A & B & C). apply (B r R) in Ad. destruct Ad as (n & H). exists n. apply C. exact H.
  Qed.
  Lemma replies_ok h o : Disciplined skipd Rs Xs (h ++ [o]) ->
    match o with
    | Subscribe r d _ | Unsubscribe r d _ => d <> Some r -> snd (step skipd (run skipd init h) o) = OK
    | _ => True
    end.
  Proof.
    intro D. inversion D as [E|h' o' D' Us Di E]; [destruct h; discriminate E|]. apply app_inj_tail in E. destruct E; subst.
    pose proof (faithful_run h D') as F. destruct o as [r|r|r d f|r d f|x|x| |]; try exact Logic.I; intro X; cbn [step uses disciplined] in *.
    - destruct Us as [R RD]. destruct Di as (-> & AR & AD). destruct (faithful_sub h _ r d F R RD AR AD) as [_ K]. rewrite K. destruct d as [q|]; [|reflexivity].
      destruct (id_eqb r q) eqn:Z; [apply id_eqb_iff in Z; congruence|reflexivity].
    - destruct Us as [R RD]. destruct Di as (-> & AA). destruct (faithful_unsub h _ r d F R RD AA) as [_ K]. rewrite K. destruct d as [q|]; [|reflexivity].
      destruct (id_eqb r q) eqn:Z; [apply id_eqb_iff in Z; congruence|reflexivity].
  Qed.
  Lemma extra_refused h r : Disciplined skipd Rs Xs h -> Rs r -> Added h r -> Consumers skipd h r 0 ->
    step skipd (run skipd init h) (Unsubscribe r None false) = (run skipd init h, BadState).
  Proof.
    intros D R Ad Co. destruct (faithful_run h D) as ((V & _) & N & A & B & C). apply (B r R) in Ad. destruct Ad as (n & Cn).
    assert (n = 0) by exact (consumers_fun _ _ _ _ _ (C _ _ Cn) Co). subst n. destruct Cn as (i & Hi & Er & En).
    cbn [step unsubscribe]. unfold do_unsubscribe. rewrite (proj2 (find_key Rs Xs U _ r i V R) (conj Hi Er)). rewrite En. reflexivity.
  Qed.
  Lemma unknown_refused h r o f : Disciplined skipd Rs Xs h -> Rs r -> ~ Added h r -> (o = Subscribe r None f \/ o = Unsubscribe r None f) ->
    step skipd (run skipd init h) o = (run skipd init h, NotFound).
  Proof.
    intros D R Ad Ho. destruct (faithful_run h D) as ((V & _) & N & A & B & C).
    assert (F : find_item (key_of (run skipd init h) r) (st_items (run skipd init h)) = None).
    { destruct (find_item _ _) as [i|] eqn:E; [|reflexivity]. exfalso. apply Ad. apply (B r R). apply (find_key Rs Xs U _ r i V R) in E.
      exists (i_cnt i), i. tauto. }
    destruct Ho as [->| ->]; cbn [step subscribe unsubscribe]; unfold do_subscribe, do_unsubscribe; rewrite F; reflexivity.
  Qed.
End Main.

(* ---------- requests in any history ---------- *)
Definition asks (n : note) (x : id) : Prop := n = RSub x \/ n = RUnsub x.
Definition grows (st st' : state) : Prop :=
  st_avail st' = st_avail st /\ exists w, st_wire st' = st_wire st ++ w /\ forall n x, In n w -> asks n x -> In x (st_avail st).
Lemma grows_refl st : grows st st.
Proof. split; [reflexivity|]. exists []. rewrite app_nil_r. split; [reflexivity|intros n x []]. Qed.
Lemma grows_items st l : grows st (with_items st l).
Proof. split; [reflexivity|]. exists []. cbn [with_items st_wire]. rewrite app_nil_r. split; [reflexivity|intros n x []]. Qed.
Lemma grows_say st l n0 y : In y (st_avail st) -> (forall x, asks n0 x -> x = y) -> grows st (say (with_items st l) n0).
Proof.
  intros H A. split; [reflexivity|]. exists [n0]. split; [reflexivity|]. intros n x [<-|[]] Q. rewrite (A x Q). exact H.
Qed.
Lemma grows_trans a b c : grows a b -> grows b c -> grows a c.
Proof.
  intros (A1 & w1 & E1 & H1) (A2 & w2 & E2 & H2). split; [congruence|]. exists (w1 ++ w2). rewrite E2, E1, app_assoc. split; [reflexivity|].
  intros n x H Q. apply in_app_iff in H. destruct H as [H|H]; [eapply H1; eauto|rewrite <- A1; eapply H2; eauto].
Qed.
Lemma asks_sub y x : asks (RSub y) x -> x = y.
Proof. intros [E|E]; inversion E; reflexivity. Qed.
Lemma asks_unsub y x : asks (RUnsub y) x -> x = y.
Proof. intros [E|E]; inversion E; reflexivity. Qed.
Lemma key_avail st r x : streaming_id st r = Some x -> key_of st r = x /\ In x (st_avail st).
Proof. intro F. unfold key_of. rewrite F. split; [reflexivity|]. apply find_some in F. tauto. Qed.
Lemma grows_sub st r f : grows st (fst (do_subscribe st r f)).
Proof.
  unfold do_subscribe. destruct (find_item (key_of st r) (st_items st)) as [i|]; [|apply grows_refl].
  destruct (streaming_id st r) as [x|] eqn:F; [|apply grows_items]. destruct (key_avail st r x F) as [K A]. rewrite K.
  destruct (Nat.ltb 0 (i_cnt i)); [apply grows_items|]. destruct f; [apply grows_items|]. apply (grows_say st _ _ x A). apply asks_sub.
Qed.
Lemma grows_unsub st r f : grows st (fst (do_unsubscribe st r f)).
Proof.
  unfold do_unsubscribe. destruct (find_item (key_of st r) (st_items st)) as [i|]; [|apply grows_refl]. destruct (i_cnt i) as [|n]; [apply grows_refl|].
  destruct (streaming_id st r) as [x|] eqn:F; [|apply grows_items]. destruct (key_avail st r x F) as [K A]. rewrite K.
  destruct (Nat.ltb 0 n); [apply grows_items|]. destruct f; [apply grows_items|]. apply (grows_say st _ _ x A). apply asks_unsub.
Qed.
Lemma grows_subscribe skipd st r d f : grows st (fst (subscribe skipd st r d f)).
Proof.
  unfold subscribe. destruct d as [q|]; [|apply grows_sub]. destruct (id_eqb r q); [apply grows_refl|]. destruct skipd; [apply grows_sub|].
  assert (X := grows_sub st q f). destruct (do_subscribe st q f) as [st1 o1]. cbn [fst] in X. destruct o1; try exact X. eapply grows_trans; [exact X|apply grows_sub].
Qed.
Lemma grows_unsubscribe skipd st r d f : grows st (fst (unsubscribe skipd st r d f)).
Proof.
  unfold unsubscribe. destruct d as [q|]; [|apply grows_unsub]. destruct (id_eqb r q); [apply grows_refl|]. destruct skipd; [apply grows_unsub|].
  assert (X := grows_unsub st q f). destruct (do_unsubscribe st q f) as [st1 o1]. cbn [fst] in X. destruct o1; try exact X. eapply grows_trans; [exact X|apply grows_unsub].
Qed.
Lemma remap_un_wire st x : st_wire (remap_unavailable st x) = st_wire st.
Proof. unfold remap_unavailable. destruct (find_item x (st_items st)) as [i|]; [destruct (id_eqb (i_rid i) x)|]; reflexivity. Qed.
Lemma remap_fold_wire l : forall st, st_wire (fold_left remap_unavailable l st) = st_wire st.
Proof. induction l as [|x l IH]; intro st; cbn [fold_left]; [reflexivity|]. rewrite IH. apply remap_un_wire. Qed.
Lemma step_avail skipd st o x :
  In x (st_avail (fst (step skipd st o))) <-> o = Available x \/ (In x (st_avail st) /\ o <> Unavailable x /\ o <> Reconnecting).
Proof.
  assert (Same : forall st', st_avail st' = st_avail st -> (forall y, o <> Available y) -> (forall y, o <> Unavailable y) -> o <> Reconnecting ->
     (In x (st_avail st') <-> o = Available x \/ (In x (st_avail st) /\ o <> Unavailable x /\ o <> Reconnecting))).
  { intros st' -> A B C. split; [intro H; right; auto|]. intros [E|[H _]]; [exfalso; exact (A _ E)|exact H]. }
  destruct o as [r|r|r d f|r d f|y|y| |]; cbn [step].
  - apply Same; try (intros; discriminate). unfold add_signal. destruct (find_item _ _); reflexivity.
  - apply Same; try (intros; discriminate). unfold remove_signal. destruct (find_item _ _); reflexivity.
  - apply Same; try (intros; discriminate). apply grows_subscribe.
  - apply Same; try (intros; discriminate). apply grows_unsubscribe.
  - unfold available. destruct (existsb (id_eqb y) (st_avail st)) eqn:M; cbn [fst].
    + apply idmem_iff in M. split; [intro H; right; split; [exact H|split; discriminate]|]. intros [E|[H _]]; [inversion E; subst; exact M|exact H].
    + rewrite remap_av_avail. cbn [with_avail st_avail In]. split; [intros [->|H]; [left; reflexivity|right; split; [exact H|split; discriminate]]|].
      intros [E|[H _]]; [inversion E; auto|auto].
  - unfold unavailable. destruct (existsb (id_eqb y) (st_avail st)) eqn:M; cbn [fst].
    + cbn [say st_avail]. rewrite remap_un_avail. cbn [with_avail st_avail]. rewrite remove_id_in. split.
      * intros [H X]. right. split; [exact H|]. split; [congruence|discriminate].
      * intros [E|(H & X & _)]; [discriminate E|]. split; [exact H|congruence].
    + split; [|intros [E|[H _]]; [discriminate E|exact H]]. intro H. right. split; [exact H|]. split; [|discriminate]. intro E. inversion E. subst y.
      apply idmem_iff in H. congruence.
  - unfold start_reconnection. cbn [fst say st_avail with_rec with_avail]. split; [intros []|]. intros [E|(_ & _ & X)]; [discriminate E|contradiction].
  - apply Same; try (intros; discriminate). unfold complete_reconnection. destruct (st_rec st); reflexivity.
Qed.
Lemma avail_announced skipd h x : In x (st_avail (run skipd init h)) <-> Announced h x.
Proof.
  induction h as [|o h IH] using rev_ind; [split; [intros []|intro H; exfalso; exact (not_announced_nil x H)]|].
  rewrite run_snoc, step_avail, announced_snoc, IH. reflexivity.
Qed.
Lemma step_asks skipd st o : exists w, st_wire (fst (step skipd st o)) = st_wire st ++ w /\
  forall n x, In n w -> asks n x -> In x (st_avail (fst (step skipd st o))).
Proof.
  assert (Gr : forall st', grows st st' -> exists w, st_wire st' = st_wire st ++ w /\ forall n x, In n w -> asks n x -> In x (st_avail st')).
  { intros st' (A & w & E & H). exists w. rewrite A. auto. }
  destruct o as [r|r|r d f|r d f|y|y| |]; cbn [step].
  - apply Gr. unfold add_signal. destruct (find_item _ _); [apply grows_refl|apply grows_items].
  - apply Gr. unfold remove_signal. destruct (find_item _ _); [apply grows_items|apply grows_refl].
  - apply Gr, grows_subscribe.
  - apply Gr, grows_unsubscribe.
  - unfold available. destruct (existsb (id_eqb y) (st_avail st)); cbn [fst]; [apply Gr, grows_refl|].
    set (st1 := remap_available (with_avail st (y :: st_avail st)) y).
    assert (W1 : st_wire st1 = st_wire st) by (unfold st1, remap_available; destruct (find _ _) as [i|]; [destruct (id_eqb (i_key i) y)|]; reflexivity).
    assert (A1 : In y (st_avail st1)) by (unfold st1, remap_available; destruct (find _ _) as [i|]; [destruct (id_eqb (i_key i) y)|]; left; reflexivity).
    unfold resubscribe. destruct (find_item y (st_items st1)) as [i|]; [destruct (Nat.ltb 0 (i_cnt i))|].
    + exists [RSub y]. cbn [say st_wire st_avail]. rewrite W1. split; [reflexivity|]. intros n x [<-|[]] Q. rewrite (asks_sub _ _ Q). exact A1.
    + exists []. rewrite W1, app_nil_r. split; [reflexivity|intros n x []].
    + exists []. rewrite W1, app_nil_r. split; [reflexivity|intros n x []].
  - unfold unavailable. destruct (existsb (id_eqb y) (st_avail st)); cbn [fst]; [|apply Gr, grows_refl].
    exists [Gone y]. cbn [say st_wire]. rewrite remap_un_wire. split; [reflexivity|]. intros n x [<-|[]] [Q|Q]; discriminate Q.
  - exists [Fresh]. cbn [fst]. unfold start_reconnection. cbn [say st_wire with_rec with_avail]. rewrite remap_fold_wire. split; [reflexivity|].
    intros n x [<-|[]] [Q|Q]; discriminate Q.
  - exists []. unfold complete_reconnection. destruct (st_rec st); cbn [fst with_rec st_wire]; rewrite app_nil_r; (split; [reflexivity|intros n x []]).
Qed.
