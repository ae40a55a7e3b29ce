(** Proofs about users and authentication providers. *)
From Coq Require Import String Ascii Sorting.Sorted.
From Verif Require Import Base Auth_Model Auth_Spec.

Lemma text_eqb_spec : forall a b, text_eqb a b = true <-> a = b.
Proof. intros a b. unfold text_eqb. destruct (list_eq_dec ascii_dec a b); split; intro H; congruence. Qed.
Lemma text_eqb_refl : forall a, text_eqb a a = true.
Proof. intro a. apply text_eqb_spec. reflexivity. Qed.
Lemma text_eqb_neq : forall a b, text_eqb a b = false <-> a <> b.
Proof. intros a b. unfold text_eqb. destruct (list_eq_dec ascii_dec a b); split; intro H; congruence. Qed.

(** ** Order *)
Lemma code_inj : forall a b, N_of_ascii a = N_of_ascii b -> a = b.
Proof. intros a b E. rewrite <- (ascii_N_embedding a), <- (ascii_N_embedding b). congruence. Qed.
Lemma strcmp_eq : forall a b, strcmp a b = Eq <-> a = b.
Proof.
  induction a as [|x a IH]; intros [|y b]; cbn [strcmp]; try (split; intro H; congruence).
  destruct (N.compare (N_of_ascii x) (N_of_ascii y)) eqn:C.
  - apply N.compare_eq in C. apply code_inj in C. subst y. rewrite IH. split; intro H; congruence.
  - split; [discriminate|]. intro H. injection H as -> ->. rewrite N.compare_refl in C. discriminate.
  - split; [discriminate|]. intro H. injection H as -> ->. rewrite N.compare_refl in C. discriminate.
Qed.
Definition lt (a b : text) : Prop := strcmp a b = Lt.
Lemma lt_trans : forall a b c, lt a b -> lt b c -> lt a c.
Proof.
  unfold lt. induction a as [|x a IH]; intros [|y b] [|z c] A B; cbn [strcmp] in *; try discriminate; try reflexivity.
  destruct (N.compare (N_of_ascii x) (N_of_ascii y)) eqn:C1; [|clear A|discriminate];
  (destruct (N.compare (N_of_ascii y) (N_of_ascii z)) eqn:C2; [|clear B|discriminate]).
  - apply N.compare_eq in C1. apply N.compare_eq in C2. rewrite C1, C2, N.compare_refl. eapply IH; eassumption.
  - apply N.compare_eq in C1. rewrite C1, C2. reflexivity.
  - apply N.compare_eq in C2. rewrite <- C2, C1. reflexivity.
  - rewrite N.compare_lt_iff in *. assert (N.compare (N_of_ascii x) (N_of_ascii z) = Lt) as ->; [|reflexivity].
    apply N.compare_lt_iff. eapply N.lt_trans; eassumption.
Qed.
Lemma lt_irrefl : forall a, ~ lt a a.
Proof. intros a H. unfold lt in H. assert (strcmp a a = Eq) as E by (apply strcmp_eq; reflexivity). congruence. Qed.
Lemma strcmp_gt : forall a b, strcmp a b = Gt -> lt b a.
Proof.
  unfold lt. induction a as [|x a IH]; intros [|y b] H; cbn [strcmp] in *; try discriminate; [reflexivity|].
  rewrite (N.compare_antisym (N_of_ascii x) (N_of_ascii y)). destruct (N.compare (N_of_ascii x) (N_of_ascii y)); cbn [CompOpp]; [apply IH; exact H|discriminate|reflexivity].
Qed.

(** ** Groups *)
Definition Sorted_set (l : list text) : Prop := StronglySorted lt l.

Lemma insert_in : forall g l x, In x (set_insert g l) <-> x = g \/ In x l.
Proof.
  intros g l x. induction l as [|y r IH]; cbn [set_insert].
  - cbn [In]. intuition congruence.
  - destruct (strcmp g y) eqn:C; cbn [In].
    + apply strcmp_eq in C. subst y. intuition congruence.
    + intuition congruence.
    + rewrite IH. intuition congruence.
Qed.
Lemma insert_sorted : forall g l, Sorted_set l -> Sorted_set (set_insert g l).
Proof.
  intros g l. induction l as [|y r IH]; intro S0; cbn [set_insert].
  - repeat constructor.
  - inversion S0 as [|? ? SR FR]; subst. destruct (strcmp g y) eqn:C.
    + exact S0.
    + constructor; [exact S0|]. constructor; [exact C|]. eapply Forall_impl; [|exact FR]. intros z Z0. eapply lt_trans; eassumption.
    + constructor; [apply IH; exact SR|]. apply Forall_forall. intros z Z0. apply insert_in in Z0. destruct Z0 as [->|Z0].
      * apply strcmp_gt. exact C.
      * rewrite Forall_forall in FR. apply FR. exact Z0.
Qed.
Lemma fold_in : forall l s x, In x (fold_left (fun a g => set_insert g a) l s) <-> In x s \/ In x l.
Proof.
  induction l as [|g r IH]; intros s x; cbn [fold_left].
  - cbn [In]. tauto.
  - rewrite IH, insert_in. cbn [In]. intuition congruence.
Qed.
Lemma fold_sorted : forall l s, Sorted_set s -> Sorted_set (fold_left (fun a g => set_insert g a) l s).
Proof. induction l as [|g r IH]; intros s S0; cbn [fold_left]; [exact S0|]. apply IH. apply insert_sorted. exact S0. Qed.
Lemma sanitize_in : forall l x, In x (sanitize l) <-> x = t "everyone" \/ In x l.
Proof. intros l x. unfold sanitize. rewrite fold_in, insert_in. cbn [In]. tauto. Qed.
Lemma sanitize_sorted : forall l, Sorted_set (sanitize l).
Proof. intro l. apply fold_sorted. apply insert_sorted. constructor. Qed.
Lemma sorted_nodup : forall l, Sorted_set l -> NoDup l.
Proof.
  induction l as [|x r IH]; intro S0; [constructor|]. inversion S0 as [|? ? SR FR]; subst. constructor; [|apply IH; exact SR].
  intro H. rewrite Forall_forall in FR. exact (lt_irrefl x (FR x H)).
Qed.
(** A sorted list is determined by its elements. *)
Lemma sorted_same : forall a b, Sorted_set a -> Sorted_set b -> (forall x, In x a <-> In x b) -> a = b.
Proof.
  induction a as [|x a IH]; intros [|y b] SA SB E; [reflexivity| | |].
  - exfalso. destruct (E y) as [_ K]. destruct (K (or_introl eq_refl)).
  - exfalso. destruct (E x) as [K _]. destruct (K (or_introl eq_refl)).
  - inversion SA as [|? ? SRA FA]; subst. inversion SB as [|? ? SRB FB]; subst. rewrite Forall_forall in FA, FB.
    assert (x = y) as <-.
    { destruct (E x) as [K1 _]. destruct (E y) as [_ K2]. destruct (K1 (or_introl eq_refl)) as [Q|Q]; [congruence|].
      destruct (K2 (or_introl eq_refl)) as [R|R]; [congruence|]. exfalso. exact (lt_irrefl x (lt_trans _ _ _ (FA y R) (FB x Q))). }
    f_equal. apply IH; [exact SRA|exact SRB|]. intro z. destruct (E z) as [K1 K2]. split; intro H.
    + destruct (K1 (or_intror H)) as [Q|Q]; [|exact Q]. subst z. exfalso. exact (lt_irrefl x (FA x H)).
    + destruct (K2 (or_intror H)) as [Q|Q]; [|exact Q]. subst z. exfalso. exact (lt_irrefl x (FB x H)).
Qed.
Lemma sanitize_again : forall l, sanitize (sanitize l) = sanitize l.
Proof.
  intro l. apply sorted_same; try apply sanitize_sorted. intro x. rewrite sanitize_in, sanitize_in. intuition.
Qed.
Lemma texts_eqb_spec : forall a b, texts_eqb a b = true <-> a = b.
Proof.
  induction a as [|x a IH]; intros [|y b]; cbn [texts_eqb]; try (split; intro H; congruence).
  rewrite Bool.andb_true_iff, text_eqb_spec, IH. split; [intros [-> ->]; reflexivity|]. intro H. injection H as -> ->. split; reflexivity.
Qed.
Lemma userEqual_spec : forall a b, userEqual a b = true <-> a = b.
Proof.
  intros [n h g] [n' h' g']. unfold userEqual. cbn [u_name u_hash u_groups].
  destruct (text_eqb n n') eqn:A; cbn [negb]; [|apply text_eqb_neq in A; split; intro H; congruence].
  destruct (text_eqb h h') eqn:B; cbn [negb]; [|apply text_eqb_neq in B; split; intro H; congruence].
  apply text_eqb_spec in A. apply text_eqb_spec in B. subst n' h'. destruct (texts_eqb g g') eqn:C; cbn [negb].
  - apply texts_eqb_spec in C. subst g'. split; reflexivity.
  - split; [discriminate|]. intro H. injection H as ->. assert (texts_eqb g' g' = true) by (apply texts_eqb_spec; reflexivity). congruence.
Qed.
Lemma strings_map : forall l, strings (map JString l) = Some l.
Proof. induction l as [|x r IH]; [reflexivity|]. cbn [map strings]. rewrite IH. reflexivity. Qed.

(** ** Users by name *)
Lemma find_set : forall l k u k', find_user (set_user l k u) k' = if text_eqb k k' then Some u else find_user l k'.
Proof.
  induction l as [|[j v] r IH]; intros k u k'; cbn [set_user find_user]; [reflexivity|].
  destruct (text_eqb j k) eqn:A.
  - apply text_eqb_spec in A. subst j. cbn [find_user]. destruct (text_eqb k k'); reflexivity.
  - cbn [find_user]. destruct (text_eqb j k') eqn:B; [|apply IH]. apply text_eqb_spec in B. subst j.
    destruct (text_eqb k k') eqn:C; [|reflexivity]. apply text_eqb_spec in C. subst k'. rewrite text_eqb_refl in A. discriminate.
Qed.
Lemma load_snoc : forall l u, loadUsers (l ++ [u]) = set_user (loadUsers l) (u_name u) u.
Proof. intros l u. unfold loadUsers. rewrite fold_left_app. reflexivity. Qed.
Lemma find_load : forall l k u, find_user (loadUsers l) k = Some u <-> last_named l k u.
Proof.
  induction l as [|v l IH] using rev_ind; intros k u.
  - split; [discriminate|]. intros [a [b [E _]]]. destruct a; discriminate.
  - rewrite load_snoc, find_set. destruct (text_eqb (u_name v) k) eqn:A.
    + apply text_eqb_spec in A. split.
      * intro H. injection H as <-. exists l, []. split; [reflexivity|]. split; [exact A|]. intros w [].
      * intros [a [b [E [N F]]]]. destruct b as [|y b] using rev_ind.
        -- apply app_inj_tail in E. destruct E as [_ ->]. reflexivity.
        -- exfalso. clear IHb. assert (l ++ [v] = (a ++ u :: b) ++ [y]) as E2 by (rewrite E, <- app_assoc; reflexivity).
           apply app_inj_tail in E2. destruct E2 as [_ ->]. apply (F y); [apply in_or_app; right; left; reflexivity|exact A].
    + apply text_eqb_neq in A. rewrite IH. split.
      * intros [a [b [E [N F]]]]. exists a, (b ++ [v]). split; [rewrite E, <- app_assoc; reflexivity|]. split; [exact N|].
        intros w W. apply in_app_or in W. destruct W as [W|[W|[]]]; [apply F; exact W|subst w; exact A].
      * intros [a [b [E [N F]]]]. destruct b as [|y b] using rev_ind.
        -- exfalso. apply app_inj_tail in E. destruct E as [_ ->]. contradiction.
        -- clear IHb. assert (l ++ [v] = (a ++ u :: b) ++ [y]) as E2 by (rewrite E, <- app_assoc; reflexivity).
           apply app_inj_tail in E2. destruct E2 as [-> ->]. exists a, b. split; [reflexivity|]. split; [exact N|].
           intros w W. apply F. apply in_or_app. left. exact W.
Qed.

(** ** The form of a hash *)
Lemma all_ascii : forall P : ascii -> bool, (forall b0 b1 b2 b3 b4 b5 b6 b7, P (Ascii b0 b1 b2 b3 b4 b5 b6 b7) = true) -> forall c, P c = true.
Proof. intros P H [b0 b1 b2 b3 b4 b5 b6 b7]. apply H. Qed.
Definition inb (c : ascii) (l : text) : bool := existsb (Ascii.eqb c) l.
Lemma inb_spec : forall c l, inb c l = true <-> In c l.
Proof.
  intros c l. unfold inb. rewrite existsb_exists. split.
  - intros [x [H E]]. apply Ascii.eqb_eq in E. congruence.
  - intro H. exists c. split; [exact H|apply Ascii.eqb_refl].
Qed.
Lemma digit_inb : forall c, Bool.eqb (isDigit c) (inb c (t "0123456789")) = true.
Proof. apply all_ascii. intros [] [] [] [] [] [] [] []; vm_compute; reflexivity. Qed.
Lemma base64_inb : forall c, Bool.eqb (isBase64 c) (inb c (t "./0123456789ABCDEFGHIJKLMNOPQRSTUVWXYZabcdefghijklmnopqrstuvwxyz")) = true.
Proof. apply all_ascii. intros [] [] [] [] [] [] [] []; vm_compute; reflexivity. Qed.
Lemma digit_spec : forall c, isDigit c = true <-> is_digit c.
Proof. intro c. pose proof (digit_inb c) as H. apply Bool.eqb_prop in H. rewrite H. apply inb_spec. Qed.
Lemma base64_spec : forall c, isBase64 c = true <-> is_base64 c.
Proof. intro c. pose proof (base64_inb c) as H. apply Bool.eqb_prop in H. rewrite H. apply inb_spec. Qed.
Lemma end_spec : forall s, matchEnd s = true <-> length s = 53%nat /\ Forall is_base64 s.
Proof.
  intro s. unfold matchEnd. rewrite Bool.andb_true_iff, Nat.eqb_eq, forallb_forall, Forall_forall.
  split; intros [A B]; (split; [exact A|]); intros x X; apply base64_spec; apply B; exact X.
Qed.
Lemma dollar_spec : forall s, matchDollarEnd s = true <-> exists r, s = "$"%char :: r /\ matchEnd r = true.
Proof.
  intros [|c r]; cbn [matchDollarEnd].
  - split; [discriminate|]. intros [r [E _]]. discriminate.
  - rewrite Bool.andb_true_iff, Ascii.eqb_eq. split; [intros [-> H]; exists r; split; [reflexivity|exact H]|].
    intros [r' [E H]]. injection E as -> ->. split; [reflexivity|exact H].
Qed.
Lemma digits_spec : forall s, matchDigits s = true <-> exists d r, s = d ++ r /\ Forall is_digit d /\ matchDollarEnd r = true.
Proof.
  induction s as [|c s IH]; cbn [matchDigits].
  - split; [discriminate|]. intros [d [r [E [_ H]]]]. destruct d; [|discriminate]. cbn [app] in E. subst r. discriminate.
  - destruct (isDigit c) eqn:D.
    + rewrite IH. split.
      * intros [d [r [E [F H]]]]. exists (c :: d), r. split; [rewrite E; reflexivity|]. split; [|exact H]. constructor; [apply digit_spec; exact D|exact F].
      * intros [d [r [E [F H]]]]. destruct d as [|x d].
        -- cbn [app] in E. subst r. apply dollar_spec in H. destruct H as [r [E H]]. injection E as -> _. vm_compute in D. discriminate.
        -- injection E as -> ->. inversion F; subst. exists d, r. split; [reflexivity|]. split; assumption.
    + split.
      * intro H. exists [], (c :: s). split; [reflexivity|]. split; [constructor|exact H].
      * intros [d [r [E [F H]]]]. destruct d as [|x d]; [cbn [app] in E; subst r; exact H|].
        injection E as -> ->. inversion F; subst. match goal with K : is_digit x |- _ => apply digit_spec in K; congruence end.
Qed.
Lemma cost_spec : forall s, matchCost s = true <->
  exists cost digest, s = t "$" ++ cost ++ t "$" ++ digest /\ cost <> [] /\ Forall is_digit cost /\ length digest = 53%nat /\ Forall is_base64 digest.
Proof.
  intro s. split.
  - destruct s as [|c [|d r]]; cbn [matchCost]; try discriminate. intro H. apply andb_prop in H. destruct H as [H M].
    apply andb_prop in H. destruct H as [A B]. apply Ascii.eqb_eq in A. subst c. apply digits_spec in M. destruct M as [ds [r' [-> [F M]]]].
    apply dollar_spec in M. destruct M as [g [-> M]]. apply end_spec in M. destruct M as [L K].
    exists (d :: ds), g. split; [reflexivity|]. split; [discriminate|]. split; [constructor; [apply digit_spec; exact B|exact F]|]. split; assumption.
  - intros [cost [g [-> [NE [F [L K]]]]]]. destruct cost as [|d ds]; [contradiction|]. inversion F as [|? ? D FD]; subst.
    change (t "$" ++ (d :: ds) ++ t "$" ++ g) with ("$"%char :: d :: (ds ++ "$"%char :: g)). cbn [matchCost].
    rewrite Ascii.eqb_refl. apply digit_spec in D. rewrite D. cbn [andb]. apply digits_spec. exists ds, ("$"%char :: g).
    split; [reflexivity|]. split; [exact FD|]. apply dollar_spec. exists g. split; [reflexivity|]. apply end_spec. split; assumption.
Qed.
Lemma variant_spec : forall c, isVariant c = true <-> (c = "a"%char \/ c = "y"%char \/ c = "b"%char).
Proof. intro c. unfold isVariant. rewrite !Bool.orb_true_iff, !Ascii.eqb_eq. tauto. Qed.
Lemma bcrypt_spec : forall s, matchBcrypt s = true <-> bcrypt_form s.
Proof.
  intro s. unfold bcrypt_form. split.
  - destruct s as [|a [|b [|c r]]]; cbn [matchBcrypt]; try discriminate. intro H. apply andb_prop in H. destruct H as [H M].
    apply andb_prop in H. destruct H as [A B]. apply Ascii.eqb_eq in A. apply Ascii.eqb_eq in B. subst a b.
    destruct (isVariant c) eqn:V.
    + apply cost_spec in M. destruct M as [cost [g [-> M]]]. exists [c], cost, g. split; [reflexivity|]. split; [|exact M].
      apply variant_spec in V. cbn [In]. destruct V as [ ->|[ ->| ->]]; vm_compute; tauto.
    + apply cost_spec in M. destruct M as [cost [g [E M]]]. exists [], cost, g. split; [cbn [app]; rewrite <- E; reflexivity|].
      split; [left; reflexivity|exact M].
  - intros [v [cost [g [-> [V M]]]]]. assert (matchCost (t "$" ++ cost ++ t "$" ++ g) = true) as K by (apply cost_spec; exists cost, g; split; [reflexivity|exact M]).
    cbn [In] in V. destruct V as [<-|[<-|[<-|[<-|[]]]]]; cbn -[matchCost] in *; exact K.
Qed.
Lemma password_spec : forall bcrypt h w, passwordValid bcrypt h w = true <-> right_password bcrypt h w.
Proof.
  intros bcrypt h w. unfold passwordValid, right_password. destruct (matchBcrypt h) eqn:M.
  - assert (bcrypt_form h) as F by (apply bcrypt_spec; exact M). tauto.
  - assert (~ bcrypt_form h) as F by (intro Q; apply bcrypt_spec in Q; congruence). rewrite text_eqb_spec.
    split; [intros <-; right; split; [exact F|reflexivity]|]. intros [[Q _]|[_ ->]]; [contradiction|reflexivity].
Qed.

(** ** Documents *)
Lemma member_has : forall o k v, member o (t k) = Some v <-> has o k v.
Proof.
  intros o k v. unfold has. split.
  - induction o as [|[j w] r IH]; cbn [member]; [discriminate|]. destruct (text_eqb j (t k)) eqn:A.
    + apply text_eqb_spec in A. intro H. injection H as ->. exists [], r. split; [rewrite A; reflexivity|]. intros x [].
    + apply text_eqb_neq in A. intro H. destruct (IH H) as [a [b [E F]]]. exists ((j, w) :: a), b. split; [rewrite E; reflexivity|].
      intros x [X|X]; [subst x; exact A|apply F; exact X].
  - intros [a [b [-> F]]]. induction a as [|[j w] r IH]; cbn [app member].
    + rewrite text_eqb_refl. reflexivity.
    + assert (text_eqb j (t k) = false) as -> by (apply text_eqb_neq; exact (F (j, w) (or_introl eq_refl))).
      apply IH. intros x X. apply F. right. exact X.
Qed.
Lemma member_lacks : forall o k, member o (t k) = None <-> lacks o k.
Proof.
  intros o k. unfold lacks. induction o as [|[j w] r IH]; cbn [member].
  - split; [intros _ x []|reflexivity].
  - destruct (text_eqb j (t k)) eqn:A.
    + apply text_eqb_spec in A. split; [discriminate|]. intro H. exfalso. apply (H (j, w) (or_introl eq_refl)). exact A.
    + apply text_eqb_neq in A. rewrite IH. split.
      * intros H x [X|X]; [subst x; exact A|apply H; exact X].
      * intros H x X. apply H. right. exact X.
Qed.
Lemma cstr_spec : forall s s', cstr s = s' <-> up_to_zero s s'.
Proof.
  unfold up_to_zero. induction s as [|c s IH]; intro s'; cbn [cstr].
  - split; [intros <-; split; [intros []|left; reflexivity]|]. intros [_ [H|[r H]]]; [exact H|destruct s'; discriminate].
  - destruct (Ascii.eqb c zero) eqn:Z0.
    + apply Ascii.eqb_eq in Z0. subst c. split.
      * intros <-. split; [intros []|]. right. exists s. reflexivity.
      * intros [N [H|[r H]]].
        -- exfalso. apply N. subst s'. left. reflexivity.
        -- destruct s' as [|d s']; [reflexivity|]. injection H as <- _. exfalso. apply N. left. reflexivity.
    + apply Ascii.eqb_neq in Z0. split.
      * intros <-. destruct (proj1 (IH (cstr s)) eq_refl) as [N H]. split.
        -- intros [Q|Q]; [contradiction|]. exact (N Q).
        -- destruct H as [H|[r H]]; [left; congruence|right; exists r; cbn [app]; congruence].
      * intros [N [H|[r H]]].
        -- subst s'. f_equal. apply IH. split; [intro Q; apply N; right; exact Q|left; reflexivity].
        -- destruct s' as [|d s']; [injection H as -> _; contradiction|]. injection H as <- H. f_equal. apply IH.
           split; [intro Q; apply N; right; exact Q|right; exists r; exact H].
Qed.
Lemma groupNames_spec : forall l g', groupNames l = Some g' <-> exists g, l = map JString g /\ Forall2 up_to_zero g g'.
Proof.
  induction l as [|j l IH]; intro g'; cbn [groupNames].
  - split.
    + intro H. injection H as <-. exists []. split; [reflexivity|constructor].
    + intros [g [E F]]. destruct g; [|discriminate]. inversion F. reflexivity.
  - split.
    + destruct j as [|b| |s|a|o]; try discriminate. destruct (groupNames l) as [x|]; [|discriminate]. intro H. injection H as <-.
      destruct (proj1 (IH x) eq_refl) as [g [-> F]]. exists (s :: g). split; [reflexivity|]. constructor; [apply cstr_spec; reflexivity|exact F].
    + intros [g [E F]]. destruct g as [|s g]; [discriminate|]. injection E as -> ->. inversion F as [|? s' ? x US FX]; subst.
      assert (groupNames (map JString g) = Some x) as -> by (apply IH; exists g; split; [reflexivity|exact FX]).
      apply cstr_spec in US. rewrite US. reflexivity.
Qed.
Lemma parseGroups_spec : forall o g', parseGroups o = Some g' <->
  exists g, (has o "groups" (JArray (map JString g)) \/ (lacks o "groups" /\ g = [])) /\ Forall2 up_to_zero g g'.
Proof.
  intros o g'. unfold parseGroups. destruct (member o (t "groups")) as [j|] eqn:M.
  - assert (~ lacks o "groups") as NL by (intro L; apply member_lacks in L; congruence). split.
    + destruct j as [|b| |s|a|x]; try discriminate. intro H. apply groupNames_spec in H. destruct H as [g [-> F]].
      exists g. split; [left; apply member_has; exact M|exact F].
    + intros [g [[H|[H _]] F]]; [|contradiction]. apply member_has in H. rewrite M in H. injection H as ->.
      apply groupNames_spec. exists g. split; [reflexivity|exact F].
  - split.
    + intro H. injection H as <-. exists []. split; [right; split; [apply member_lacks; exact M|reflexivity]|constructor].
    + intros [g [[H|[_ ->]] F]]; [apply member_has in H; congruence|]. inversion F. reflexivity.
Qed.
Lemma parseUser_spec : forall o u, parseUser o = Some u <-> exists d, reads_user (JObject o) d /\ u = user_of d.
Proof.
  intros o u. unfold parseUser. split.
  - destruct (member o (t "username")) as [[|b| |n|a|x]|] eqn:M1; try discriminate.
    destruct (member o (t "passwordHash")) as [[|b| |h|a|x]|] eqn:M2; try discriminate.
    destruct (parseGroups o) as [g'|] eqn:M3; [|discriminate]. intro H. injection H as <-.
    apply parseGroups_spec in M3. destruct M3 as [g [G F]]. exists (Described (cstr n) (cstr h) g'). split; [|reflexivity].
    apply (reads_one o n h g).
    + apply member_has. exact M1.
    + apply cstr_spec. reflexivity.
    + apply member_has. exact M2.
    + apply cstr_spec. reflexivity.
    + exact G.
    + exact F.
  - intros [d [R ->]]. inversion R as [? n h g n' h' g' A1 A2 A3 A4 A5 A6]; subst. apply member_has in A1. apply member_has in A3.
    rewrite A1, A3. apply cstr_spec in A2. apply cstr_spec in A4.
    assert (parseGroups o = Some g') as -> by (apply parseGroups_spec; exists g; split; assumption). rewrite A2, A4. reflexivity.
Qed.
Lemma addUsers_spec : forall l d r, addUsers l d = Some r <->
  exists us, Forall2 reads_user l us /\ r = fold_left (fun d u => set_user d (u_name u) u) (map user_of us) d.
Proof.
  induction l as [|j l IH]; intros d r; cbn [addUsers].
  - split.
    + intro H. injection H as <-. exists []. split; [constructor|reflexivity].
    + intros [us [F ->]]. inversion F. reflexivity.
  - split.
    + destruct j as [|b| |s|a|o]; try discriminate. destruct (parseUser o) as [u|] eqn:P; [|discriminate]. intro H.
      apply parseUser_spec in P. destruct P as [x [R ->]]. apply IH in H. destruct H as [us [F ->]]. exists (x :: us).
      split; [constructor; assumption|reflexivity].
    + intros [us [F ->]]. inversion F as [|? x ? us' R FX]; subst. inversion R as [o n h g n' h' g' A1 A2 A3 A4 A5 A6]; subst.
      assert (parseUser o = Some (user_of (Described n' h' g'))) as -> by (apply parseUser_spec; exists (Described n' h' g'); split; [exact R|reflexivity]).
      apply IH. exists us'. split; [exact FX|reflexivity].
Qed.
Lemma parseUsers_spec : forall o r, parseUsers o = Some r <->
  (exists js us, has o "users" (JArray js) /\ Forall2 reads_user js us /\ r = loadUsers (map user_of us)) \/
  ((forall js, ~ has o "users" (JArray js)) /\ r = []).
Proof.
  intros o r. unfold parseUsers.
  assert ((exists l, member o (t "users") = Some (JArray l)) \/ (forall js, ~ has o "users" (JArray js))) as [[l M]|N].
  { destruct (member o (t "users")) as [[|b| |s|a|x]|] eqn:M; try (right; intros js H; apply member_has in H; congruence). left. exists a. reflexivity. }
  - rewrite M, addUsers_spec. assert (has o "users" (JArray l)) as H by (apply member_has; exact M). split.
    + intros [us [F E]]. left. exists l, us. repeat split; assumption.
    + intros [[js [us [HJ [F E]]]]|[NH _]]; [|exfalso; exact (NH l H)]. apply member_has in HJ. rewrite M in HJ. injection HJ as <-.
      exists us. split; assumption.
  - assert ((match member o (t "users") with Some (JArray l) => addUsers l [] | _ => Some [] end) = Some []) as ->.
    { destruct (member o (t "users")) as [[|b| |s|a|x]|] eqn:M; try reflexivity. exfalso. apply (N a). apply member_has. exact M. }
    split.
    + intro H. injection H as <-. right. split; [exact N|reflexivity].
    + intros [[js [us [HJ _]]]|[_ ->]]; [exfalso; exact (N js HJ)|reflexivity].
Qed.
Lemma loadJson_spec : forall j p, loadJson (Some j) = Loaded p <->
  exists anon us, reads j anon us /\ p = static anon (map user_of us).
Proof.
  intros j p. split.
  - destruct j as [|b| |s|a|o]; cbn [loadJson]; try discriminate.
    destruct (member o (t "allowAnonymous")) as [[|b| |s|a|x]|] eqn:M; try discriminate.
    destruct (parseUsers o) as [d|] eqn:P; [|discriminate]. intro H. injection H as <-. apply member_has in M.
    apply parseUsers_spec in P. destruct P as [[js [us [HJ [F ->]]]]|[N ->]].
    + exists b, us. split; [apply (reads_users o b js us); assumption|reflexivity].
    + exists b, []. split; [apply reads_none; assumption|reflexivity].
  - intros [anon [us [R ->]]]. inversion R as [o b js us' A B F|o b A N]; subst; cbn [loadJson]; apply member_has in A; rewrite A.
    + assert (parseUsers o = Some (loadUsers (map user_of us))) as ->; [|reflexivity].
      apply parseUsers_spec. left. exists js, us. repeat split; assumption.
    + assert (parseUsers o = Some []) as ->; [|reflexivity]. apply parseUsers_spec. right. split; [exact N|reflexivity].
Qed.

(** ** Uses *)
Lemma find_on : forall l k f k', (forall u, u_name (f u) = u_name u) ->
  find_user (onUser l k f) k' = if text_eqb k k' then option_map f (find_user l k') else find_user l k'.
Proof.
  intros l k f k' NF. induction l as [|[j u] r IH]; cbn [onUser find_user].
  - destruct (text_eqb k k'); reflexivity.
  - destruct (text_eqb j k) eqn:A; cbn [find_user].
    + apply text_eqb_spec in A. subst j. destruct (text_eqb k k') eqn:B; reflexivity.
    + rewrite IH. destruct (text_eqb j k') eqn:B; [|reflexivity]. apply text_eqb_spec in B. subst j.
      destruct (text_eqb k k') eqn:C; [|reflexivity]. apply text_eqb_spec in C. subst k'. rewrite text_eqb_refl in A. discriminate.
Qed.
