(** Proofs about external signals: the invariants of client and device. *)
From Coq Require Import List Bool Arith Lia.
From Verif Require Import Ext_Model Ext_Spec.
Import ListNotations.

Definition wants (D : sig -> option sig) (cp : port -> option sig) (t : trig) (s : sig) : Prop :=
  match t with
  | TPort p => cp p = Some s
  | TSig s2 => D s2 = Some s /\ exists p, cp p = Some s2
  end.
Definition strm D cp s : Prop := exists t, wants D cp t s.
Definition nums (pr : sig -> option entry) (s : sig) : option num := option_map e_num (pr s).

Lemma trig_eqb_spec a b : reflect (a = b) (trig_eqb a b).
Proof.
  destruct a as [p|s], b as [q|t]; cbn [trig_eqb]; try (constructor; congruence);
    (match goal with |- context [Nat.eqb ?a ?b] => destruct (Nat.eqb_spec a b) end); constructor; congruence.
Qed.
Lemma upd_same {V} (f : nat -> V) i v : upd f i v i = v.
Proof. unfold upd. now rewrite Nat.eqb_refl. Qed.
Lemma upd_other {V} (f : nat -> V) i j v : j <> i -> upd f i v j = f j.
Proof. intro N. unfold upd. destruct (Nat.eqb_spec j i); congruence. Qed.

Lemma wants_ext D cp cp' t s : (forall p, cp p = cp' p) -> wants D cp t s -> wants D cp' t s.
Proof. intros E. destruct t as [p|s2]; cbn [wants]; [now rewrite E|]. intros [H [p K]]. split; [easy|]. exists p. now rewrite <- E. Qed.
Lemma strm_ext D cp cp' s : (forall p, cp p = cp' p) -> strm D cp s -> strm D cp' s.
Proof. intros E [t W]. exists t. eapply wants_ext; eauto. Qed.

Section Client.
Variable rd : bool.

Record PInv (D : sig -> option sig) (cp : port -> option sig) (X : list sig) (pr : sig -> option entry) (c : num) : Prop := mkP {
  pi_trig : forall s e, pr s = Some e -> forall t, In t (e_trig e) <-> wants D cp t s;
  pi_none : forall s, pr s = None -> forall t, ~ wants D cp t s;
  pi_num : forall s e, pr s = Some e -> e_num e <= c;
  pi_inj : forall s s' e e', pr s = Some e -> pr s' = Some e' -> e_num e = e_num e' -> s = s';
  pi_read : forall s e, pr s = Some e -> (e_read e = true <-> rd = true /\ strm D cp s);
  pi_held : forall s e, pr s = Some e -> (e_held e = true <-> strm D cp s \/ In s X) }.

Lemma PInv_ext D cp cp' X pr c : (forall p, cp p = cp' p) -> PInv D cp X pr c -> PInv D cp' X pr c.
Proof.
  intros E H. assert (E' : forall p, cp' p = cp p) by (intro; now rewrite E).
  assert (W : forall t s, wants D cp t s <-> wants D cp' t s) by (intros t s; split; apply wants_ext; easy).
  assert (T : forall s, strm D cp s <-> strm D cp' s) by (intro s; split; apply strm_ext; easy).
  constructor.
  - intros s e P t. rewrite <- W. eapply pi_trig; eauto.
  - intros s P t. rewrite <- W. eapply pi_none; eauto.
  - apply (pi_num _ _ _ _ _ H).
  - apply (pi_inj _ _ _ _ _ H).
  - intros s e P. rewrite <- T. eapply pi_read; eauto.
  - intros s e P. rewrite <- T. eapply pi_held; eauto.
Qed.

(** what is left of the wishes when port [p] lets go of [s] *)
Lemma wants_less D cp p s (cp1 := upd cp p None) t o : flat D -> (forall s', cp p = Some s' -> s' = s) ->
  wants D cp1 t o -> wants D cp t o /\ ~ (o = s /\ t = TPort p).
Proof.
  intros F O. subst cp1. destruct t as [q|s2]; cbn [wants].
  - destruct (Nat.eq_dec q p) as [->|N]; [now rewrite upd_same|]. rewrite upd_other by easy. intro H.
    split; [easy|]. intros [_ E]. congruence.
  - intros [H [q K]]. destruct (Nat.eq_dec q p) as [->|N]; [now rewrite upd_same in K|]. rewrite upd_other in K by easy.
    split; [split; [easy|]; now exists q|]. intros [_ E]. congruence.
Qed.
Lemma wants_left D cp p s (cp1 := upd cp p None) t o : flat D -> (forall s', cp p = Some s' -> s' = s) ->
  wants D cp t o -> ~ (o = s /\ t = TPort p) -> (t = TSig s -> exists q, cp1 q = Some s) -> wants D cp1 t o.
Proof.
  intros F O W N Q. subst cp1. destruct t as [q|s2]; cbn [wants] in *.
  - destruct (Nat.eq_dec q p) as [->|K].
    + exfalso. apply N. split; [now apply O|easy].
    + now rewrite upd_other.
  - destruct W as [H [q K]]. split; [easy|]. destruct (Nat.eq_dec s2 s) as [->|M]; [now apply Q|].
    exists q. rewrite upd_other; [easy|]. intros ->. apply O in K. congruence.
Qed.

Lemma filter_all {A} (f : A -> bool) l : (forall a, In a l -> f a = true) -> filter f l = l.
Proof.
  induction l as [|a l IH]; [easy|]. intro H. cbn [filter]. rewrite (H a) by (left; easy). f_equal. apply IH.
  intros b K. apply H. now right.
Qed.
Lemma in_filter_trig t u l : In u (filter (fun v => negb (trig_eqb t v)) l) <-> In u l /\ u <> t.
Proof. rewrite filter_In. destruct (trig_eqb_spec t u); cbn [negb]; intuition congruence. Qed.

(** what letting go does to the client's table *)
Definition freed D cp1 s (U : list sig) : Prop :=
  forall o, In o U <-> (o = s \/ D s = Some o) /\ ~ strm D cp1 o.

Lemma remove_ok x cp X s p f (D := dom x) (cp1 := upd cp p None) :
  flat D -> PInv D cp X (prod x) (ctr x) -> (forall s', cp p = Some s' -> s' = s) ->
  (exists e, prod x s = Some e) -> (forall d, D s = Some d -> exists e, prod x d = Some e) ->
  (forall o, In o X -> o = s \/ D s = Some o -> strm D cp1 o) ->
  exists pr' U, remove_trigger rd (S (S f)) s (TPort p) x [] =
      (set_prod x pr', map (fun o => match nums (prod x) o with Some n => n | None => 0 end) U, Done) /\
    PInv D cp1 X pr' (ctr x) /\ (forall o, nums pr' o = nums (prod x) o) /\ freed D cp1 s U /\
    (forall o, strm D cp o -> strm D cp1 o \/ In o U).
Proof.
  intros F P O [e E] R SF. cbn [remove_trigger]. rewrite E.
  set (tr := filter _ (e_trig e)).
  assert (TR : forall t, In t tr <-> wants D cp t s /\ t <> TPort p).
  { intro t. unfold tr. rewrite in_filter_trig. now rewrite (pi_trig _ _ _ _ _ P s e E t). }
  assert (NS : D s <> Some s) by (intro H; pose proof (F _ _ H); congruence).
  assert (TR1 : forall t, In t tr <-> wants D cp1 t s).
  { intro t. rewrite TR. split.
    - intros [W N]. apply (wants_left D cp p s t s F O W); [tauto|]. intros ->. destruct W as [W _]. contradiction.
    - intro W. apply (wants_less D cp p s t s F O) in W. intuition. }
  assert (S0 : tr = [] -> ~ strm D cp1 s) by (intros T0 [t W]; apply TR1 in W; rewrite T0 in W; easy).
  destruct tr as [|t0 tr0] eqn:T0.
  - (* nobody wants [s] any more *)
    specialize (S0 eq_refl).
    assert (RD : (if rd then false else e_read e) = true <-> rd = true /\ strm D cp1 s).
    { destruct rd eqn:ER; [easy|]. rewrite (pi_read _ _ _ _ _ P s e E), ER. easy. }
    cbn [dom prod set_prod].
    destruct (dom x s) as [d|] eqn:DS.
    + (* with a domain *)
      destruct (R d DS) as [ed Ed]. assert (Nd : d <> s) by (intros ->; now apply NS).
      assert (Dd : dom x d = None) by (apply (F s); easy).
      cbn [remove_trigger prod set_prod]. rewrite upd_other by easy. rewrite Ed.
      set (trd := filter _ (e_trig ed)).
      assert (TRD : forall t, In t trd <-> wants D cp1 t d).
      { intro t. unfold trd. rewrite in_filter_trig. rewrite (pi_trig _ _ _ _ _ P d ed Ed t). split.
        - intros [W N]. apply (wants_left D cp p s t d F O W); [tauto|]. congruence.
        - intro W. pose proof (wants_less D cp p s t d F O W) as [W' _]. split; [easy|]. intros ->. apply S0.
          destruct W as [_ [q K]]. exists (TPort q). exact K. }
      assert (OT : forall o t, o <> s -> o <> d -> (wants D cp t o <-> wants D cp1 t o)).
      { intros o t N1 N2. split; intro W.
        - apply (wants_left D cp p s t o F O W); [tauto|]. intros ->. exfalso. apply N2. destruct W as [W _]. unfold D in *. congruence.
        - apply (wants_less D cp p s t o F O W). }
      assert (OS : forall o, o <> s -> o <> d -> (strm D cp o <-> strm D cp1 o)).
      { intros o N1 N2. split; intros [t W]; exists t; apply (OT o t N1 N2); easy. }
      assert (COM : forall trd', (forall t, In t trd' <-> wants D cp1 t d) ->
        forall hd rdd, (rdd = true <-> rd = true /\ strm D cp1 d) -> (hd = true <-> strm D cp1 d \/ In d X) ->
        forall pr', (forall o, pr' o = if Nat.eqb o s then Some (Entry false (e_num e) (if rd then false else e_read e) []) else
                              if Nat.eqb o d then Some (Entry hd (e_num ed) rdd trd') else prod x o) ->
        PInv D cp1 X pr' (ctr x) /\ (forall o, nums pr' o = nums (prod x) o)).
      { intros trd' T' hd rdd RDD HDD pr' PR. split; [constructor|].
        - intros o u. rewrite PR. destruct (Nat.eqb_spec o s) as [->|N1]; [|destruct (Nat.eqb_spec o d) as [->|N2]].
          + intros [= <-] t. cbn [e_trig]. apply TR1.
          + intros [= <-] t. apply T'.
          + intros H t. rewrite (pi_trig _ _ _ _ _ P o u H t). now apply OT.
        - intros o. rewrite PR. destruct (Nat.eqb_spec o s) as [->|N1]; [easy|]. destruct (Nat.eqb_spec o d) as [->|N2]; [easy|].
          intros H t. rewrite <- OT by easy. apply (pi_none _ _ _ _ _ P o H).
        - intros o u. rewrite PR. destruct (Nat.eqb_spec o s) as [->|N1]; [|destruct (Nat.eqb_spec o d) as [->|N2]].
          + intros [= <-]. apply (pi_num _ _ _ _ _ P s e E).
          + intros [= <-]. apply (pi_num _ _ _ _ _ P d ed Ed).
          + apply (pi_num _ _ _ _ _ P o).
        - assert (Q : forall o u, pr' o = Some u -> exists w, prod x o = Some w /\ e_num w = e_num u).
          { intros o u. rewrite PR. destruct (Nat.eqb_spec o s) as [->|N1]; [|destruct (Nat.eqb_spec o d) as [->|N2]].
            - intros [= <-]. now exists e.
            - intros [= <-]. now exists ed.
            - intro H. now exists u. }
          intros o o' u u' H H' K. destruct (Q o u H) as [w [A B]]. destruct (Q o' u' H') as [w' [A' B']].
          apply (pi_inj _ _ _ _ _ P o o' w w' A A'). congruence.
        - intros o u. rewrite PR. destruct (Nat.eqb_spec o s) as [->|N1]; [|destruct (Nat.eqb_spec o d) as [->|N2]].
          + intros [= <-]. exact RD.
          + intros [= <-]. exact RDD.
          + intro H. rewrite <- OS by easy. apply (pi_read _ _ _ _ _ P o u H).
        - intros o u. rewrite PR. destruct (Nat.eqb_spec o s) as [->|N1]; [|destruct (Nat.eqb_spec o d) as [->|N2]].
          + intros [= <-]. cbn [e_held]. split; [easy|]. intros [H|H]; exfalso; [easy|]. apply S0. apply SF; [easy|now left].
          + intros [= <-]. exact HDD.
          + intro H. rewrite <- OS by easy. apply (pi_held _ _ _ _ _ P o u H).
        - intro o. unfold nums. rewrite PR. destruct (Nat.eqb_spec o s) as [->|N1]; [now rewrite E|].
          destruct (Nat.eqb_spec o d) as [->|N2]; [now rewrite Ed|easy]. }
      destruct trd as [|u0 trd0] eqn:TD0.
      * (* nor its domain *)
        cbn [dom prod set_prod]. rewrite Dd. cbn [set_prod prod dom ctr cport mirrors sport up down app].
        assert (Sd : ~ strm D cp1 d) by (intros [t W]; apply TRD in W; rewrite ?TD0 in W; easy).
        eexists _, [d; s]. split; [unfold set_prod, nums; cbn [map option_map ctr cport mirrors sport up down dom]; rewrite E, Ed; reflexivity|].
        edestruct (COM [] TRD false (if rd then false else e_read ed)) as [A B]; [| |cbn beta|split; [exact A|split; [exact B|split]]].
        -- destruct rd eqn:ER; [easy|]. rewrite (pi_read _ _ _ _ _ P d ed Ed), ER. easy.
        -- split; [easy|]. intros [H|H]; exfalso; [easy|]. apply Sd. apply SF; [easy|now right].
        -- intro o. unfold upd. destruct (Nat.eqb_spec o s); [easy|]. destruct (Nat.eqb_spec o d); easy.
        -- intro o. cbn [In]. unfold D. rewrite DS. split.
           ++ intros [<-|[<-|[]]]; [split; [now right|easy]|split; [now left|easy]].
           ++ intros [[->|[= ->]] _]; tauto.
        -- intros o H. cbn [In]. destruct (Nat.eq_dec o s); [subst; tauto|]. destruct (Nat.eq_dec o d); [subst; tauto|].
           left. apply OS; easy.
      * assert (Sd : strm D cp1 d) by (exists u0; apply TRD; left; easy).
        cbn [set_prod prod dom ctr cport mirrors sport up down app].
        eexists _, [s]. split; [unfold set_prod, nums; cbn [map option_map ctr cport mirrors sport up down dom]; rewrite E; reflexivity|].
        edestruct (COM (u0 :: trd0) TRD (e_held ed) (e_read ed)) as [A B]; [| |cbn beta|split; [exact A|split; [exact B|split]]].
        -- rewrite (pi_read _ _ _ _ _ P d ed Ed). split; [tauto|]. intros [H _]. split; [easy|]. destruct Sd as [t W]. exists t.
           apply (wants_less D cp p s t d F O W).
        -- rewrite (pi_held _ _ _ _ _ P d ed Ed). split; [tauto|]. intros _. left. destruct Sd as [t W]. exists t.
           apply (wants_less D cp p s t d F O W).
        -- intro o. unfold upd. destruct (Nat.eqb_spec o s); [easy|]. destruct (Nat.eqb_spec o d); easy.
        -- intro o. cbn [In]. unfold D. rewrite DS. split.
           ++ intros [<-|[]]; split; [now left|easy].
           ++ intros [[->|[= ->]] HH]; tauto.
        -- intros o H. cbn [In]. destruct (Nat.eq_dec o s); [subst; tauto|]. destruct (Nat.eq_dec o d); [subst; tauto|].
           left. apply OS; easy.
    + (* no domain *)
      assert (OT : forall o t, o <> s -> (wants D cp t o <-> wants D cp1 t o)).
      { intros o t N1. split; intro W.
        - apply (wants_left D cp p s t o F O W); [tauto|]. intros ->. exfalso. destruct W as [W _]. unfold D in *. congruence.
        - apply (wants_less D cp p s t o F O W). }
      assert (OS : forall o, o <> s -> (strm D cp o <-> strm D cp1 o)).
      { intros o N1. split; intros [t W]; exists t; apply (OT o t N1); easy. }
      cbn [app]. eexists _, [s]. split; [unfold set_prod, nums; cbn [map option_map prod ctr cport mirrors sport up down dom]; rewrite E; reflexivity|].
      cbn [prod set_prod].
      match goal with |- PInv _ _ _ ?pr _ /\ _ => set (pr' := pr) end.
      assert (PR : forall o, pr' o = if Nat.eqb o s then Some (Entry false (e_num e) (if rd then false else e_read e) []) else prod x o).
      { intro o. unfold pr', upd. destruct (Nat.eqb_spec o s); easy. }
      clearbody pr'. split; [constructor|split; [|split]].
      * intros o u. rewrite PR. destruct (Nat.eqb_spec o s) as [->|N1].
        -- intros [= <-] t. apply TR1.
        -- intros H t. rewrite (pi_trig _ _ _ _ _ P o u H t). now apply OT.
      * intros o. rewrite PR. destruct (Nat.eqb_spec o s) as [->|N1]; [easy|].
        intros H t. rewrite <- OT by easy. apply (pi_none _ _ _ _ _ P o H).
      * intros o u. rewrite PR. destruct (Nat.eqb_spec o s) as [->|N1].
        -- intros [= <-]. apply (pi_num _ _ _ _ _ P s e E).
        -- apply (pi_num _ _ _ _ _ P o).
      * assert (Q : forall o u, pr' o = Some u -> exists w, prod x o = Some w /\ e_num w = e_num u).
        { intros o u. rewrite PR. destruct (Nat.eqb_spec o s) as [->|N1].
          - intros [= <-]. now exists e.
          - intro H. now exists u. }
        intros o o' u u' H H' K. destruct (Q o u H) as [w [A B]]. destruct (Q o' u' H') as [w' [A' B']].
        apply (pi_inj _ _ _ _ _ P o o' w w' A A'). congruence.
      * intros o u. rewrite PR. destruct (Nat.eqb_spec o s) as [->|N1].
        -- intros [= <-]. exact RD.
        -- intro H. rewrite <- OS by easy. apply (pi_read _ _ _ _ _ P o u H).
      * intros o u. rewrite PR. destruct (Nat.eqb_spec o s) as [->|N1].
        -- intros [= <-]. cbn [e_held]. split; [easy|]. intros [H|H]; exfalso; [easy|]. apply S0. apply SF; [easy|now left].
        -- intro H. rewrite <- OS by easy. apply (pi_held _ _ _ _ _ P o u H).
      * intro o. unfold nums. rewrite PR. destruct (Nat.eqb_spec o s) as [->|N1]; [now rewrite E|easy].
      * intro o. cbn [In]. unfold D. rewrite DS. split.
        -- intros [<-|[]]; split; [now left|easy].
        -- intros [[->|H] _]; [tauto|easy].
      * intros o H. cbn [In]. destruct (Nat.eq_dec o s); [subst; tauto|]. left. apply OS; easy.
  - (* [s] stays *)
    assert (S1 : strm D cp1 s) by (exists t0; apply TR1; now left).
    assert (Q : forall d, D s = Some d -> exists q, cp1 q = Some s).
    { intros d Hd. destruct S1 as [t W]. destruct t as [q|s3]; [now exists q|]. destruct W as [W _]. apply F in W. congruence. }
    assert (OT : forall o t, o <> s -> (wants D cp t o <-> wants D cp1 t o)).
    { intros o t N1. split; intro W.
      - apply (wants_left D cp p s t o F O W); [tauto|]. intros ->. destruct W as [W _]. now apply (Q o).
      - apply (wants_less D cp p s t o F O W). }
    assert (OS : forall o, o <> s -> (strm D cp o <-> strm D cp1 o)).
    { intros o N1. split; intros [t W]; exists t; apply (OT o t N1); easy. }
    assert (S0' : strm D cp s).
    { destruct S1 as [t W]. exists t. apply (wants_less D cp p s t s F O W). }
    eexists _, []. split; [reflexivity|].
    match goal with |- PInv _ _ _ ?pr _ /\ _ => set (pr' := pr) end.
    assert (PR : forall o, pr' o = if Nat.eqb o s then Some (Entry (e_held e) (e_num e) (e_read e) (t0 :: tr0)) else prod x o).
    { intro o. unfold pr', upd. destruct (Nat.eqb_spec o s); easy. }
    clearbody pr'. split; [constructor|split; [|split]].
    + intros o u. rewrite PR. destruct (Nat.eqb_spec o s) as [->|N1].
      * intros [= <-] t. apply TR1.
      * intros H t. rewrite (pi_trig _ _ _ _ _ P o u H t). now apply OT.
    + intros o. rewrite PR. destruct (Nat.eqb_spec o s) as [->|N1]; [easy|].
      intros H t. rewrite <- OT by easy. apply (pi_none _ _ _ _ _ P o H).
    + intros o u. rewrite PR. destruct (Nat.eqb_spec o s) as [->|N1].
      * intros [= <-]. apply (pi_num _ _ _ _ _ P s e E).
      * apply (pi_num _ _ _ _ _ P o).
    + assert (QQ : forall o u, pr' o = Some u -> exists w, prod x o = Some w /\ e_num w = e_num u).
      { intros o u. rewrite PR. destruct (Nat.eqb_spec o s) as [->|N1].
        - intros [= <-]. now exists e.
        - intro H. now exists u. }
      intros o o' u u' H H' K. destruct (QQ o u H) as [w [A B]]. destruct (QQ o' u' H') as [w' [A' B']].
      apply (pi_inj _ _ _ _ _ P o o' w w' A A'). congruence.
    + intros o u. rewrite PR. destruct (Nat.eqb_spec o s) as [->|N1].
      * intros [= <-]. cbn [e_read]. rewrite (pi_read _ _ _ _ _ P s e E). tauto.
      * intro H. rewrite <- OS by easy. apply (pi_read _ _ _ _ _ P o u H).
    + intros o u. rewrite PR. destruct (Nat.eqb_spec o s) as [->|N1].
      * intros [= <-]. cbn [e_held]. rewrite (pi_held _ _ _ _ _ P s e E). tauto.
      * intro H. rewrite <- OS by easy. apply (pi_held _ _ _ _ _ P o u H).
    + intro o. unfold nums. rewrite PR. destruct (Nat.eqb_spec o s) as [->|N1]; [now rewrite E|easy].
    + intro o. cbn [In]. split; [easy|]. intros [[->|Hd] N]; apply N; [easy|].
      destruct (Q o Hd) as [q K]. exists (TSig s). split; [easy|]. now exists q.
    + intros o H. left. destruct (Nat.eq_dec o s); [now subst|]. apply OS; easy.
Qed.

Definition nums_ext (nm nm' : sig -> option num) : Prop := forall o n, nm o = Some n -> nm' o = Some n.

Lemma register_ok x cp X s : PInv (dom x) cp X (prod x) (ctr x) ->
  exists pr' c', register s x = St (dom x) pr' c' (cport x) (mirrors x) (sport x) (up x) (down x) /\
    PInv (dom x) cp (s :: X) pr' c' /\ nums_ext (nums (prod x)) (nums pr') /\ (exists e, pr' s = Some e).
Proof.
  intro P. unfold register. destruct (prod x s) as [e|] eqn:E.
  - eexists _, _. split; [reflexivity|].
    match goal with |- PInv _ _ _ ?pr _ /\ _ => set (pr' := pr) end.
    assert (PR : forall o, pr' o = if Nat.eqb o s then Some (Entry true (e_num e) (e_read e) (e_trig e)) else prod x o) by easy.
    clearbody pr'. split; [constructor|split].
    + intros o u. rewrite PR. destruct (Nat.eqb_spec o s) as [->|N]; [|apply (pi_trig _ _ _ _ _ P)].
      intros [= <-]. apply (pi_trig _ _ _ _ _ P s e E).
    + intros o. rewrite PR. destruct (Nat.eqb_spec o s) as [->|N]; [easy|apply (pi_none _ _ _ _ _ P)].
    + intros o u. rewrite PR. destruct (Nat.eqb_spec o s) as [->|N]; [|apply (pi_num _ _ _ _ _ P)].
      intros [= <-]. apply (pi_num _ _ _ _ _ P s e E).
    + assert (QQ : forall o u, pr' o = Some u -> exists w, prod x o = Some w /\ e_num w = e_num u).
      { intros o u. rewrite PR. destruct (Nat.eqb_spec o s) as [->|N1].
        - intros [= <-]. now exists e.
        - intro H. now exists u. }
      intros o o' u u' H H' K. destruct (QQ o u H) as [w [A B]]. destruct (QQ o' u' H') as [w' [A' B']].
      apply (pi_inj _ _ _ _ _ P o o' w w' A A'). congruence.
    + intros o u. rewrite PR. destruct (Nat.eqb_spec o s) as [->|N]; [|apply (pi_read _ _ _ _ _ P)].
      intros [= <-]. apply (pi_read _ _ _ _ _ P s e E).
    + intros o u. rewrite PR. cbn [In]. destruct (Nat.eqb_spec o s) as [->|N].
      * intros [= <-]. cbn [e_held]. tauto.
      * intro H. rewrite (pi_held _ _ _ _ _ P o u H). intuition congruence.
    + intros o n. unfold nums. rewrite PR. destruct (Nat.eqb_spec o s) as [->|N]; [now rewrite E|easy].
    + exists (Entry true (e_num e) (e_read e) (e_trig e)). rewrite PR. now rewrite Nat.eqb_refl.
  - eexists _, _. split; [reflexivity|].
    match goal with |- PInv _ _ _ ?pr _ /\ _ => set (pr' := pr) end.
    assert (PR : forall o, pr' o = if Nat.eqb o s then Some (Entry true (S (ctr x)) false []) else prod x o) by easy.
    clearbody pr'. pose proof (pi_none _ _ _ _ _ P s E) as NW.
    assert (NS : ~ strm (dom x) cp s) by (intros [t W]; eapply NW; eauto).
    split; [constructor|split].
    + intros o u. rewrite PR. destruct (Nat.eqb_spec o s) as [->|N]; [|apply (pi_trig _ _ _ _ _ P)].
      intros [= <-] t. cbn [e_trig In]. split; [easy|]. apply NW.
    + intros o. rewrite PR. destruct (Nat.eqb_spec o s) as [->|N]; [easy|apply (pi_none _ _ _ _ _ P)].
    + intros o u. rewrite PR. destruct (Nat.eqb_spec o s) as [->|N].
      * intros [= <-]. easy.
      * intro H. pose proof (pi_num _ _ _ _ _ P o u H). lia.
    + intros o o' u u'. rewrite !PR. destruct (Nat.eqb_spec o s) as [->|N], (Nat.eqb_spec o' s) as [->|N']; try easy.
      * intros [= <-] H K. pose proof (pi_num _ _ _ _ _ P o' u' H). cbn [e_num] in K. lia.
      * intros H [= <-] K. pose proof (pi_num _ _ _ _ _ P o u H). cbn [e_num] in K. lia.
      * apply (pi_inj _ _ _ _ _ P).
    + intros o u. rewrite PR. destruct (Nat.eqb_spec o s) as [->|N]; [|apply (pi_read _ _ _ _ _ P)].
      intros [= <-]. cbn [e_read]. easy.
    + intros o u. rewrite PR. cbn [In]. destruct (Nat.eqb_spec o s) as [->|N].
      * intros [= <-]. cbn [e_held]. tauto.
      * intro H. rewrite (pi_held _ _ _ _ _ P o u H). intuition congruence.
    + intros o n. unfold nums. rewrite PR. destruct (Nat.eqb_spec o s) as [->|N]; [now rewrite E|easy].
    + exists (Entry true (S (ctr x)) false []). rewrite PR. now rewrite Nat.eqb_refl.
Qed.

Lemma add_trigger_ok x s t e : prod x s = Some e -> e_held e = true ->
  exists e', add_trigger rd s t x = (set_prod x (upd (prod x) s (Some e')), Done) /\
    e_held e' = true /\ e_num e' = e_num e /\ (forall u, In u (e_trig e') <-> In u (e_trig e) \/ u = t) /\
    (e_read e' = true <-> (e_trig e = [] /\ rd = true) \/ (e_trig e <> [] /\ e_read e = true)).
Proof.
  intros E H. unfold add_trigger. rewrite E. rewrite H. cbn [negb]. rewrite !andb_false_r.
  eexists. split; [reflexivity|]. cbn [e_held e_num e_trig e_read]. split; [easy|]. split; [easy|]. split.
  - intro u. destruct (existsb (trig_eqb t) (e_trig e)) eqn:K.
    + apply existsb_exists in K. destruct K as [v [A B]]. destruct (trig_eqb_spec t v) as [<-|]; [|easy].
      intuition congruence.
    + rewrite in_app_iff. cbn [In]. intuition congruence.
  - destruct (e_trig e); intuition congruence.
Qed.

(** what connecting [s] to the free port [p] adds to the wishes *)
Lemma wants_more D cp p s (cp2 := upd cp p (Some s)) t o : cp p = None ->
  (wants D cp2 t o <-> wants D cp t o \/ (o = s /\ t = TPort p) \/ (D s = Some o /\ t = TSig s)).
Proof.
  intro N. subst cp2. destruct t as [q|s2]; cbn [wants].
  - unfold upd. destruct (Nat.eqb_spec q p) as [->|K]; [rewrite N|]; intuition congruence.
  - split.
    + intros [H [q K]]. unfold upd in K. destruct (Nat.eqb_spec q p) as [Eq|J].
      * right. right. split; congruence.
      * left. split; [easy|]. now exists q.
    + intros [[H [q K]]|[[_ K]|[H [= ->]]]]; [|easy|].
      * split; [easy|]. exists q. unfold upd. destruct (Nat.eqb_spec q p) as [->|J]; congruence.
      * split; [easy|]. exists p. apply upd_same.
Qed.

Lemma add_connection_ok x cp X s p : flat (dom x) -> PInv (dom x) cp X (prod x) (ctr x) -> cp p = None ->
  (forall o, In o X <-> o = s \/ dom x s = Some o) -> (forall o, In o X -> exists e, prod x o = Some e) ->
  exists pr', add_connection rd s p x = (set_prod x pr', Done) /\
    PInv (dom x) (upd cp p (Some s)) [] pr' (ctr x) /\ (forall o, nums pr' o = nums (prod x) o).
Proof.
  intros F P N HX R. set (D := dom x) in *. set (cp2 := upd cp p (Some s)).
  assert (WM : forall t o, wants D cp2 t o <-> wants D cp t o \/ (o = s /\ t = TPort p) \/ (D s = Some o /\ t = TSig s)).
  { intros t o. now apply wants_more. }
  destruct (R s) as [e E]; [apply HX; now left|].
  assert (He : e_held e = true) by (apply (pi_held _ _ _ _ _ P s e E); right; apply HX; now left).
  assert (NS : D s <> Some s) by (intro H; pose proof (F _ _ H); congruence).
  (* an entry that got its trigger *)
  assert (READ : forall o u t e', prod x o = Some u -> wants D cp2 t o ->
     (e_read e' = true <-> (e_trig u = [] /\ rd = true) \/ (e_trig u <> [] /\ e_read u = true)) ->
     (e_read e' = true <-> rd = true /\ strm D cp2 o)).
  { intros o u t e' Hu Hw ->. rewrite (pi_read _ _ _ _ _ P o u Hu). split.
    - intros [[_ A]|[_ [A _]]]; (split; [easy|now exists t]).
    - intros [A _]. destruct (e_trig u) as [|v l] eqn:EU; [tauto|]. right. split; [easy|]. split; [easy|].
      exists v. apply (pi_trig _ _ _ _ _ P o u Hu). rewrite EU. now left. }
  assert (COM : forall pr', (forall o u, pr' o = Some u -> exists w, prod x o = Some w /\ e_num w = e_num u /\
                    (forall t, In t (e_trig u) <-> wants D cp2 t o) /\ (e_read u = true <-> rd = true /\ strm D cp2 o) /\
                    (e_held u = true <-> strm D cp2 o)) ->
                 (forall o, pr' o = None -> prod x o = None /\ o <> s /\ D s <> Some o) ->
                 PInv D cp2 [] pr' (ctr x) /\ (forall o, nums pr' o = nums (prod x) o)).
  { intros pr' A B. split; [constructor|].
    - intros o u H. destruct (A o u H) as [w W]. apply W.
    - intros o H t W. destruct (B o H) as [H0 [N1 N2]]. apply WM in W.
      destruct W as [W|[[W _]|[W _]]]; try easy. now apply (pi_none _ _ _ _ _ P o H0 t).
    - intros o u H. destruct (A o u H) as [w [W [<- _]]]. apply (pi_num _ _ _ _ _ P o w W).
    - intros o o' u u' H H' K. destruct (A o u H) as [w [W [W1 _]]]. destruct (A o' u' H') as [w' [W' [W1' _]]].
      apply (pi_inj _ _ _ _ _ P o o' w w' W W'). congruence.
    - intros o u H. destruct (A o u H) as [w W]. apply W.
    - intros o u H. destruct (A o u H) as [w W]. cbn [In]. rewrite (proj2 (proj2 (proj2 (proj2 W)))). tauto.
    - intro o. unfold nums. destruct (pr' o) as [u|] eqn:H.
      + destruct (A o u H) as [w [W [W1 _]]]. rewrite W. cbn [option_map]. now f_equal.
      + destruct (B o H) as [H0 _]. now rewrite H0. }
  assert (OTH : forall o u, prod x o = Some u -> o <> s -> D s <> Some o ->
             (forall t, In t (e_trig u) <-> wants D cp2 t o) /\ (e_read u = true <-> rd = true /\ strm D cp2 o) /\
                    (e_held u = true <-> strm D cp2 o)).
  { intros o u H N1 N2. assert (W : forall t, wants D cp2 t o <-> wants D cp t o) by (intro t; rewrite WM; tauto).
    assert (T : strm D cp2 o <-> strm D cp o) by (split; intros [t Q]; exists t; now apply W).
    split; [|split].
    - intro t. rewrite W. apply (pi_trig _ _ _ _ _ P o u H).
    - rewrite T. apply (pi_read _ _ _ _ _ P o u H).
    - rewrite T. rewrite (pi_held _ _ _ _ _ P o u H). rewrite HX. tauto. }
  unfold add_connection. fold D. destruct (D s) as [d|] eqn:DS.
  - assert (Nd : d <> s) by (intros ->; now apply NS).
    destruct (R d) as [ed Ed]; [apply HX; now right|].
    assert (Hd : e_held ed = true) by (apply (pi_held _ _ _ _ _ P d ed Ed); right; apply HX; now right).
    destruct (add_trigger_ok x d (TSig s) ed Ed Hd) as [ed' [R1 [A1 [A2 [A3 A4]]]]]. rewrite R1.
    edestruct (add_trigger_ok (set_prod x (upd (prod x) d (Some ed'))) s (TPort p) e) as [e' [R2 [B1 [B2 [B3 B4]]]]].
    { cbn [prod set_prod]. rewrite upd_other by congruence. exact E. }
    { exact He. }
    rewrite R2. eexists. split; [reflexivity|]. cbn [prod set_prod].
    apply COM.
    + intros o u. unfold upd. destruct (Nat.eqb_spec o s) as [->|N1]; [|destruct (Nat.eqb_spec o d) as [->|N2]].
      * intros [= <-]. exists e. split; [easy|]. split; [easy|].
        assert (WT : wants D cp2 (TPort p) s) by (apply WM; tauto).
        split; [|split].
        -- intro t. rewrite B3, WM. rewrite (pi_trig _ _ _ _ _ P s e E t). intuition congruence.
        -- apply (READ s e (TPort p)); easy.
        -- rewrite B1. split; [|easy]. intros _. now exists (TPort p).
      * intros [= <-]. exists ed. split; [easy|]. split; [easy|].
        assert (WT : wants D cp2 (TSig s) d) by (apply WM; tauto).
        split; [|split].
        -- intro t. rewrite A3, WM. rewrite (pi_trig _ _ _ _ _ P d ed Ed t). intuition congruence.
        -- apply (READ d ed (TSig s)); easy.
        -- rewrite A1. split; [|easy]. intros _. now exists (TSig s).
      * intro H. exists u. split; [easy|]. split; [easy|]. apply OTH; congruence.
    + intro o. unfold upd. destruct (Nat.eqb_spec o s) as [->|N1]; [easy|]. destruct (Nat.eqb_spec o d) as [->|N2]; [easy|].
      intro H. split; [easy|]. split; congruence.
  - destruct (add_trigger_ok x s (TPort p) e E He) as [e' [R2 [B1 [B2 [B3 B4]]]]].
    rewrite R2. eexists. split; [reflexivity|].
    apply COM.
    + intros o u. unfold upd. destruct (Nat.eqb_spec o s) as [->|N1].
      * intros [= <-]. exists e. split; [easy|]. split; [easy|].
        assert (WT : wants D cp2 (TPort p) s) by (apply WM; tauto).
        split; [|split].
        -- intro t. rewrite B3, WM. rewrite (pi_trig _ _ _ _ _ P s e E t). intuition congruence.
        -- apply (READ s e (TPort p)); easy.
        -- rewrite B1. split; [|easy]. intros _. now exists (TPort p).
      * intro H. exists u. split; [easy|]. split; [easy|]. apply OTH; congruence.
    + intro o. unfold upd. destruct (Nat.eqb_spec o s) as [->|N1]; [easy|].
      intro H. split; [easy|]. split; congruence.
Qed.
End Client.

(** the device *)
Definition dom_num (D : sig -> option sig) (nm : sig -> option num) (g : list sig) (s : sig) : option num :=
  match D s with Some d => if existsb (Nat.eqb d) g then None else nm d | None => None end.
Record SInv (D : sig -> option sig) (nm : sig -> option num) (g : list sig) (M : sig -> Prop) (cps : port -> sig -> Prop)
  (mir : num -> option mirror) (sp : list (port * num)) : Prop := mkS {
  sg_mir : forall n m, mir n = Some m <-> exists s, nm s = Some n /\ M s /\ m = Mirror s (dom_num D nm g s);
  sg_sp : forall p n, In (p, n) sp <-> exists s, cps p s /\ nm s = Some n;
  sg_cps : forall p s, cps p s -> M s;
  sg_nm : forall s, M s -> exists n, nm s = Some n;
  sg_closed : forall s d, M s -> D s = Some d -> M d \/ In d g;
  sg_nodup : NoDup (map fst sp) }.
Definition inj (nm : sig -> option num) : Prop := forall s s' n, nm s = Some n -> nm s' = Some n -> s = s'.

Lemma SInv_iff D nm g M M' cps cps' mir sp : (forall s, M s <-> M' s) -> (forall p s, cps p s <-> cps' p s) ->
  SInv D nm g M cps mir sp -> SInv D nm g M' cps' mir sp.
Proof.
  intros EM EC H. constructor.
  - intros n m. rewrite (sg_mir _ _ _ _ _ _ _ H). split; intros [s K]; exists s; specialize (EM s); tauto.
  - intros p n. rewrite (sg_sp _ _ _ _ _ _ _ H). split; intros [s K]; exists s; specialize (EC p s); tauto.
  - intros p s K. apply EM. apply EC in K. now apply (sg_cps _ _ _ _ _ _ _ H p).
  - intros s K. apply EM in K. now apply (sg_nm _ _ _ _ _ _ _ H).
  - intros s d K E. apply EM in K. destruct (sg_closed _ _ _ _ _ _ _ H s d K E); [left; now apply EM|now right].
  - apply (sg_nodup _ _ _ _ _ _ _ H).
Qed.
Lemma SInv_ext D nm nm' M cps mir sp : nums_ext nm nm' -> SInv D nm [] M cps mir sp -> SInv D nm' [] M cps mir sp.
Proof.
  intros X H.
  assert (Q : forall s, M s -> nm' s = nm s).
  { intros s K. destruct (sg_nm _ _ _ _ _ _ _ H s K) as [n A]. now rewrite A, (X s n A). }
  assert (DN : forall s, M s -> dom_num D nm' [] s = dom_num D nm [] s).
  { intros s K. unfold dom_num. destruct (D s) as [d|] eqn:E; [|easy]. cbn [existsb].
    destruct (sg_closed _ _ _ _ _ _ _ H s d K E) as [A|[]]. now apply Q. }
  constructor.
  - intros n m. rewrite (sg_mir _ _ _ _ _ _ _ H). split; intros [s [A [B C]]]; exists s.
    + rewrite DN by easy. rewrite Q by easy. easy.
    + rewrite DN in C by easy. rewrite Q in A by easy. easy.
  - intros p n. rewrite (sg_sp _ _ _ _ _ _ _ H). split; intros [s [A B]]; exists s; (split; [easy|]).
    + rewrite Q; [easy|]. now apply (sg_cps _ _ _ _ _ _ _ H p).
    + rewrite Q in B; [easy|]. now apply (sg_cps _ _ _ _ _ _ _ H p).
  - apply (sg_cps _ _ _ _ _ _ _ H).
  - intros s K. rewrite Q by easy. now apply (sg_nm _ _ _ _ _ _ _ H).
  - apply (sg_closed _ _ _ _ _ _ _ H).
  - apply (sg_nodup _ _ _ _ _ _ _ H).
Qed.

Lemma nodup_filter_fst (f : port * num -> bool) l : NoDup (map fst l) -> NoDup (map fst (filter f l)).
Proof.
  induction l as [|a l IH]; [easy|]. cbn [map filter]. intro H. inversion H; subst.
  destruct (f a); [|now apply IH]. cbn [map]. constructor; [|now apply IH].
  intro K. apply in_map_iff in K. destruct K as [b [E K]]. apply filter_In in K. apply H2. rewrite <- E. apply in_map. easy.
Qed.

Lemma server_remove_ok x D nm g M cps s0 n : inj nm -> nm s0 = Some n ->
  SInv D nm g M cps (mirrors x) (sport x) ->
  exists mir' sp' dn, server_remove n x = St (dom x) (prod x) (ctr x) (cport x) mir' sp' (up x) (down x ++ dn) /\
    (forall p, In p dn <-> cps p s0) /\
    SInv D nm (s0 :: g) (fun s => M s /\ s <> s0) (fun p s => cps p s /\ s <> s0) mir' sp'.
Proof.
  intros J Hn H. unfold server_remove. destruct (mirrors x n) as [m0|] eqn:E0.
  - (* it is there *)
    assert (M0 : M s0).
    { apply (sg_mir _ _ _ _ _ _ _ H) in E0. destruct E0 as [s [A [B _]]]. now rewrite (J s0 s n Hn A). }
    eexists _, _, _. split; [reflexivity|]. split; [|constructor].
    + intro p. rewrite in_map_iff. split.
      * intros [[q k] [E K]]. cbn [fst] in E. subst q. apply filter_In in K. destruct K as [K L]. cbn [snd] in L.
        apply Nat.eqb_eq in L. subst k. apply (sg_sp _ _ _ _ _ _ _ H) in K. destruct K as [s [A B]].
        now rewrite (J s0 s n Hn B).
      * intro K. exists (p, n). split; [easy|]. apply filter_In. split; [|apply Nat.eqb_refl].
        apply (sg_sp _ _ _ _ _ _ _ H). now exists s0.
    + intros k m. destruct (Nat.eqb_spec k n) as [->|N].
      * split; [easy|]. intros [s [A [[_ B] _]]]. exfalso. apply B. now apply (J s s0 n).
      * assert (CL : forall s, M s -> s <> s0 ->
           (match dom_num D nm g s with Some k0 => if Nat.eqb k0 n then Mirror s None else Mirror s (dom_num D nm g s) | None => Mirror s (dom_num D nm g s) end)
              = Mirror s (dom_num D nm (s0 :: g) s)).
        { intros s K1 K2. unfold dom_num. destruct (D s) as [d|] eqn:Ed; [|easy]. cbn [existsb].
          destruct (existsb (Nat.eqb d) g) eqn:G; [now rewrite orb_true_r|].
          destruct (Nat.eqb_spec d s0) as [->|Nd].
          - cbn [orb]. rewrite Hn. now rewrite Nat.eqb_refl.
          - cbn [orb]. destruct (nm d) as [k0|] eqn:Kd; [|easy]. destruct (Nat.eqb_spec k0 n) as [->|]; [|easy].
            exfalso. apply Nd. now apply (J d s0 n). }
        split.
        -- destruct (mirrors x k) as [m1|] eqn:E1; [|easy]. cbn [option_map]. intros [= <-].
           apply (sg_mir _ _ _ _ _ _ _ H) in E1. destruct E1 as [s [A [B ->]]]. exists s. split; [easy|].
           assert (s <> s0) by (intros ->; congruence). split; [easy|]. cbn [m_dom m_sig]. now apply CL.
        -- intros [s [A [[B B'] ->]]].
           assert (E1 : mirrors x k = Some (Mirror s (dom_num D nm g s))) by (apply (sg_mir _ _ _ _ _ _ _ H); exists s; easy).
           rewrite E1. cbn [option_map m_dom m_sig]. f_equal. now apply CL.
    + intros p k. rewrite filter_In. cbn [snd]. rewrite (sg_sp _ _ _ _ _ _ _ H). split.
      * intros [[s [A B]] C]. exists s. split; [|easy]. split; [easy|]. intros ->.
        rewrite Hn in B. injection B as ->. now rewrite Nat.eqb_refl in C.
      * intros [s [[A B] C]]. split; [now exists s|]. destruct (Nat.eqb_spec k n) as [->|]; [|easy].
        exfalso. apply B. now apply (J s s0 n).
    + intros p s [A B]. split; [|easy]. now apply (sg_cps _ _ _ _ _ _ _ H p).
    + intros s [A B]. now apply (sg_nm _ _ _ _ _ _ _ H).
    + intros s d [A B] E. cbn [In]. destruct (sg_closed _ _ _ _ _ _ _ H s d A E) as [K|K]; [|tauto].
      destruct (Nat.eq_dec d s0) as [->|]; tauto.
    + apply nodup_filter_fst. apply (sg_nodup _ _ _ _ _ _ _ H).
  - (* it is not *)
    assert (M0 : ~ M s0).
    { intro K. assert (mirrors x n = Some (Mirror s0 (dom_num D nm g s0))) by (apply (sg_mir _ _ _ _ _ _ _ H); exists s0; easy).
      congruence. }
    assert (ND : forall s, M s -> D s = Some s0 -> In s0 g).
    { intros s A B. destruct (sg_closed _ _ _ _ _ _ _ H s s0 A B); [now elim M0|easy]. }
    exists (mirrors x), (sport x), []. split; [rewrite app_nil_r; now destruct x|]. split.
    + intro p. cbn [In]. split; [easy|]. intro K. apply M0. now apply (sg_cps _ _ _ _ _ _ _ H p).
    + assert (CL : forall s, M s -> dom_num D nm (s0 :: g) s = dom_num D nm g s).
      { intros s K. unfold dom_num. destruct (D s) as [d|] eqn:Ed; [|easy]. cbn [existsb].
        destruct (Nat.eqb_spec d s0) as [->|Nd]; [|easy]. cbn [orb].
        pose proof (ND s K Ed) as G. assert (existsb (Nat.eqb s0) g = true) as ->; [|easy].
        apply existsb_exists. exists s0. split; [easy|apply Nat.eqb_refl]. }
      constructor.
      * intros k m. rewrite (sg_mir _ _ _ _ _ _ _ H). split.
        -- intros [s [A [B ->]]]. exists s. rewrite CL by easy. split; [easy|]. split; [|easy]. split; [easy|].
           intros ->. easy.
        -- intros [s [A [[B B'] ->]]]. exists s. rewrite CL by easy. easy.
      * intros p k. rewrite (sg_sp _ _ _ _ _ _ _ H). split.
        -- intros [s [A B]]. exists s. split; [|easy]. split; [easy|]. intros ->. apply M0. now apply (sg_cps _ _ _ _ _ _ _ H p).
        -- intros [s [[A _] B]]. now exists s.
      * intros p s [A B]. split; [|easy]. now apply (sg_cps _ _ _ _ _ _ _ H p).
      * intros s [A B]. now apply (sg_nm _ _ _ _ _ _ _ H).
      * intros s d [A B] E. cbn [In]. destruct (sg_closed _ _ _ _ _ _ _ H s d A E) as [K|K]; [|tauto].
        destruct (Nat.eq_dec d s0) as [->|]; tauto.
      * apply (sg_nodup _ _ _ _ _ _ _ H).
Qed.

Definition num_at (nm : sig -> option num) (o : sig) : num := match nm o with Some n => n | None => 0 end.
Lemma server_removes D nm U : inj nm -> (forall o, In o U -> exists n, nm o = Some n) -> forall g M cps x,
  SInv D nm g M cps (mirrors x) (sport x) ->
  exists g' mir' sp' dn, fold_left (fun x n => server_remove n x) (map (num_at nm) U) x =
      St (dom x) (prod x) (ctr x) (cport x) mir' sp' (up x) (down x ++ dn) /\
    (forall p, In p dn <-> exists s, In s U /\ cps p s) /\ (forall d, In d g' <-> In d g \/ In d U) /\
    SInv D nm g' (fun s => M s /\ ~ In s U) (fun p s => cps p s /\ ~ In s U) mir' sp'.
Proof.
  intro J. induction U as [|u U IH]; intros R g M cps x H.
  - exists g, (mirrors x), (sport x), []. cbn [map fold_left]. split; [rewrite app_nil_r; now destruct x|].
    split; [intro p; cbn [In]; split; [easy|intros [s [[] _]]]|]. split; [intro d; cbn [In]; tauto|].
    eapply SInv_iff; [| |exact H]; cbn [In]; intros; tauto.
  - cbn [map fold_left]. destruct (R u (or_introl eq_refl)) as [n Hn].
    assert (E : num_at nm u = n) by (unfold num_at; now rewrite Hn). rewrite E.
    destruct (server_remove_ok x D nm g M cps u n J Hn H) as [mir1 [sp1 [dn1 [-> [DN1 H1]]]]].
    destruct (IH (fun o K => R o (or_intror K)) _ _ _
       (St (dom x) (prod x) (ctr x) (cport x) mir1 sp1 (up x) (down x ++ dn1)) H1) as [g' [mir' [sp' [dn [-> [DN [G H2]]]]]]].
    exists g', mir', sp', (dn1 ++ dn). cbn [dom prod ctr cport up down]. split; [now rewrite app_assoc|]. split; [|split].
    + intro p. rewrite in_app_iff, DN1, DN. cbn [In]. split.
      * intros [K|[s [A [B C]]]]; [exists u; tauto|exists s; tauto].
      * intros [s [[<-|A] B]]; [now left|]. destruct (Nat.eq_dec s u) as [->|N]; [now left|]. right. exists s. tauto.
    + intro d. rewrite G. cbn [In]. intuition.
    + eapply SInv_iff; [| |exact H2]; cbn beta; intros; cbn [In]; intuition.
Qed.

(** the messages of one disconnect *)
Definition msg (nm : sig -> option num) (U : list sig) : list (list num) :=
  match U with [] => [] | _ => [map (num_at nm) U] end.

Section Steps.
Variable rd : bool.
Notation P := (PInv rd).

Lemma P_inj D cp X pr c : P D cp X pr c -> inj (nums pr).
Proof.
  intros H s s' n A B. unfold nums in *. destruct (pr s) as [e|] eqn:E; [|easy]. destruct (pr s') as [e'|] eqn:E'; [|easy].
  cbn [option_map] in *. apply (pi_inj _ _ _ _ _ _ H s s' e e' E E'). congruence.
Qed.
Lemma P_strm D cp X pr c s : P D cp X pr c -> strm D cp s -> exists e, pr s = Some e.
Proof. intros H [t W]. destruct (pr s) as [e|] eqn:E; [now exists e|]. exfalso. now apply (pi_none _ _ _ _ _ _ H s E t). Qed.
Lemma P_nums D cp X pr c pr' : P D cp X pr c -> (forall o, nums pr' o = nums pr o) ->
  forall s, (exists e, pr s = Some e) -> exists e, pr' s = Some e.
Proof.
  intros H N s [e E]. specialize (N s). unfold nums in N. rewrite E in N. destruct (pr' s) as [e'|]; [now exists e'|easy].
Qed.

Lemma disc_ok x cp X s p (D := dom x) (cp1 := upd cp p None) :
  flat D -> P D cp X (prod x) (ctr x) -> (forall s', cp p = Some s' -> s' = s) ->
  (exists e, prod x s = Some e) -> (forall d, D s = Some d -> exists e, prod x d = Some e) ->
  (forall o, In o X -> o = s \/ D s = Some o -> strm D cp1 o) ->
  exists pr' U, disconnect_external rd s p x =
      (St (dom x) pr' (ctr x) (cport x) (mirrors x) (sport x) (up x ++ msg (nums pr') U) (down x), Done) /\
    P D cp1 X pr' (ctr x) /\ (forall o, nums pr' o = nums (prod x) o) /\ freed D cp1 s U /\
    (forall o, strm D cp o -> strm D cp1 o \/ In o U).
Proof.
  intros F H O R RD SF. unfold disconnect_external.
  destruct (remove_ok rd x cp X s p (ctr x) F H O R RD SF) as [pr' [U [E [H' [N [FR ST]]]]]].
  rewrite E. exists pr', U. split; [|easy].
  assert (EM : map (num_at (nums pr')) U = map (fun o => match nums (prod x) o with Some n => n | None => 0 end) U).
  { apply map_ext. intro o. unfold num_at. now rewrite N. }
  unfold msg. destruct U as [|u U]; [cbn [map]; rewrite app_nil_r; easy|]. rewrite EM. cbn [map]. easy.
Qed.

Lemma nulls p dn : (forall q, In q dn -> q = p) -> forall y, cport y p = None ->
  exists cp', fold_left (fun x q => fst (assign_null rd q x)) dn y = set_cport y cp' /\ forall q, cp' q = cport y q.
Proof.
  induction dn as [|q dn IH]; intros A y N.
  - exists (cport y). split; [now destruct y|easy].
  - cbn [fold_left]. rewrite (A q (or_introl eq_refl)). unfold assign_null at 2. rewrite N. cbn [fst].
    destruct (IH (fun q K => A q (or_intror K)) (set_cport y (upd (cport y) p None))) as [cp' [E K]].
    { cbn [cport set_cport]. apply upd_same. }
    exists cp'. split; [exact E|]. intro r. rewrite K. cbn [cport set_cport]. unfold upd.
    destruct (Nat.eqb_spec r p) as [->|]; [now rewrite N|easy].
Qed.

Record Inv (x : st) : Prop := mkInv {
  iv_flat : flat (dom x);
  iv_p : P (dom x) (cport x) [] (prod x) (ctr x);
  iv_s : SInv (dom x) (nums (prod x)) [] (strm (dom x) (cport x)) (fun p s => cport x p = Some s) (mirrors x) (sport x);
  iv_up : up x = [];
  iv_down : down x = [] }.

Lemma server_all_msg x nm U : up x = msg nm U ->
  server_all x = fold_left (fun x n => server_remove n x) (map (num_at nm) U)
    (St (dom x) (prod x) (ctr x) (cport x) (mirrors x) (sport x) [] (down x)).
Proof. intro E. unfold server_all. rewrite E. unfold msg. destruct U; easy. Qed.

Lemma to_nil D nm g (M : sig -> Prop) cps mir sp : (forall s d, M s -> D s = Some d -> ~ In d g) ->
  SInv D nm g M cps mir sp -> SInv D nm [] M cps mir sp.
Proof.
  intros A H.
  assert (DN : forall s, M s -> dom_num D nm g s = dom_num D nm [] s).
  { intros s K. unfold dom_num. destruct (D s) as [d|] eqn:E; [|easy]. cbn [existsb].
    destruct (existsb (Nat.eqb d) g) eqn:G; [|easy]. apply existsb_exists in G. destruct G as [d' [G1 G2]].
    apply Nat.eqb_eq in G2. subst d'. exfalso. now apply (A s d). }
  constructor.
  - intros n m. rewrite (sg_mir _ _ _ _ _ _ _ H). split; intros [s [B [C E]]]; exists s.
    + now rewrite <- DN.
    + now rewrite DN.
  - apply (sg_sp _ _ _ _ _ _ _ H).
  - apply (sg_cps _ _ _ _ _ _ _ H).
  - apply (sg_nm _ _ _ _ _ _ _ H).
  - intros s d K E. left. destruct (sg_closed _ _ _ _ _ _ _ H s d K E); [easy|]. exfalso. now apply (A s d).
  - apply (sg_nodup _ _ _ _ _ _ _ H).
Qed.

(** a signal with a domain is needed only for a port *)
Lemma strm_port D cp s d : flat D -> D s = Some d -> strm D cp s -> strm D cp d.
Proof.
  intros F E [t W]. destruct t as [q|s2].
  - exists (TSig s). split; [easy|]. now exists q.
  - destruct W as [W _]. apply F in W. congruence.
Qed.

(** when the last message is on its way *)
Lemma settle_up x U (M : sig -> Prop) f : flat (dom x) -> P (dom x) (cport x) [] (prod x) (ctr x) ->
  SInv (dom x) (nums (prod x)) [] M (fun p s => cport x p = Some s) (mirrors x) (sport x) ->
  up x = msg (nums (prod x)) U -> down x = [] ->
  (forall o, strm (dom x) (cport x) o -> M o) -> (forall o, M o -> strm (dom x) (cport x) o \/ In o U) ->
  (forall o, In o U -> ~ strm (dom x) (cport x) o /\ exists n, nums (prod x) o = Some n) ->
  Inv (settle rd (S (S f)) x) /\ (forall s, dom (settle rd (S (S f)) x) s = dom x s) /\
  (forall p, cport (settle rd (S (S f)) x) p = cport x p).
Proof.
  intros F H SI EU ED M1 M2 HU.
  set (nm := nums (prod x)) in *. set (st := strm (dom x) (cport x)) in *.
  destruct (server_removes (dom x) nm U (P_inj _ _ _ _ _ H) (fun o K => proj2 (HU o K)) [] M
      (fun p s => cport x p = Some s) (St (dom x) (prod x) (ctr x) (cport x) (mirrors x) (sport x) [] (down x)) SI)
    as [g [mir [sp [dn [E [DN [G S1]]]]]]].
  assert (D0 : dn = []).
  { destruct dn as [|q dn]; [easy|]. exfalso. destruct (proj1 (DN q) (or_introl eq_refl)) as [s [A B]].
    apply (proj1 (HU s A)). exists (TPort q). exact B. }
  subst dn.
  assert (SI' : SInv (dom x) nm [] st (fun p s => cport x p = Some s) mir sp).
  { apply (SInv_iff (dom x) nm [] (fun s => M s /\ ~ In s U) st (fun p s => cport x p = Some s /\ ~ In s U) (fun p s => cport x p = Some s)).
    - intro s. split.
      + intros [A B]. destruct (M2 s A); easy.
      + intro A. split; [now apply M1|]. intro B. now apply (HU s B).
    - intros p s. split; [easy|]. intro A. split; [easy|]. intro B. apply (HU s B). exists (TPort p). exact A.
    - eapply to_nil; [|exact S1]. cbn beta. intros s d [A B] Ed K. apply G in K. destruct K as [[]|K].
      destruct (M2 s A) as [A'|A']; [|easy]. apply (HU d K). eapply strm_port; eauto. }
  cbn [settle]. rewrite EU, ED. unfold msg. destruct U as [|u U].
  - split; [|easy]. constructor; try easy.
    apply (SInv_iff (dom x) nm [] M st (fun p s => cport x p = Some s) (fun p s => cport x p = Some s)); [|easy|exact SI].
    intro s. split; [|apply M1]. intro A. destruct (M2 s A) as [B|[]]. exact B.
  - rewrite (server_all_msg x nm (u :: U)) by (rewrite EU; reflexivity). rewrite E. cbn [dom prod ctr cport up down app].
    rewrite ED. unfold client_all. cbn [down dom prod ctr cport mirrors sport up app fold_left].
    split; [constructor; easy|easy].
Qed.

(** disconnecting *)
Lemma disc_client x p (y := client_all rd (server_disconnect p x)) : Inv x ->
  exists U (M : sig -> Prop), dom y = dom x /\ (forall q, cport y q = upd (cport x) p None q) /\
    P (dom x) (upd (cport x) p None) [] (prod y) (ctr y) /\
    SInv (dom x) (nums (prod y)) [] M (fun q s => upd (cport x) p None q = Some s) (mirrors y) (sport y) /\
    up y = msg (nums (prod y)) U /\ down y = [] /\
    (forall o, strm (dom x) (upd (cport x) p None) o -> M o) /\
    (forall o, M o -> strm (dom x) (upd (cport x) p None) o \/ In o U) /\
    (forall o, In o U -> ~ strm (dom x) (upd (cport x) p None) o /\ exists n, nums (prod y) o = Some n) /\
    (cport x p = None -> down (server_disconnect p x) = []).
Proof.
  intro IV. pose proof (iv_s _ IV) as SI. pose proof (iv_p _ IV) as H. pose proof (iv_flat _ IV) as F.
  set (dn := down (server_disconnect p x)) in *.
  assert (DN : forall q, In q dn <-> q = p /\ exists s, cport x p = Some s).
  { intro q. unfold dn, server_disconnect. cbn [down]. rewrite (iv_down _ IV). cbn [app]. rewrite in_map_iff. split.
    - intros [[q' n] [E K]]. cbn [fst] in E. subst q'. apply filter_In in K. destruct K as [K L]. cbn [fst] in L.
      apply Nat.eqb_eq in L. subst q. split; [easy|]. apply (sg_sp _ _ _ _ _ _ _ SI) in K. destruct K as [s [A _]]. now exists s.
    - intros [-> [s K]]. destruct (sg_nm _ _ _ _ _ _ _ SI s) as [n N]; [exists (TPort p); exact K|].
      exists (p, n). split; [easy|]. apply filter_In. split; [|apply Nat.eqb_refl]. apply (sg_sp _ _ _ _ _ _ _ SI). now exists s. }
  assert (SP : SInv (dom x) (nums (prod x)) [] (strm (dom x) (cport x)) (fun q s => upd (cport x) p None q = Some s)
                 (mirrors x) (filter (fun q => negb (Nat.eqb (fst q) p)) (sport x))).
  { constructor.
    - apply (sg_mir _ _ _ _ _ _ _ SI).
    - intros q n. rewrite filter_In. cbn [fst]. rewrite (sg_sp _ _ _ _ _ _ _ SI). unfold upd. destruct (Nat.eqb_spec q p) as [->|N].
      + split; [easy|]. intros [s [K _]]. easy.
      + split; [now intros [K _]|]. intro K. now split.
    - intros q s. unfold upd. destruct (Nat.eqb q p); [easy|]. apply (sg_cps _ _ _ _ _ _ _ SI).
    - apply (sg_nm _ _ _ _ _ _ _ SI).
    - apply (sg_closed _ _ _ _ _ _ _ SI).
    - apply nodup_filter_fst. apply (sg_nodup _ _ _ _ _ _ _ SI). }
  destruct (cport x p) as [s|] eqn:E.
  - (* it was connected *)
    destruct dn as [|q dn0] eqn:ED.
    { exfalso. assert (K : In p []) by (apply DN; eauto). destruct K. }
    assert (q = p) as -> by (apply DN; now left).
    assert (Ws : strm (dom x) (cport x) s) by (exists (TPort p); exact E).
    set (x1 := St (dom x) (prod x) (ctr x) (cport x) (mirrors x) (filter (fun q => negb (Nat.eqb (fst q) p)) (sport x)) (up x) []).
    destruct (disc_ok x1 (cport x) [] s p) as [pr' [U [R [H' [N [FR ST]]]]]].
    { exact F. } { exact H. } { intros s' K. congruence. } { cbn [x1 prod]. apply (P_strm _ _ _ _ _ s H Ws). }
    { intros d K. cbn [x1 prod]. apply (P_strm _ _ _ _ _ d H). eapply strm_port; eauto. } { intros o []. }
    set (x2 := St (dom x) pr' (ctr x) (upd (cport x) p None) (mirrors x) (sport x1) (msg (nums pr') U) []).
    assert (EY : y = fold_left (fun x q => fst (assign_null rd q x)) dn0 x2).
    { unfold y, client_all. fold dn in ED. change (down (server_disconnect p x)) with dn. rewrite ED.
      cbn [fold_left]. f_equal. unfold assign_null, server_disconnect. cbn [dom prod ctr cport mirrors sport up]. rewrite E.
      fold x1. rewrite R. cbn [fst set_cport dom prod ctr cport mirrors sport up down x1]. rewrite (iv_up _ IV). reflexivity. }
    destruct (nulls p dn0) with (y := x2) as [cp' [EY' CP]].
    { intros q K. apply DN. now right. } { cbn [x2 cport]. apply upd_same. }
    rewrite EY' in EY. rewrite EY. cbn [set_cport dom prod ctr cport mirrors sport up down x2 x1] in *.
    exists U, (strm (dom x) (cport x)).
    assert (XS : SInv (dom x) (nums pr') [] (strm (dom x) (cport x)) (fun q s => upd (cport x) p None q = Some s)
                 (mirrors x) (filter (fun q => negb (Nat.eqb (fst q) p)) (sport x))).
    { apply (SInv_ext (dom x) (nums (prod x))); [|exact SP]. intros o n K. now rewrite N. }
    do 6 (split; [easy|]). split; [|split; [exact ST|split; [|easy]]].
    + intros o [t W]. exists t. eapply (wants_less (dom x) (cport x) p s); eauto. intros s' K. congruence.
    + intros o K. pose proof (proj1 (FR o) K) as [A B]. split; [easy|]. rewrite N. apply (sg_nm _ _ _ _ _ _ _ SI).
      destruct A as [ ->|A]; [easy|]. eapply strm_port; eauto.
  - (* it was not *)
    assert (D0 : dn = []).
    { destruct dn as [|q dn0]; [easy|]. destruct (proj1 (DN q) (or_introl eq_refl)) as [_ [s K]]. congruence. }
    assert (EY : y = St (dom x) (prod x) (ctr x) (cport x) (mirrors x) (filter (fun q => negb (Nat.eqb (fst q) p)) (sport x)) [] []).
    { unfold y, client_all. change (down (server_disconnect p x)) with dn. rewrite D0. cbn [fold_left].
      unfold server_disconnect. cbn [dom prod ctr cport mirrors sport up]. now rewrite (iv_up _ IV). }
    rewrite EY. cbn [dom prod ctr cport mirrors sport up down].
    assert (CE : forall q, cport x q = upd (cport x) p None q).
    { intro q. unfold upd. destruct (Nat.eqb_spec q p) as [->|]; easy. }
    exists [], (strm (dom x) (cport x)). split; [easy|]. split; [exact CE|].
    split; [eapply PInv_ext; eauto|]. split; [exact SP|]. do 2 (split; [easy|]).
    split; [intro o; apply strm_ext; easy|]. split; [intros o K; left; eapply strm_ext; eauto|]. split; [intros o []|easy].
Qed.

(** the state after the client's part of a disconnect is settled *)
Lemma settle_after x y p U (M : sig -> Prop) f : flat (dom x) -> dom y = dom x -> (forall q, cport y q = upd (cport x) p None q) ->
    P (dom x) (upd (cport x) p None) [] (prod y) (ctr y) ->
    SInv (dom x) (nums (prod y)) [] M (fun q s => upd (cport x) p None q = Some s) (mirrors y) (sport y) ->
    up y = msg (nums (prod y)) U -> down y = [] ->
    (forall o, strm (dom x) (upd (cport x) p None) o -> M o) ->
    (forall o, M o -> strm (dom x) (upd (cport x) p None) o \/ In o U) ->
    (forall o, In o U -> ~ strm (dom x) (upd (cport x) p None) o /\ exists n, nums (prod y) o = Some n) ->
  Inv (settle rd (S (S f)) y) /\ (forall s, dom (settle rd (S (S f)) y) s = dom x s) /\
  (forall q, cport (settle rd (S (S f)) y) q = upd (cport x) p None q).
Proof.
  intros F ED EC H SI EU EDN A B C.
  assert (EC' : forall q, upd (cport x) p None q = cport y q) by (intro; now rewrite EC).
  assert (T : forall o, strm (dom x) (upd (cport x) p None) o <-> strm (dom y) (cport y) o).
  { intro o. rewrite ED. split; apply strm_ext; easy. }
  destruct (settle_up y U M f) as [K1 [K2 K3]].
  - now rewrite ED.
  - rewrite ED. eapply PInv_ext; eauto.
  - rewrite ED. eapply SInv_iff; [easy| |exact SI]. intros q s. cbn beta. now rewrite EC.
  - exact EU.
  - exact EDN.
  - intros o K. apply A. now apply T.
  - intros o K. destruct (B o K); [left; now apply T|now right].
  - intros o K. destruct (C o K) as [K1 K2]. split; [|easy]. now rewrite <- T.
  - split; [exact K1|]. split; [intro s; rewrite K2; now rewrite ED|]. intro q. rewrite K3. apply EC.
Qed.

Lemma step_disconnect x p : Inv x ->
  let '(x', r) := step rd (ODisconnect p) x in
  r = Done /\ Inv x' /\ (forall s, dom x' s = dom x s) /\ (forall q, cport x' q = upd (cport x) p None q).
Proof.
  intro IV. unfold step. split; [easy|].
  destruct (disc_client x p IV) as [U [M [ED [EC [H [SI [EU [EDN [A [B [C _]]]]]]]]]]].
  unfold disconnect. set (y := client_all rd (server_disconnect p x)) in *. cbn zeta.
  set (z := set_cport y (upd (cport y) p None)).
  assert (EZ : forall q, cport z q = upd (cport x) p None q).
  { intro q. unfold z. cbn [cport set_cport]. unfold upd at 1. destruct (Nat.eqb_spec q p) as [->|N]; [now rewrite upd_same|apply EC]. }
  apply (settle_after x z p U M (2 + ctr z + length (sport z))); try easy. apply (iv_flat _ IV).
Qed.
Lemma step_server_disconnect x p : Inv x ->
  let '(x', r) := step rd (OServerDisconnect p) x in
  r = Done /\ Inv x' /\ (forall s, dom x' s = dom x s) /\ (forall q, cport x' q = upd (cport x) p None q).
Proof.
  intro IV. unfold step. split; [easy|].
  destruct (disc_client x p IV) as [U [M [ED [EC [H [SI [EU [EDN [A [B [C Z]]]]]]]]]]].
  set (z := server_disconnect p x) in *. set (y := client_all rd z) in *.
  assert (ES : server_all z = z).
  { unfold server_all. assert (up z = []) as -> by (unfold z, server_disconnect; cbn [up]; apply (iv_up _ IV)).
    cbn [fold_left]. unfold z. destruct x as [a1 a2 a3 a4 a5 a6 a7 a8]. cbn [server_disconnect dom prod ctr cport mirrors sport up down]. f_equal.
    pose proof (iv_up _ IV) as U0. cbn [up] in U0. now rewrite U0. }
  assert (UZ : up z = []) by (unfold z, server_disconnect; cbn [up]; apply (iv_up _ IV)).
  destruct (down z) as [|q dn] eqn:DZ.
  - (* nothing was connected *)
    assert (EY : y = z).
    { unfold y, client_all. rewrite DZ. cbn [fold_left]. destruct z as [a1 a2 a3 a4 a5 a6 a7 a8]. cbn [dom prod ctr cport mirrors sport up down] in *. now subst. }
    apply (settle_after x z p U M (2 + ctr z + length (sport z))); try (rewrite <- EY; easy); try easy. apply (iv_flat _ IV).
  - change (4 + ctr z + length (sport z)) with (S (S (S (S (ctr z + length (sport z)))))).
    assert (E1 : forall f, settle rd (S f) z = settle rd f y).
    { intro f. unfold y. rewrite <- ES at 2. cbn [settle]. rewrite UZ, DZ. reflexivity. }
    rewrite E1. apply (settle_after x y p U M (S (ctr z + length (sport z)))); try easy. apply (iv_flat _ IV).
Qed.

Definition keep (n : num) (m : mirror) (mir : num -> option mirror) : num -> option mirror :=
  match mir n with Some _ => mir | None => upd mir n (Some m) end.
Lemma keep_ok D nm (M : sig -> Prop) cps mir sp s n : inj nm -> nm s = Some n -> (forall d, D s = Some d -> M d) ->
  SInv D nm [] M cps mir sp ->
  SInv D nm [] (fun o => M o \/ o = s) cps (keep n (Mirror s (dom_num D nm [] s)) mir) sp.
Proof.
  intros J N CL H. unfold keep. destruct (mir n) as [m|] eqn:E.
  - assert (Ms : M s).
    { apply (sg_mir _ _ _ _ _ _ _ H) in E. destruct E as [s' [A [B _]]]. now rewrite (J s s' n N A). }
    eapply SInv_iff; [| |exact H]; [|easy]. intro o. split; [now left|]. intros [A| ->]; easy.
  - assert (Ms : ~ M s).
    { intro K. assert (mir n = Some (Mirror s (dom_num D nm [] s))) by (apply (sg_mir _ _ _ _ _ _ _ H); now exists s). congruence. }
    constructor.
    + intros k m. unfold upd. destruct (Nat.eqb_spec k n) as [->|K].
      * split.
        -- intros [= <-]. exists s. split; [easy|]. split; [now right|easy].
        -- intros [o [A [_ ->]]]. now rewrite (J o s n A N).
      * rewrite (sg_mir _ _ _ _ _ _ _ H). split; intros [o [A [B ->]]]; exists o.
        -- split; [easy|]. split; [now left|easy].
        -- split; [easy|]. split; [|easy]. destruct B as [B| ->]; [easy|]. congruence.
    + apply (sg_sp _ _ _ _ _ _ _ H).
    + intros p o K. left. now apply (sg_cps _ _ _ _ _ _ _ H p).
    + intros o [A| ->]; [now apply (sg_nm _ _ _ _ _ _ _ H)|now exists n].
    + intros o d [A| ->] B; left; left; [|now apply CL].
      destruct (sg_closed _ _ _ _ _ _ _ H o d A B) as [K|[]]. exact K.
    + apply (sg_nodup _ _ _ _ _ _ _ H).
Qed.

Lemma get_or_add_ok x (M : sig -> Prop) cps s D (nm := nums (prod x)) : flat D -> inj nm ->
  (exists n, nm s = Some n) -> (forall d, D s = Some d -> exists n, nm d = Some n) ->
  SInv D nm [] M cps (mirrors x) (sport x) ->
  exists mir', get_or_add s (D s) x = St (dom x) (prod x) (ctr x) (cport x) mir' (sport x) (up x) (down x) /\
    SInv D nm [] (fun o => M o \/ o = s \/ D s = Some o) cps mir' (sport x).
Proof.
  intros F J [n N] RD H.
  assert (NO : forall o k, nm o = Some k -> forall y, prod y = prod x -> num_of o y = k).
  { intros o k K y E. unfold num_of. rewrite E. unfold nm, nums in K. destruct (prod x o); [|easy]. cbn [option_map] in K. congruence. }
  unfold get_or_add. destruct (D s) as [d|] eqn:DS.
  - destruct (RD d eq_refl) as [k K]. rewrite (NO d k K x eq_refl).
    pose proof (keep_ok D nm M cps (mirrors x) (sport x) d k J K) as H1.
    assert (Dd : D d = None) by (apply (F s); easy).
    assert (DN : dom_num D nm [] d = None) by (unfold dom_num; now rewrite Dd). rewrite DN in H1.
    specialize (H1 ltac:(congruence) H).
    set (x1 := match mirrors x k with Some _ => x | None => _ end).
    assert (X1 : x1 = St (dom x) (prod x) (ctr x) (cport x) (keep k (Mirror d None) (mirrors x)) (sport x) (up x) (down x)).
    { unfold x1, keep. destruct (mirrors x k); [now destruct x|reflexivity]. }
    clearbody x1. subst x1. cbn [mirrors]. rewrite (NO s n N) by reflexivity.
    pose proof (keep_ok D nm (fun o => M o \/ o = d) cps _ (sport x) s n J N ltac:(intros d' E'; right; congruence) H1) as H2.
    assert (DN2 : dom_num D nm [] s = Some k) by (unfold dom_num; rewrite DS; cbn [existsb]; exact K).
    rewrite DN2 in H2. cbn [option_map]. rewrite (NO d k K) by reflexivity.
    eexists (keep n (Mirror s (Some k)) (keep k (Mirror d None) (mirrors x))). split.
    + set (mk := keep k (Mirror d None) (mirrors x)). clearbody mk. unfold keep. destruct (mk n); reflexivity.
    + eapply SInv_iff; [| |exact H2]; [|easy]. intro o. cbn beta. split.
      * intros [[A|A]|A]; [tauto| |tauto]. subst. tauto.
      * intros [A|[A|A]]; [tauto|tauto|]. left. right. congruence.
  - rewrite (NO s n N x eq_refl). cbn [option_map].
    pose proof (keep_ok D nm M cps (mirrors x) (sport x) s n J N ltac:(congruence) H) as H1.
    assert (DN : dom_num D nm [] s = None) by (unfold dom_num; now rewrite DS). rewrite DN in H1.
    exists (keep n (Mirror s None) (mirrors x)). split.
    + unfold keep. destruct (mirrors x n); [now destruct x|reflexivity].
    + eapply SInv_iff; [| |exact H1]; [|easy]. intro o. cbn beta. split; [tauto|]. intros [A|[A|A]]; [tauto|tauto|easy].
Qed.

Lemma server_connect_ok D nm (M : sig -> Prop) cps mir sp p s n : nm s = Some n -> M s ->
  SInv D nm [] M cps mir sp ->
  SInv D nm [] M (fun q o => (q <> p /\ cps q o) \/ (q = p /\ o = s)) mir
    (filter (fun q => negb (Nat.eqb (fst q) p)) sp ++ [(p, n)]).
Proof.
  intros N Ms H. constructor.
  - apply (sg_mir _ _ _ _ _ _ _ H).
  - intros q k. rewrite in_app_iff, filter_In. cbn [fst In]. rewrite (sg_sp _ _ _ _ _ _ _ H). split.
    + intros [[[o [A B]] C]|[[= <- <-]|[]]].
      * exists o. split; [|easy]. left. split; [|easy]. intros ->. now rewrite Nat.eqb_refl in C.
      * exists s. split; [|easy]. now right.
    + intros [o [[[A B]|[-> ->]] C]].
      * left. split; [now exists o|]. destruct (Nat.eqb_spec q p); easy.
      * right. left. congruence.
  - intros q o [[_ A]|[_ ->]]; [|easy]. now apply (sg_cps _ _ _ _ _ _ _ H q).
  - apply (sg_nm _ _ _ _ _ _ _ H).
  - apply (sg_closed _ _ _ _ _ _ _ H).
  - rewrite map_app. cbn [map fst].
    assert (K : NoDup (map fst (filter (fun q => negb (Nat.eqb (fst q) p)) sp))) by (apply nodup_filter_fst; apply (sg_nodup _ _ _ _ _ _ _ H)).
    assert (L : ~ In p (map fst (filter (fun q => negb (Nat.eqb (fst q) p)) sp))).
    { intro Q. apply in_map_iff in Q. destruct Q as [[q k] [E Q]]. cbn [fst] in E. subst q. apply filter_In in Q. destruct Q as [_ Q].
      cbn [fst] in Q. now rewrite Nat.eqb_refl in Q. }
    clear -K L. induction (map fst _) as [|a l IH]; cbn [app].
    + constructor; [easy|constructor].
    + inversion K; subst. constructor.
      * rewrite in_app_iff. cbn [In]. intros [Q|[Q|[]]]; [easy|]. apply L. left. easy.
      * apply IH; [easy|]. intro Q. apply L. now right.
Qed.

Lemma finish_ok x p s U (D := dom x) (cp := cport x) (cp1 := upd cp p None) f :
  flat D -> P D cp1 [] (prod x) (ctr x) ->
  SInv D (nums (prod x)) [] (strm D cp) (fun q o => cp q = Some o) (mirrors x) (sport x) ->
  up x = msg (nums (prod x)) U -> down x = [] ->
  (forall o, In o U -> ~ strm D cp1 o /\ exists n, nums (prod x) o = Some n) ->
  (forall o, strm D cp o -> strm D cp1 o \/ In o U) ->
  (forall o, In o U -> exists s', cp p = Some s' /\ (o = s' \/ D s' = Some o)) ->
  (forall s', cp p = Some s' -> In s' U -> forall o, o = s \/ D s = Some o -> o = s' \/ D s' = Some o -> strm D cp1 o) ->
  let '(x', r) := finish rd p s true x in
  r = Done /\ Inv (settle rd (S (S f)) x') /\ (forall o, dom (settle rd (S (S f)) x') o = D o) /\
  (forall q, cport (settle rd (S (S f)) x') q = upd cp p (Some s) q).
Proof.
  intros F H SI EU ED HU1 HU2 HUp SAFE. unfold finish. fold D.
  (* the client registers *)
  assert (RG : exists X pr' c', register s (match D s with Some d => register d x | None => x end) =
      St D pr' c' cp (mirrors x) (sport x) (up x) (down x) /\ P D cp1 X pr' c' /\ nums_ext (nums (prod x)) (nums pr') /\
      (forall o, In o X <-> o = s \/ D s = Some o) /\ (forall o, In o X -> exists e, pr' o = Some e)).
  { destruct (D s) as [d|] eqn:DS.
    - destruct (register_ok rd x cp1 [] d H) as [pr1 [c1 [E1 [H1 [X1 [ed R1]]]]]]. rewrite E1.
      destruct (register_ok rd (St (dom x) pr1 c1 (cport x) (mirrors x) (sport x) (up x) (down x)) cp1 [d] s H1)
        as [pr2 [c2 [E2 [H2 [X2 [es R2]]]]]]. rewrite E2. cbn [dom prod ctr cport mirrors sport up down] in *.
      exists [s; d], pr2, c2. split; [easy|]. split; [exact H2|]. split; [intros o n K; apply X2; now apply X1|]. split.
      + intro o. cbn [In]. intuition congruence.
      + intros o. cbn [In]. intros [<-|[<-|[]]]; [now exists es|].
        assert (K : nums pr2 d = Some (e_num ed)) by (apply X2; unfold nums; now rewrite R1).
        unfold nums in K. destruct (pr2 d) as [w|]; [now exists w|easy].
    - destruct (register_ok rd x cp1 [] s H) as [pr1 [c1 [E1 [H1 [X1 [es R1]]]]]].
      exists [s], pr1, c1. split; [easy|]. split; [exact H1|]. split; [easy|]. split.
      + intro o. cbn [In]. intuition congruence.
      + intros o. cbn [In]. intros [<-|[]]. now exists es. }
  destruct RG as [X [pr' [c' [-> [HP [XN [HX RX]]]]]]].
  (* the device handles the message before *)
  set (nm := nums pr') in *.
  assert (SI1 : SInv D nm [] (strm D cp) (fun q o => cp q = Some o) (mirrors x) (sport x)) by (eapply SInv_ext; eauto).
  assert (J : inj nm) by (eapply P_inj; eauto).
  assert (NU : map (num_at (nums (prod x))) U = map (num_at nm) U).
  { apply map_ext_in. intros o K. destruct (HU1 o K) as [_ [n N]]. unfold num_at. now rewrite N, (XN o n N). }
  assert (EU2 : up x = msg nm U) by (rewrite EU; unfold msg; destruct U; [easy|now rewrite NU]).
  set (x2 := St D pr' c' cp (mirrors x) (sport x) (up x) (down x)).
  destruct (server_removes D nm U J) with (g := @nil sig) (M := strm D cp) (cps := fun q o => cp q = Some o)
      (x := St D pr' c' cp (mirrors x) (sport x) [] (down x)) as [g [mir [sp [dn [E [DN [G S1]]]]]]].
  { intros o K. destruct (HU1 o K) as [_ [n N]]. exists n. now apply XN. }
  { exact SI1. }
  assert (ES : server_all x2 = St D pr' c' cp mir sp [] dn).
  { rewrite (server_all_msg x2 nm U EU2). unfold x2. cbn [dom prod ctr cport mirrors sport down]. rewrite E.
    cbn [dom prod ctr cport up down]. now rewrite ED. }
  rewrite ES. change (dom x2 s) with (D s).
  assert (SUB : forall o, strm D cp1 o -> strm D cp o).
  { intros o [t W]. exists t. destruct t as [q|s2]; cbn [wants] in *; unfold cp1, upd in W.
    - destruct (Nat.eqb q p); easy.
    - destruct W as [W [q K]]. split; [easy|]. exists q. destruct (Nat.eqb q p); easy. }
  assert (S2 : SInv D nm [] (strm D cp1) (fun q o => cp q = Some o /\ ~ In o U) mir sp).
  { eapply SInv_iff; [| |eapply to_nil; [|exact S1]].
    - intro o. cbn beta. split.
      + intros [A B]. destruct (HU2 o A); easy.
      + intro A. split; [now apply SUB|]. intro B. now apply (HU1 o B).
    - easy.
    - cbn beta. intros o d [A B] Ed K. apply G in K. destruct K as [[]|K]. destruct (HU2 o A) as [A'|A']; [|easy].
      apply (HU1 d K). eapply strm_port; eauto. }
  (* the request *)
  assert (RN : forall o, In o X -> exists n, nm o = Some n).
  { intros o K. destruct (RX o K) as [e Ee]. exists (e_num e). unfold nm, nums. now rewrite Ee. }
  destruct (get_or_add_ok (St D pr' c' cp mir sp [] dn) (strm D cp1) (fun q o => cp q = Some o /\ ~ In o U) s D F J) as [mir3 [EG S3]].
  { apply RN. apply HX. now left. } { intros d K. apply RN. apply HX. now right. } { exact S2. }
  rewrite EG. cbn [dom prod ctr cport mirrors sport up down] in *.
  destruct (RN s (proj2 (HX s) (or_introl eq_refl))) as [ns Ns].
  assert (NO : num_of s (St D pr' c' cp mir3 sp [] dn) = ns).
  { unfold num_of. cbn [prod]. unfold nm, nums in Ns. destruct (pr' s); [|easy]. cbn [option_map] in Ns. congruence. }
  rewrite NO. unfold server_connect at 1. cbn [dom prod ctr cport mirrors sport up down].
  set (M3 := fun o => strm D cp1 o \/ o = s \/ D s = Some o) in *.
  pose proof (server_connect_ok D nm M3 _ mir3 sp p s ns Ns ltac:(right; now left) S3) as S4.
  set (sp4 := filter (fun q => negb (Nat.eqb (fst q) p)) sp ++ [(p, ns)]) in *.
  assert (S5 : SInv D nm [] M3 (fun q o => upd cp p (Some s) q = Some o) mir3 sp4).
  { eapply SInv_iff; [| |exact S4]; [easy|]. intros q o. cbn beta. unfold upd. destruct (Nat.eqb_spec q p) as [->|N].
    - split; [|intros [= <-]; now right]. intros [[A _]|[_ A]]; [easy|congruence].
    - split; [|].
      + intros [[_ [A _]]|[A _]]; easy.
      + intro A. left. split; [easy|]. split; [easy|]. intro B. apply (HU1 o B). exists (TPort q). cbn [wants]. unfold cp1.
        now rewrite upd_other. }
  (* the client handles the notification *)
  assert (C1 : cp1 p = None) by apply upd_same.
  assert (MID : exists pr5 cp5 U2, client_all rd (St D pr' c' cp mir3 sp4 [] dn) = St D pr5 c' cp5 mir3 sp4 (msg nm U2) [] /\
      P D cp1 X pr5 c' /\ (forall o, nums pr5 o = nm o) /\ (forall q, q <> p -> cp5 q = cp q) /\
      (forall o, In o U2 -> ~ strm D cp1 o /\ ~ In o X /\ exists n, nm o = Some n)).
  { unfold client_all. cbn [dom prod ctr cport mirrors sport up down].
    assert (DNP : forall q, In q dn -> q = p /\ exists s', cp p = Some s' /\ In s' U).
    { intros q K. apply DN in K. destruct K as [o [A B]]. destruct (Nat.eq_dec q p) as [->|N]; [split; [easy|now exists o]|].
      exfalso. apply (HU1 o A). exists (TPort q). cbn [wants]. unfold cp1. now rewrite upd_other. }
    destruct dn as [|q dn0].
    - exists pr', cp, []. cbn [fold_left]. split; [easy|]. split; [exact HP|]. split; [easy|]. split; [easy|]. intros o [].
    - destruct (DNP q (or_introl eq_refl)) as [-> [s' [E' US]]].
      assert (W' : strm D cp s') by (exists (TPort p); exact E').
      set (y := St D pr' c' cp mir3 sp4 [] []).
      destruct (disc_ok y cp1 X s' p) as [pr5 [U2 [R [H5 [N5 [FR _]]]]]].
      + exact F.
      + exact HP.
      + intros s2 K. rewrite C1 in K. easy.
      + cbn [y prod]. destruct (sg_nm _ _ _ _ _ _ _ SI1 s' W') as [n N]. unfold nm, nums in N. destruct (pr' s') as [e|]; [now exists e|easy].
      + intros d K. cbn [y prod dom] in *. assert (Wd : strm D cp d) by (eapply strm_port; eauto).
        destruct (sg_nm _ _ _ _ _ _ _ SI1 d Wd) as [n N]. unfold nm, nums in N. destruct (pr' d) as [e|]; [now exists e|easy].
      + intros o A B. cbn [y dom]. eapply strm_ext; [|exact (SAFE s' E' US o (proj1 (HX o) A) B)].
        intro q. unfold upd. destruct (Nat.eqb_spec q p) as [->|]; easy.
      + cbn [fold_left]. unfold assign_null at 2. change (cport y p) with (cp p). rewrite E'. rewrite R.
        cbn [y fst set_cport dom prod ctr cport mirrors sport up down app] in *.
        set (z := St D pr5 c' (upd cp p None) mir3 sp4 (msg (nums pr5) U2) []).
        destruct (nulls p dn0) with (y := z) as [cp5 [EZ CZ]].
        { intros q K. apply (DNP q). now right. } { apply upd_same. }
        match goal with |- context [fold_left _ dn0 ?t] => change t with z end.
        rewrite EZ. exists pr5, cp5, U2. cbn [z set_cport dom prod ctr cport mirrors sport up down].
        assert (PW : forall q, upd cp1 p None q = cp1 q) by (intro q; unfold upd; destruct (Nat.eqb_spec q p) as [->|]; easy).
        split; [|split; [|split; [exact N5|split]]].
        * assert (EM : msg nm U2 = msg (nums pr5) U2).
          { unfold msg. destruct U2; [easy|]. f_equal. apply map_ext. intro o. unfold num_at. now rewrite N5. }
          rewrite EM. reflexivity.
        * eapply PInv_ext; [|exact H5]. exact PW.
        * intros q N. rewrite CZ. cbn [z cport]. now rewrite upd_other.
        * intros o K. apply FR in K. destruct K as [A B].
          assert (B' : ~ strm D cp1 o) by (intro Q; apply B; eapply strm_ext; [|exact Q]; intro q; now rewrite PW).
          split; [exact B'|]. split.
          -- intro K. apply B'. apply (SAFE s' E' US o); [now apply HX|exact A].
          -- apply (sg_nm _ _ _ _ _ _ _ SI1). destruct A as [ ->|A]; [exact W'|]. eapply strm_port; eauto. }
  destruct MID as [pr5 [cp5 [U2 [EC [H5 [N5 [CP5 HU5]]]]]]].
  match goal with |- context [client_all rd ?t] => change t with (St D pr' c' cp mir3 sp4 [] dn) end. rewrite EC.
  (* the reply *)
  set (x5 := St D pr5 c' cp5 mir3 sp4 (msg nm U2) []).
  destruct (add_connection_ok rd x5 cp1 X s p) as [pr6 [EA [H6 N6]]].
  { exact F. } { exact H5. } { exact C1. } { exact HX. }
  { intros o K. cbn [x5 prod]. destruct (RN o K) as [n N]. specialize (N5 o). rewrite N in N5. unfold nums in N5.
    destruct (pr5 o) as [e|]; [now exists e|easy]. }
  rewrite EA. split; [easy|]. cbn [x5 set_prod set_cport dom prod ctr cport mirrors sport up down] in *.
  set (x6 := St D pr6 c' (upd cp5 p (Some s)) mir3 sp4 (msg nm U2) []).
  set (cp2 := upd cp p (Some s)).
  assert (CE : forall q, cport x6 q = cp2 q).
  { intro q. cbn [x6 cport]. unfold cp2, upd. destruct (Nat.eqb_spec q p) as [->|N]; [easy|]. now apply CP5. }
  assert (CE1 : forall q, upd cp1 p (Some s) q = cport x6 q).
  { intro q. rewrite CE. unfold cp2, cp1, upd. destruct (Nat.eqb_spec q p) as [->|N]; easy. }
  assert (NE : forall o, nums pr6 o = nm o) by (intro o; rewrite N6; apply N5).
  assert (WM : forall o, strm D (cport x6) o <-> M3 o).
  { intro o. unfold M3. split.
    - intro K. assert (K' : strm D (upd cp1 p (Some s)) o) by (eapply strm_ext; [|exact K]; intro; now rewrite CE1).
      destruct K' as [t W]. apply wants_more in W; [|exact C1].
      destruct W as [W|[[A B]|[A B]]]; [left; now exists t|tauto|tauto].
    - intro K. assert (K' : strm D (upd cp1 p (Some s)) o); [|eapply strm_ext; [exact CE1|exact K']].
      destruct K as [[t W]|[A|A]].
      + exists t. apply wants_more; [exact C1|]. now left.
      + exists (TPort p). apply wants_more; [exact C1|]. tauto.
      + exists (TSig s). apply wants_more; [exact C1|]. tauto. }
  destruct (settle_up x6 U2 M3 f) as [K1 [K2 K3]].
  - exact F.
  - cbn [x6 dom prod ctr]. eapply PInv_ext; [exact CE1|exact H6].
  - cbn [x6 dom prod mirrors sport]. apply (SInv_ext D nm); [intros o n K; now rewrite NE|].
    eapply SInv_iff; [| |exact S5]; [easy|]. intros q o. cbn beta. change (upd cp5 p (Some s)) with (cport x6). now rewrite CE.
  - cbn [x6 up prod]. unfold msg. destruct U2; [easy|]. f_equal. apply map_ext. intro o. unfold num_at. now rewrite NE.
  - easy.
  - intros o K. now apply WM.
  - intros o K. left. now apply WM.
  - intros o K. destruct (HU5 o K) as [A [B [n C]]]. split; [|exists n; cbn [x6 prod]; now rewrite NE].
    cbn [x6 dom]. rewrite WM. intros [Q|Q]; [easy|]. apply B. now apply HX.
  - split; [exact K1|]. split; [exact K2|]. intro q. rewrite K3. apply CE.
Qed.


Lemma settled x f : up x = [] -> down x = [] -> settle rd f x = x.
Proof. intros A B. destruct f; cbn [settle]; [easy|]. now rewrite A, B. Qed.

Lemma step_connect x p s : Inv x ->
  (forall s', cport x p = Some s' -> s' <> s -> (exists q, q <> p /\ cport x q = Some s') \/
     forall o, o = s \/ dom x s = Some o -> o = s' \/ dom x s' = Some o -> strm (dom x) (upd (cport x) p None) o) ->
  let '(x', r) := step rd (OConnect p s true) x in
  r = Done /\ Inv x' /\ (forall o, dom x' o = dom x o) /\ (forall q, cport x' q = upd (cport x) p (Some s) q).
Proof.
  intros IV SAFE. pose proof (iv_s _ IV) as SI. pose proof (iv_p _ IV) as H. pose proof (iv_flat _ IV) as F.
  unfold step, connect. destruct (cport x p) as [s'|] eqn:E.
  - destruct (Nat.eqb_spec s' s) as [->|N].
    + split; [easy|]. rewrite settled; [|apply (iv_up _ IV)|apply (iv_down _ IV)]. split; [exact IV|]. split; [easy|].
      intro q. unfold upd. destruct (Nat.eqb_spec q p) as [->|]; easy.
    + assert (W' : strm (dom x) (cport x) s') by (exists (TPort p); exact E).
      destruct (disc_ok x (cport x) [] s' p F H) as [pr' [U [R [H' [N' [FR ST]]]]]].
      { intros s2 K. congruence. } { apply (P_strm _ _ _ _ _ s' H W'). }
      { intros d K. apply (P_strm _ _ _ _ _ d H). eapply strm_port; eauto. } { intros o []. }
      rewrite R. rewrite (iv_up _ IV), (iv_down _ IV). cbn [app].
      set (x1 := St (dom x) pr' (ctr x) (cport x) (mirrors x) (sport x) (msg (nums pr') U) []).
      assert (K : forall f, let '(x', r) := finish rd p s true x1 in
          r = Done /\ Inv (settle rd (S (S f)) x') /\ (forall o, dom (settle rd (S (S f)) x') o = dom x o) /\
          (forall q, cport (settle rd (S (S f)) x') q = upd (cport x) p (Some s) q)).
      { intro f. apply (finish_ok x1 p s U f); cbn [x1 dom prod ctr cport mirrors sport up down]; try easy.
        - apply (SInv_ext (dom x) (nums (prod x))); [|exact SI]. intros o n Q. now rewrite N'.
        - intros o K. pose proof (proj1 (FR o) K) as [A B]. split; [easy|]. rewrite N'. apply (sg_nm _ _ _ _ _ _ _ SI).
          destruct A as [->|A]; [easy|]. eapply strm_port; eauto.
        - intros o K. exists s'. split; [easy|]. now apply (FR o).
        - intros s2 E2 K o A B. assert (s2 = s') by congruence. subst s2.
          destruct (SAFE s' eq_refl N) as [[q [Nq Q]]|Q]; [|now apply Q].
          exfalso. apply (proj1 (FR s') K). exists (TPort q). cbn [wants]. now rewrite upd_other. }
      destruct (finish rd p s true x1) as [x' r]. apply K.
  - assert (CE : forall q, cport x q = upd (cport x) p None q) by (intro q; unfold upd; destruct (Nat.eqb_spec q p) as [->|]; easy).
    assert (K : forall f, let '(x', r) := finish rd p s true x in
          r = Done /\ Inv (settle rd (S (S f)) x') /\ (forall o, dom (settle rd (S (S f)) x') o = dom x o) /\
          (forall q, cport (settle rd (S (S f)) x') q = upd (cport x) p (Some s) q)).
    { intro f. apply (finish_ok x p s [] f); try easy.
      - eapply PInv_ext; [exact CE|exact H].
      - apply (iv_up _ IV).
      - apply (iv_down _ IV).
      - intros o K. left. eapply strm_ext; [exact CE|exact K]. }
    destruct (finish rd p s true x) as [x' r]. apply K.
Qed.

Lemma step_set_domain x s d : Inv x -> flat (upd (dom x) s d) -> (forall p, cport x p <> Some s) ->
  let '(x', r) := step rd (OSetDomain s d) x in
  r = Done /\ Inv x' /\ (forall o, dom x' o = upd (dom x) s d o) /\ (forall q, cport x' q = cport x q).
Proof.
  intros IV F' N. pose proof (iv_s _ IV) as SI. pose proof (iv_p _ IV) as H. pose proof (iv_flat _ IV) as F.
  unfold step. split; [easy|]. rewrite settled; [|apply (iv_up _ IV)|apply (iv_down _ IV)]. split; [|easy].
  set (D' := upd (dom x) s d) in *.
  assert (W : forall t o, wants (dom x) (cport x) t o <-> wants D' (cport x) t o).
  { intros [q|s2] o; cbn [wants]; [tauto|]. unfold D', upd. destruct (Nat.eqb_spec s2 s) as [->|K]; [|tauto].
    split; intros [_ [q Q]]; exfalso; now apply (N q). }
  assert (T : forall o, strm (dom x) (cport x) o <-> strm D' (cport x) o) by (intro o; split; intros [t Q]; exists t; now apply W).
  assert (DD : forall o, strm (dom x) (cport x) o -> D' o = dom x o).
  { intros o Q. unfold D'. destruct (Nat.eq_dec o s) as [->|K]; [|now rewrite upd_other].
    destruct Q as [t Q]. destruct t as [q|s2]; [exfalso; now apply (N q)|]. pose proof (proj1 (W _ _) Q) as Q'.
    destruct Q as [Q _]. destruct Q' as [Q' _]. fold D'. rewrite (F _ _ Q). apply (F' _ _ Q'). }
  constructor; cbn [dom prod ctr cport mirrors sport up down].
  - exact F'.
  - constructor.
    + intros o e E t. rewrite <- W. apply (pi_trig _ _ _ _ _ _ H o e E).
    + intros o E t. rewrite <- W. apply (pi_none _ _ _ _ _ _ H o E).
    + apply (pi_num _ _ _ _ _ _ H).
    + apply (pi_inj _ _ _ _ _ _ H).
    + intros o e E. rewrite <- T. apply (pi_read _ _ _ _ _ _ H o e E).
    + intros o e E. rewrite <- T. apply (pi_held _ _ _ _ _ _ H o e E).
  - constructor.
    + intros n m. rewrite (sg_mir _ _ _ _ _ _ _ SI). split; intros [o [A [B C]]]; exists o.
      * split; [easy|]. split; [now apply T|]. unfold dom_num. now rewrite DD.
      * apply T in B. split; [easy|]. split; [easy|]. unfold dom_num in C. now rewrite DD in C.
    + apply (sg_sp _ _ _ _ _ _ _ SI).
    + intros p o K. apply T. now apply (sg_cps _ _ _ _ _ _ _ SI p).
    + intros o K. apply T in K. now apply (sg_nm _ _ _ _ _ _ _ SI).
    + intros o o' K E. apply T in K. rewrite DD in E by easy. left. apply T.
      destruct (sg_closed _ _ _ _ _ _ _ SI o o' K E) as [Q|[]]. exact Q.
    + apply (sg_nodup _ _ _ _ _ _ _ SI).
  - apply (iv_up _ IV).
  - apply (iv_down _ IV).
Qed.

(** what the user sees of a state *)
Definition sees (v : view) (x : st) : Prop := (forall s, dom x s = v_dom v s) /\ (forall p, cport x p = v_conn v p).
Lemma needed_strm v x s : sees v x -> (needed v s <-> strm (dom x) (cport x) s).
Proof.
  intros [A B]. unfold needed. split.
  - intros [[p K]|[p [s2 [K L]]]].
    + exists (TPort p). cbn [wants]. now rewrite B.
    + exists (TSig s2). split; [now rewrite A|]. exists p. now rewrite B.
  - intros [[p|s2] W]; cbn [wants] in W.
    + left. exists p. now rewrite <- B.
    + right. destruct W as [W [p K]]. exists p, s2. now rewrite <- A, <- B.
Qed.
Lemma put_upd {V} (f g : nat -> V) i v j : (forall k, f k = g k) -> upd f i v j = put g i v j.
Proof. intro H. unfold upd, put. destruct (Nat.eqb_spec j i), (Nat.eq_dec j i); easy. Qed.

Lemma step_ok o v x : Inv x -> sees v x -> flat (v_dom v) -> allowed o v ->
  let '(x', r) := step rd o x in r = Done /\ Inv x' /\ sees (effect o v) x' /\ flat (v_dom (effect o v)).
Proof.
  intros IV [SA SB] FV AL. destruct o as [p s ok|p|p|s d]; cbn [allowed effect v_dom v_conn] in *.
  - destruct AL as [-> AL].
    pose proof (step_connect x p s IV) as Q. destruct (step rd (OConnect p s true) x) as [x' r].
    destruct Q as [A [B [C D]]].
    + intros s' E N. rewrite SB in E. destruct (AL s' E N) as [[q [K L]]|K].
      * left. exists q. now rewrite SB.
      * right. intros o K1 K2.
        assert (SV : sees (View (v_dom v) (put (v_conn v) p None)) (set_cport x (upd (cport x) p None))).
        { split; [exact SA|]. intro q. cbn [set_cport cport v_conn]. now apply put_upd. }
        apply (proj1 (needed_strm _ _ o SV)). apply K.
        -- unfold with_domain. rewrite <- SA. destruct K1 as [->|K1]; [now left|]. rewrite K1. right. now left.
        -- unfold with_domain. rewrite <- SA. destruct K2 as [->|K2]; [now left|]. rewrite K2. right. now left.
    + split; [easy|]. split; [easy|]. split; [|easy]. split; cbn [v_dom v_conn]; [intro o; now rewrite C|].
      intro q. rewrite D. now apply put_upd.
  - pose proof (step_disconnect x p IV) as Q. destruct (step rd (ODisconnect p) x) as [x' r]. destruct Q as [A [B [C D]]].
    split; [easy|]. split; [easy|]. split; [|easy]. split; cbn [v_dom v_conn]; [intro o; now rewrite C|].
    intro q. rewrite D. now apply put_upd.
  - pose proof (step_server_disconnect x p IV) as Q. destruct (step rd (OServerDisconnect p) x) as [x' r]. destruct Q as [A [B [C D]]].
    split; [easy|]. split; [easy|]. split; [|easy]. split; cbn [v_dom v_conn]; [intro o; now rewrite C|].
    intro q. rewrite D. now apply put_upd.
  - destruct AL as [AF AN]. pose proof (step_set_domain x s d IV) as Q. destruct (step rd (OSetDomain s d) x) as [x' r].
    destruct Q as [A [B [C D]]].
    + intros a b K. rewrite (put_upd (dom x) (v_dom v)) in * by exact SA. now apply (AF a).
    + intros p. rewrite SB. apply AN.
    + split; [easy|]. split; [easy|]. split; [|easy]. split; cbn [v_dom v_conn].
      * intro o. rewrite C. now apply put_upd.
      * intro q. now rewrite D.
Qed.

Lemma nodup_map_fst {A B} (l : list (A * B)) : NoDup (map fst l) -> NoDup l.
Proof.
  induction l as [|a l IH]; cbn [map]; intro H; [constructor|]. inversion H; subst. constructor; [|now apply IH].
  intro K. apply H2. now apply in_map.
Qed.

Lemma inv_agrees v x : Inv x -> sees v x -> agrees rd v x.
Proof.
  intros IV SV. pose proof (iv_s _ IV) as SI. pose proof (iv_p _ IV) as H. pose proof (iv_flat _ IV) as F.
  pose proof (P_inj _ _ _ _ _ H) as J.
  assert (T := fun s => needed_strm v x s SV). destruct SV as [SA SB].
  constructor.
  - apply (iv_up _ IV).
  - apply (iv_down _ IV).
  - exact SB.
  - intro s. rewrite T. split.
    + intros [e [E K]]. apply (pi_held _ _ _ _ _ _ H s e E) in K. destruct K as [K|[]]. exact K.
    + intro K. destruct (P_strm _ _ _ _ _ s H K) as [e E]. exists e. split; [easy|]. apply (pi_held _ _ _ _ _ _ H s e E). now left.
  - intros R s. rewrite T. split.
    + intros [e [E K]]. now apply (pi_read _ _ _ _ _ _ H s e E) in K.
    + intro K. destruct (P_strm _ _ _ _ _ s H K) as [e E]. exists e. split; [easy|]. now apply (pi_read _ _ _ _ _ _ H s e E).
  - intro s. rewrite T. split.
    + intros [m [n [E K]]]. apply (sg_mir _ _ _ _ _ _ _ SI) in E. destruct E as [o [A [B ->]]]. cbn [m_sig] in K. now subst.
    + intro K. destruct (sg_nm _ _ _ _ _ _ _ SI s K) as [n N]. exists (Mirror s (dom_num (dom x) (nums (prod x)) [] s)), n.
      split; [|easy]. apply (sg_mir _ _ _ _ _ _ _ SI). now exists s.
  - intros n n' m m' A B C. apply (sg_mir _ _ _ _ _ _ _ SI) in A. apply (sg_mir _ _ _ _ _ _ _ SI) in B.
    destruct A as [o [A1 [A2 ->]]]. destruct B as [o' [B1 [B2 ->]]]. cbn [m_sig] in C. subst o'. congruence.
  - intros n m A. apply (sg_mir _ _ _ _ _ _ _ SI) in A. destruct A as [o [A1 [A2 ->]]]. cbn [m_sig m_dom]. rewrite <- SA.
    unfold dom_num. destruct (dom x o) as [d|] eqn:E; [|easy]. cbn [existsb].
    destruct (sg_closed _ _ _ _ _ _ _ SI o d A2 E) as [Q|[]]. destruct (sg_nm _ _ _ _ _ _ _ SI d Q) as [k K]. rewrite K.
    exists (Mirror d (dom_num (dom x) (nums (prod x)) [] d)). split; [|easy]. apply (sg_mir _ _ _ _ _ _ _ SI). now exists d.
  - intros p s. rewrite <- SB. split.
    + intros [n [m [A [B C]]]]. apply (sg_sp _ _ _ _ _ _ _ SI) in A. destruct A as [o [A1 A2]].
      apply (sg_mir _ _ _ _ _ _ _ SI) in B. destruct B as [o' [B1 [_ ->]]]. cbn [m_sig] in C. subst o'. now rewrite (J s o n B1 A2).
    + intro K. assert (Ws : strm (dom x) (cport x) s) by (exists (TPort p); exact K).
      destruct (sg_nm _ _ _ _ _ _ _ SI s Ws) as [n N]. exists n, (Mirror s (dom_num (dom x) (nums (prod x)) [] s)).
      split; [apply (sg_sp _ _ _ _ _ _ _ SI); now exists s|]. split; [|easy]. apply (sg_mir _ _ _ _ _ _ _ SI). now exists s.
  - intros s p s'. unfold deliver. rewrite <- SB. destruct (prod x s) as [e|] eqn:E.
    + assert (Ne : nums (prod x) s = Some (e_num e)) by (unfold nums; now rewrite E).
      assert (RQ : (if rd then e_read e else e_held e) = true <-> strm (dom x) (cport x) s).
      { destruct rd eqn:R.
        - pose proof (pi_read _ _ _ _ _ _ H s e E). tauto.
        - pose proof (pi_held _ _ _ _ _ _ H s e E). cbn [In] in *. tauto. }
      destruct (if rd then e_read e else e_held e).
      * assert (Ws : strm (dom x) (cport x) s) by now apply RQ.
        assert (EM : mirrors x (e_num e) = Some (Mirror s (dom_num (dom x) (nums (prod x)) [] s))).
        { apply (sg_mir _ _ _ _ _ _ _ SI). now exists s. }
        rewrite EM. cbn [m_sig]. rewrite in_map_iff. split.
        -- intros [[q n] [K L]]. cbn [fst] in K. injection K as -> <-. apply filter_In in L. destruct L as [L M]. cbn [snd] in M.
           apply Nat.eqb_eq in M. subst n. apply (sg_sp _ _ _ _ _ _ _ SI) in L. destruct L as [o [L1 L2]].
           now rewrite (J s o _ Ne L2).
        -- intros [K ->]. exists (p, e_num e). split; [easy|]. apply filter_In. split; [|apply Nat.eqb_refl].
           apply (sg_sp _ _ _ _ _ _ _ SI). now exists s.
      * split; [easy|]. intros [K _]. assert (false = true) by (apply RQ; exists (TPort p); exact K). easy.
    + split; [easy|]. intros [K _]. exfalso. now apply (pi_none _ _ _ _ _ _ H s E (TPort p)).
  - intro s. unfold deliver. destruct (prod x s) as [e|]; [|constructor]. destruct (if rd then _ else _); [|constructor].
    destruct (mirrors x (e_num e)) as [m|]; [|constructor]. apply nodup_map_fst. rewrite map_map. cbn [fst].
    change (map (fun x0 : port * num => fst x0)) with (map (@fst port num)).
    apply nodup_filter_fst. apply (sg_nodup _ _ _ _ _ _ _ SI).
Qed.

Lemma inv_init d : flat d -> Inv (init d).
Proof.
  intro F. assert (NS : forall s, ~ strm d (fun _ => None) s) by (intros s [[q|s2] W]; [easy|destruct W as [_ [q W]]; easy]).
  constructor; cbn [init dom prod ctr cport mirrors sport up down]; try easy.
  - constructor; try easy. intros s _ t W. apply (NS s). now exists t.
  - constructor; try easy.
    + intros n m. split; [easy|]. intros [s [A _]]. easy.
    + intros p n. split; [easy|]. intros [s [A _]]. easy.
    + intros s K. now elim (NS s).
    + intros s d' K. now elim (NS s).
    + constructor.
Qed.

Lemma run_ok d h : flat d -> all_allowed h (View d (fun _ => None)) ->
  Inv (run rd d h) /\ sees (after h (View d (fun _ => None))) (run rd d h).
Proof.
  intros F AL. unfold run, after.
  assert (G : forall h v x, Inv x -> sees v x -> flat (v_dom v) -> all_allowed h v ->
     Inv (fold_left (fun x o => fst (step rd o x)) h x) /\ sees (fold_left (fun v o => effect o v) h v) (fold_left (fun x o => fst (step rd o x)) h x)).
  { clear. induction h as [|o h IH]; intros v x IV SV FV AL; [easy|]. destruct AL as [A B]. cbn [fold_left].
    pose proof (step_ok o v x IV SV FV A) as Q. destruct (step rd o x) as [x' r]. cbn [fst]. destruct Q as [_ [Q1 [Q2 Q3]]].
    now apply IH. }
  apply G; try easy. now apply inv_init.
Qed.
End Steps.
