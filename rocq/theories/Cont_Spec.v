(** What the properties of lists, dictionaries and values say, independently of
    how they are computed. *)
From Verif Require Import Base Cont_Model.
From Coq Require Import SpecFloat.
Local Open Scope Z_scope.

(** ** The data that objects carry *)

(** the two zeros are one number *)
Definition number (f : spec_float) : spec_float := match f with S754_zero _ => S754_zero false | _ => f end.

(** a number in [0, 2^64) *)
Definition in_size (f : spec_float) : Prop :=
  match f with
  | S754_zero _ => True
  | S754_finite false m e => 0 <= e /\ Z.pos m * 2 ^ e < 2 ^ 64 \/ e < 0 /\ Z.pos m < 2 ^ 64 * 2 ^ (- e)
  | _ => False
  end.

Inductive kdata := KInt (i : Z) | KFlt (f : spec_float) | KBool (b : bool) | KStr (s : list Z).

Lemma kdata_dec (x y : kdata) : {x = y} + {x <> y}.
Proof. repeat (decide equality). Defined.

(** the keys the theorems about dictionaries are for, with their data: whole
    numbers, numbers in [0, 2^64), truth values and strings without NUL *)
Inductive key_is : obj -> kdata -> Prop :=
| KI : forall a i, key_is (OScal a (SInt i)) (KInt i)
| KF : forall a f, in_size f -> key_is (OScal a (SFlt f)) (KFlt (number f))
| KB : forall a b, key_is (OScal a (SBool b)) (KBool b)
| KS : forall a s, ~ In 0 s -> key_is (OScal a (SStr s)) (KStr s).

(** a dictionary's content as pairs of a key and an assigned value *)
Definition filled (es : list (obj * obj)) : list (obj * option obj) := map (fun e => (fst e, Some (snd e))) es.

(** two objects carry the same data *)
Inductive same : obj -> obj -> Prop :=
| same_int : forall a b i, same (OScal a (SInt i)) (OScal b (SInt i))
| same_flt : forall a b f g, number f = number g -> same (OScal a (SFlt f)) (OScal b (SFlt g))
| same_bool : forall a b x, same (OScal a (SBool x)) (OScal b (SBool x))
| same_str : forall a b s, same (OScal a (SStr s)) (OScal b (SStr s))
| same_rat : forall a b n d n' d', n * d' = n' * d -> same (OScal a (SRat n d)) (OScal b (SRat n' d'))
| same_other : forall a, same (OScal a SOther) (OScal a SOther)
| same_list : forall a b xs ys, Forall2 same xs ys -> same (OList a (map Some xs)) (OList b (map Some ys))
| same_dict : forall a b es fs,
    (forall k v d, In (k, v) es -> key_is k d -> exists k' v', In (k', v') fs /\ key_is k' d /\ same v v') ->
    (forall k v d, In (k, v) fs -> key_is k d -> exists k' v', In (k', v') es /\ key_is k' d /\ same v' v) ->
    same (ODict a (filled es)) (ODict b (filled fs)).

(** data without null, NaN, NUL in strings; dictionaries have the keys above,
    each once *)
Inductive clean : obj -> Prop :=
| clean_int : forall a i, clean (OScal a (SInt i))
| clean_flt : forall a f, f <> S754_nan -> clean (OScal a (SFlt f))
| clean_bool : forall a b, clean (OScal a (SBool b))
| clean_str : forall a s, ~ In 0 s -> clean (OScal a (SStr s))
| clean_rat : forall a n d, 0 < d -> clean (OScal a (SRat n d))
| clean_other : forall a, clean (OScal a SOther)
| clean_list : forall a xs, Forall clean xs -> clean (OList a (map Some xs))
| clean_dict : forall a es ds, Forall2 key_is (map fst es) ds -> NoDup ds -> Forall clean (map snd es) ->
    clean (ODict a (filled es)).

(** the objects that make up an object *)
Inductive part : obj -> obj -> Prop :=
| part_self : forall x, part x x
| part_item : forall u a xs x, In (Some x) xs -> part u x -> part u (OList a xs)
| part_key : forall u a es k v, In (k, v) es -> part u k -> part u (ODict a es)
| part_val : forall u a es k v, In (k, Some v) es -> part u v -> part u (ODict a es).

(** an address belongs to one object *)
Definition one_heap (x y : obj) : Prop := forall u v, part u x -> part v y -> addr u = addr v -> u = v.

(** ** Lists as sequences: what an operation on a list that is not frozen does *)
Definition seq := list (option obj).
Definition kept (s s' : seq) (r want : res) : Prop := r = want /\ s' = s.

(** x is put at position i, what was at i and after moves up by one *)
Definition inserted (i : nat) (x : option obj) (s s' : seq) : Prop :=
  forall j, nth_error s' j =
    if (j <? i)%nat then nth_error s j else if (j =? i)%nat then Some x else nth_error s (j - 1).
(** position i is dropped, what was after it moves down by one *)
Definition dropped (i : nat) (s s' : seq) : Prop :=
  forall j, nth_error s' j = if (j <? i)%nat then nth_error s j else nth_error s (j + 1).
Definition replaced (i : nat) (x : option obj) (s s' : seq) : Prop :=
  forall j, nth_error s' j = if (j =? i)%nat then Some x else nth_error s j.

Definition seq_step (o : lop) (s s' : seq) (r : res) : Prop :=
  match o with
  | LGet i => match nth_error s i with
              | Some x => kept s s' r (RObj x)
              | None => kept s s' r (RErr EOutOfRange)
              end
  | LCount => kept s s' r (RNum (length s))
  | LSet i x => if (i <? length s)%nat then r = ROk /\ replaced i x s s' else kept s s' r (RErr EOutOfRange)
  | LPushBack x | LMoveBack x => r = ROk /\ inserted (length s) x s s'
  | LPushFront x | LMoveFront x => r = ROk /\ inserted 0 x s s'
  | LPopBack => match nth_error s (length s - 1) with
                | Some x => r = RObj x /\ dropped (length s - 1) s s'
                | None => kept s s' r (RErr ENotFound)
                end
  | LPopFront => match nth_error s 0 with
                 | Some x => r = RObj x /\ dropped 0 s s'
                 | None => kept s s' r (RErr ENotFound)
                 end
  | LInsert i x => if (i <? length s)%nat then r = ROk /\ inserted i x s s' else kept s s' r (RErr EOutOfRange)
  | LRemove i => match nth_error s i with
                 | Some x => r = RObj x /\ dropped i s s'
                 | None => kept s s' r (RErr EOutOfRange)
                 end
  | LDelete i => if (i <? length s)%nat then r = ROk /\ dropped i s s' else kept s s' r (RErr EOutOfRange)
  | LClear => r = ROk /\ s' = []
  | LFreeze => kept s s' r ROk
  | LIsFrozen => kept s s' r (RBool false)
  end.

(** on a frozen list: reading works, nothing changes *)
Definition frozen_step (o : lop) (s s' : seq) (r : res) : Prop :=
  match o with
  | LGet _ | LCount => seq_step o s s' r
  | LIsFrozen => kept s s' r (RBool true)
  | LFreeze => kept s s' r RIgnored
  | _ => kept s s' r (RErr EFrozen)
  end.

(** ** Histories *)
Fixpoint lrun (l : lst) (os : list lop) : lst * list res * list refev :=
  match os with
  | [] => (l, [], [])
  | o :: os => let x := lstep l o in
               let y := lrun (fst (fst x)) os in
               (fst (fst y), snd (fst x) :: snd (fst y), snd x ++ snd y)
  end.
Fixpoint drun (d : dct) (os : list dop) : dct * list res * list refev :=
  match os with
  | [] => (d, [], [])
  | o :: os => let x := dstep d o in
               let y := drun (fst (fst x)) os in
               (fst (fst y), snd (fst x) :: snd (fst y), snd x ++ snd y)
  end.

(** ** References *)

(** addRef minus releaseRef calls on the object at an address *)
Fixpoint balance (a : Z) (evs : list refev) : Z :=
  match evs with
  | [] => 0
  | Inc b :: r => (if b =? a then 1 else 0) + balance a r
  | Dec b :: r => (if b =? a then -1 else 0) + balance a r
  end.
(** how often a pointer to address a is among the pointers *)
Definition once (a : Z) (x : option obj) : Z := match x with Some x => if addr x =? a then 1 else 0 | None => 0 end.
Fixpoint occurs (a : Z) (xs : list (option obj)) : Z :=
  match xs with [] => 0 | x :: r => once a x + occurs a r end.

(** references the caller hands to the container, and gets from it *)
Definition handed_in (o : lop) (r : res) : list (option obj) :=
  match o, r with
  | LMoveBack x, ROk | LMoveFront x, ROk => [x]
  | _, _ => []
  end.
Definition handed_out (r : res) : list (option obj) := match r with RObj x => [x] | _ => [] end.
Fixpoint l_in (os : list lop) (rs : list res) : list (option obj) :=
  match os, rs with o :: os, r :: rs => handed_in o r ++ l_in os rs | _, _ => [] end.
Definition all_out (rs : list res) : list (option obj) := flat_map handed_out rs.

(** the pointers a dictionary holds *)
Definition held (es : list (obj * option obj)) : list (option obj) := flat_map (fun e => [Some (fst e); snd e]) es.

(** ** Dictionaries as maps that remember the order in which keys came *)
Record amap := { am : kdata -> option (option obj); aorder : list kdata; afrozen : bool }.
Definition aempty : amap := {| am := fun _ => None; aorder := []; afrozen := false |}.

(** an operation with keys as data *)
Inductive aop :=
| AGet (k : kdata) | ASet (k : kdata) (v : option obj) | ARemove (k : kdata) | ADelete (k : kdata)
| AClear | ACount | AHas (k : kdata) | AKeys | AVals | AFreeze | AIsFrozen.

Inductive op_is : dop -> aop -> Prop :=
| OGet : forall k d, key_is k d -> op_is (DGet (Some k)) (AGet d)
| OSet : forall k d v, key_is k d -> op_is (DSet (Some k) v) (ASet d v)
| ORemove : forall k d, key_is k d -> op_is (DRemove (Some k)) (ARemove d)
| ODelete : forall k d, key_is k d -> op_is (DDelete (Some k)) (ADelete d)
| OClear : op_is DClear AClear
| OCount : op_is DCount ACount
| OHas : forall k d, key_is k d -> op_is (DHas (Some k)) (AHas d)
| OKeys : op_is DKeys AKeys
| OVals : op_is DVals AVals
| OFreeze : op_is DFreeze AFreeze
| OIsFrozen : op_is DIsFrozen AIsFrozen.

Definition is_key (k k' : kdata) : bool := if kdata_dec k k' then true else false.
Definition drop_key (k : kdata) (m : amap) : amap :=
  {| am := fun k' => if is_key k k' then None else am m k';
     aorder := filter (fun k' => negb (is_key k k')) (aorder m);
     afrozen := afrozen m |}.
Definition put_key (k : kdata) (v : option obj) (m : amap) : amap :=
  {| am := fun k' => if is_key k k' then Some v else am m k';
     aorder := match am m k with Some _ => aorder m | None => aorder m ++ [k] end;
     afrozen := afrozen m |}.

Definition anext (m : amap) (o : aop) : amap :=
  if afrozen m then m else
  match o with
  | ASet k v => put_key k v m
  | ARemove k | ADelete k => drop_key k m
  | AClear => {| am := fun _ => None; aorder := []; afrozen := false |}
  | AFreeze => {| am := am m; aorder := aorder m; afrozen := true |}
  | _ => m
  end.

(** the answer an operation must give on map m *)
Definition answer (m : amap) (o : aop) (r : res) : Prop :=
  match o with
  | AGet k => r = match am m k with Some v => RObj v | None => RErr ENotFound end
  | ASet _ _ => r = if afrozen m then RErr EFrozen else ROk
  | ARemove k => r = if afrozen m then RErr EFrozen
                     else match am m k with Some v => RObj v | None => RErr ENotFound end
  | ADelete k => r = if afrozen m then RErr EFrozen
                     else match am m k with Some _ => ROk | None => RErr ENotFound end
  | AClear => r = if afrozen m then RErr EFrozen else ROk
  | ACount => r = RNum (length (aorder m))
  | AHas k => r = RBool (match am m k with Some _ => true | None => false end)
  | AKeys => exists ks, r = RObjs (map Some ks) /\ Forall2 key_is ks (aorder m)
  | AVals => exists vs, r = RObjs vs /\ map (am m) (aorder m) = map Some vs
  | AFreeze => r = if afrozen m then RIgnored else ROk
  | AIsFrozen => r = RBool (afrozen m)
  end.

(** the answers of a whole history *)
Fixpoint answers (m : amap) (os : list aop) (rs : list res) : Prop :=
  match os, rs with
  | [], [] => True
  | o :: os, r :: rs => answer m o r /\ answers (anext m o) os rs
  | _, _ => False
  end.

(** ** Numbers as property values *)
Definition has_type (t : ctype) (s : scalar) : Prop :=
  match t, s with TInt, SInt _ | TFlt, SFlt _ | TBool, SBool _ => True | _, _ => False end.
Definition not_nan (s : scalar) : Prop := s <> SFlt S754_nan.
Definition same_scalar (s t : scalar) : Prop := same (OScal 0 s) (OScal 0 t).
