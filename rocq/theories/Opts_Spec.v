(** What configuration is: options found by their path, the arguments and
    documents that name them, and what their texts mean. *)
From Coq Require Import String Ascii.
From Verif Require Import Base Opts_Model.
Local Open Scope Z_scope.

Definition path := list text.

(** The option found under a path. *)
Inductive At : opt -> path -> opt -> Prop :=
| AtHere : forall o, At o [] o
| AtUnder : forall l1 k x l2 p y, ~ In k (map fst l1) -> At x p y -> At (ODict (l1 ++ (k, x) :: l2)) (k :: p) y.
(** No option is there, and nothing stands in the way of one: some
    dictionary on the way lacks the next name. *)
Definition Free (o : opt) (p : path) : Prop :=
  exists p1 k p2 d, p = p1 ++ k :: p2 /\ At o p1 (ODict d) /\ ~ In k (map fst d).

Inductive SameType : opt -> opt -> Prop :=
| StBool : forall a b, SameType (OBool a) (OBool b)
| StInt : forall a b, SameType (OInt a) (OInt b)
| StFloat : forall a b c d, SameType (OFloat a b) (OFloat c d)
| StStr : forall a b, SameType (OStr a) (OStr b)
| StList : forall a b, SameType (OList a) (OList b)
| StDict : forall a b, SameType (ODict a) (ODict b)
| StOther : SameType OOther OOther.

Definition Prefix (p q : path) : Prop := exists r, q = p ++ r.
Definition Apart (p q : path) : Prop := ~ Prefix p q /\ ~ Prefix q p.

(** ** Arguments *)
Fixpoint joined (p : path) : text :=
  match p with [] => [] | [k] => k | k :: r => k ++ "_"%char :: joined r end.
Definition Clean (k : text) : Prop := ~ In "_"%char k /\ ~ In "="%char k.
(** the argument or variable [a] gives the option at [p] the text [v] *)
Definition Says (prefix a : text) (p : path) (v : text) : Prop :=
  p <> [] /\ Forall Clean p /\ a = prefix ++ joined p ++ "="%char :: v.
(** ... the last that does, nothing else concerns that option, what it lies
    in, or what lies in it *)
Definition SaysLast (prefix : text) (args : list text) (p : path) (v : text) : Prop :=
  (exists a1 a a2, args = a1 ++ a :: a2 /\ Says prefix a p v /\ forall b w, In b a2 -> ~ Says prefix b p w) /\
  (forall b q w, In b args -> Says prefix b q w -> q = p \/ Apart p q).

(** ** Texts *)
Definition SameLetter (a b : ascii) : Prop :=
  a = b \/ ((65 <= nat_of_ascii a <= 90)%nat /\ nat_of_ascii b = (nat_of_ascii a + 32)%nat).
Definition BoolText (v : text) (b : bool) : Prop :=
  Forall2 SameLetter v (list_ascii_of_string (if b then "true" else "false")).
Inductive Digits : text -> Z -> Prop :=
| DNone : Digits [] 0
| DMore : forall l z n, Digits l z -> (n < 10)%nat -> Digits (l ++ [ascii_of_nat (48 + n)]) (10 * z + Z.of_nat n).
Definition Int64 (z : Z) : Prop := - 2 ^ 63 <= z < 2 ^ 63.
Definition IntText (v : text) (z : Z) : Prop :=
  Int64 z /\ exists l, l <> [] /\ ((v = l /\ Digits l z) \/ (v = "-"%char :: l /\ Digits l (- z))).
(** an integer part, a point and a fraction, not both empty: [m * 10 ^ e] *)
Definition FloatText (v : text) (m e : Z) : Prop :=
  exists a b, a ++ b <> [] /\ e = - Z.of_nat (length b) /\
    ((v = a ++ "."%char :: b /\ Digits (a ++ b) m) \/ (v = "-"%char :: a ++ "."%char :: b /\ Digits (a ++ b) (- m))).
Definition Quoted (v w : text) : Prop := v = """"%char :: w ++ [""""%char].
Definition NotQuoted (v : text) : Prop := forall w, ~ Quoted v w.
Definition NoDigit (v : text) : Prop := forall c, In c v -> ~ (48 <= nat_of_ascii c <= 57)%nat.
Definition NoBool (v : text) : Prop := forall b, ~ BoolText v b.

(** what a text means for an option of the type of [x] *)
Inductive Reads : opt -> text -> opt -> Prop :=
| RBool : forall a v b, BoolText v b -> Reads (OBool a) v (OBool b)
| RInt : forall a v z, IntText v z -> Reads (OInt a) v (OInt z)
| RFloat : forall a b v m e, FloatText v m e -> Reads (OFloat a b) v (OFloat m e)
| RStr : forall a v, NotQuoted v -> Reads (OStr a) v (OStr v)
| RStrQuoted : forall a v w, Quoted v w -> Reads (OStr a) v (OStr w).
(** texts that say nothing for such an option *)
Inductive Unreadable : opt -> text -> Prop :=
| UBool : forall a v, NoBool v -> NotQuoted v -> Unreadable (OBool a) v
| UInt : forall a v, NoDigit v -> Unreadable (OInt a) v
| UFloat : forall a b v, ~ In "."%char v -> Unreadable (OFloat a b) v
| UFloat' : forall a b v, NoDigit v -> Unreadable (OFloat a b) v
| UList : forall a v, Unreadable (OList a) v
| UDict : forall a v, Unreadable (ODict a) v
| UOther : forall v, Unreadable OOther v.
(** ... and for an option that does not exist yet *)
Inductive Inferred : text -> opt -> Prop :=
| IQuoted : forall v w, Quoted v w -> Inferred v (OStr w)
| IBool : forall v b, BoolText v b -> Inferred v (OBool b)
| IFloat : forall v m e, FloatText v m e -> Inferred v (OFloat m e)
| IInt : forall v z, IntText v z -> Inferred v (OInt z)
| IStr : forall v, NotQuoted v -> NoBool v -> NoDigit v -> Inferred v (OStr v).

(** ** Documents *)
Inductive JAt : json -> path -> json -> Prop :=
| JHere : forall j, JAt j [] j
| JUnder : forall ms k x p y, In (k, x) ms -> JAt x p y -> JAt (JObj ms) (k :: p) y.
(** no object in it, at any path, has a name twice *)
Definition JUnique (j : json) : Prop := forall p ms, JAt j p (JObj ms) -> NoDup (map fst ms).
Inductive JValue : json -> opt -> Prop :=
| JvBool : forall b, JValue (JBool b) (OBool b)
| JvInt : forall z, Int64 z -> JValue (JInt z) (OInt z)
| JvFloat : forall m e, JValue (JDouble m e) (OFloat m e)
| JvStr : forall s, JValue (JString s) (OStr s).
(** the values of a document, and the objects with nothing in them *)
Definition JLeaf (j : json) (p : path) : Prop := p <> [] /\ exists v, JAt j p v /\ forall k w r, v <> JObj ((k, w) :: r).

(** ** Providers *)
Definition prefixOf (p : provider) : text :=
  match p with Env _ => list_ascii_of_string "OPENDAQ_CONFIG_" | Cmd _ => list_ascii_of_string "-C" | Json _ => [] end.
(** a key as it is split: every underscore separates *)
Definition KeyPath (key : text) (p : path) : Prop :=
  p <> [] /\ Forall (fun k => ~ In "_"%char k) p /\ key = joined p.
(** everything a provider can concern *)
Inductive Concerns : provider -> path -> Prop :=
| CEnv : forall args a key v p, In a args -> a = list_ascii_of_string "OPENDAQ_CONFIG_" ++ key ++ "="%char :: v ->
    ~ In "="%char key -> KeyPath key p -> Concerns (Env args) p
| CCmd : forall args a key v p, In a args -> a = list_ascii_of_string "-C" ++ key ++ "="%char :: v ->
    ~ In "="%char key -> KeyPath key p -> Concerns (Cmd args) p
| CJson : forall j p, JLeaf j p -> Concerns (Json (Some j)) p.
(** a provider gives an option of the type of [x] the value [y] *)
Inductive Gives : provider -> path -> opt -> opt -> Prop :=
| GEnv : forall args p v x y, SaysLast (list_ascii_of_string "OPENDAQ_CONFIG_") args p v -> Reads x v y -> Gives (Env args) p x y
| GCmd : forall args p v x y, SaysLast (list_ascii_of_string "-C") args p v -> Reads x v y -> Gives (Cmd args) p x y
| GJson : forall j p v x y, JUnique j -> JAt j p v -> p <> [] -> JValue v y -> SameType x y -> Gives (Json (Some j)) p x y.
(** ... and to one that does not exist *)
Inductive GivesNew : provider -> path -> opt -> Prop :=
| NEnv : forall args p v y, SaysLast (list_ascii_of_string "OPENDAQ_CONFIG_") args p v -> Inferred v y -> GivesNew (Env args) p y
| NCmd : forall args p v y, SaysLast (list_ascii_of_string "-C") args p v -> Inferred v y -> GivesNew (Cmd args) p y
| NJson : forall j p v y, JUnique j -> JAt j p v -> p <> [] -> JValue v y -> GivesNew (Json (Some j)) p y.

Definition NoNull (o : opt) : Prop := forall p, ~ At o p ONull.
Definition NoNullIn (p : provider) : Prop := match p with Json (Some j) => forall q, ~ JAt j q JNull | _ => True end.
(** calls on the builder that only concern configuration *)
Definition configures (o : op) : Prop := match o with SetTo _ _ _ => False | _ => True end.
(** ... that read the options *)
Definition asks (o : op) : Prop := o = GetOptions \/ o = Build.
