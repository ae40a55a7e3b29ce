(** What C61 says: who is let in, as which user, with which groups. *)
From Coq Require Import String Ascii.
From Verif Require Import Base Auth_Model.

(** The user a list of users has under a name: the last one. *)
Definition last_named (l : list user) (name : text) (u : user) : Prop :=
  exists before behind, l = before ++ u :: behind /\ u_name u = name /\ forall v, In v behind -> u_name v <> name.

(** The texts taken for bcrypt hashes: $2$, $2a$, $2y$ or $2b$, a cost, $, and 53 characters. *)
Definition is_digit (c : ascii) : Prop := In c (t "0123456789").
Definition is_base64 (c : ascii) : Prop :=
  In c (t "./0123456789ABCDEFGHIJKLMNOPQRSTUVWXYZabcdefghijklmnopqrstuvwxyz").
Definition bcrypt_form (s : text) : Prop :=
  exists variant cost digest,
    s = t "$2" ++ variant ++ t "$" ++ cost ++ t "$" ++ digest /\
    In variant [t ""; t "a"; t "y"; t "b"] /\
    cost <> [] /\ Forall is_digit cost /\
    length digest = 53%nat /\ Forall is_base64 digest.

(** A password is right: the hash function says so, or it is the stored text. *)
Definition right_password (bcrypt : text -> text -> bool) (stored password : text) : Prop :=
  (bcrypt_form stored /\ bcrypt password stored = true) \/ (~ bcrypt_form stored /\ password = stored).

(** Users that are the same for everybody who looks at them. *)
Definition same_user (a b : user) : Prop :=
  u_name a = u_name b /\ u_hash a = u_hash b /\ forall g, In g (u_groups a) <-> In g (u_groups b).

(** The part of a text before its first zero byte. *)
Definition up_to_zero (s s' : text) : Prop :=
  ~ In zero s' /\ (s = s' \/ exists r, s = s' ++ zero :: r).

(** How a document is read: it is an object with a truth value under allowAnonymous and an array
    under "users" of objects, each with two texts and, if there are groups, an array of texts;
    without an array of users there are none.  The first member of a name counts. *)
Definition has (o : list (text * json)) (k : string) (v : json) : Prop :=
  exists before behind, o = before ++ (t k, v) :: behind /\ forall x, In x before -> fst x <> t k.
Definition lacks (o : list (text * json)) (k : string) : Prop := forall x, In x o -> fst x <> t k.

Inductive described := Described (name hash : text) (groups : list text).
Definition user_of (d : described) : user := match d with Described n h g => mkUser n h g end.

Inductive reads_user : json -> described -> Prop :=
| reads_one : forall o n h g n' h' g',
    has o "username" (JString n) -> up_to_zero n n' ->
    has o "passwordHash" (JString h) -> up_to_zero h h' ->
    (has o "groups" (JArray (map JString g)) \/ (lacks o "groups" /\ g = [])) -> Forall2 up_to_zero g g' ->
    reads_user (JObject o) (Described n' h' g').

Inductive reads : json -> bool -> list described -> Prop :=
| reads_users : forall o anon js us,
    has o "allowAnonymous" (JBool anon) -> has o "users" (JArray js) -> Forall2 reads_user js us ->
    reads (JObject o) anon us
| reads_none : forall o anon,
    has o "allowAnonymous" (JBool anon) -> (forall js, ~ has o "users" (JArray js)) ->
    reads (JObject o) anon [].
