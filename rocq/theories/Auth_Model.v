(** Users and authentication providers:
    core/coreobjects/src/user_impl.cpp, core/coreobjects/src/authentication_provider_impl.cpp and
    NativeStreamingServerHandler::onAuthenticate
    (shared/libraries/native_streaming_protocol/src/native_streaming_server_handler.cpp).
    Simplified: texts are lists of bytes; user names, hashes and passwords are assigned (not
    null) and, unless they come out of a JSON document, have no zero byte; a JSON document is
    given as a tree (rapidjson parses its text); the check of a password against a hash of
    bcrypt form is a parameter [bcrypt] of everything that uses it (external/bcrypt). *)
From Coq Require Import String Ascii.
From Verif Require Import Base.

Definition text := list ascii.
Definition t (s : string) : text := list_ascii_of_string s.
Definition text_eqb (a b : text) : bool := if list_eq_dec ascii_dec a b then true else false.

(** strcmp, by which StringImpl::compareTo orders
    (core/coretypes/src/stringobject_impl.cpp:198-229). *)
Fixpoint strcmp (a b : text) : comparison :=
  match a, b with
  | [], [] => Eq
  | [], _ => Lt
  | _, [] => Gt
  | x :: a', y :: b' =>
      match N.compare (N_of_ascii x) (N_of_ascii y) with
      | Eq => strcmp a' b'
      | c => c
      end
  end.

(** UserImpl (user_impl.h). *)
Record user := { u_name : text; u_hash : text; u_groups : list text }.

(** std::set<StringPtr>::insert: ordered, an equal element stays. *)
Fixpoint set_insert (g : text) (l : list text) : list text :=
  match l with
  | [] => [g]
  | x :: r =>
      match strcmp g x with
      | Lt => g :: x :: r
      | Eq => x :: r
      | Gt => x :: set_insert g r
      end
  end.

(** UserImpl::sanitizeGroupList (user_impl.cpp:138-154). *)
Definition sanitize (groups : list text) : list text :=
  fold_left (fun l g => set_insert g l) groups (set_insert (t "everyone") []).

(** UserImpl::UserImpl (user_impl.cpp:11-17). *)
Definition mkUser (name hash : text) (groups : list text) : user :=
  {| u_name := name; u_hash := hash; u_groups := sanitize groups |}.

(** UserImpl::isAnonymous (user_impl.cpp:43-49). *)
Definition isAnonymous (u : user) : bool := text_eqb (u_name u) [] && text_eqb (u_hash u) [].

(** UserImpl::equals (user_impl.cpp:51-74); the group lists are compared element by element
    (core/corecontainers/src/listobject_impl.cpp, equals). *)
Fixpoint texts_eqb (a b : list text) : bool :=
  match a, b with
  | [], [] => true
  | x :: a', y :: b' => text_eqb x y && texts_eqb a' b'
  | _, _ => false
  end.
Definition userEqual (a b : user) : bool :=
  if negb (text_eqb (u_name a) (u_name b)) then false
  else if negb (text_eqb (u_hash a) (u_hash b)) then false
  else if negb (texts_eqb (u_groups a) (u_groups b)) then false
  else true.

(** A JSON document, as rapidjson gives it. *)
Inductive json :=
| JNull | JBool (b : bool) | JNumber | JString (s : text) | JArray (l : list json) | JObject (l : list (text * json)).

(** HasMember and operator[] look for the first member of the name. *)
Fixpoint member (l : list (text * json)) (k : text) : option json :=
  match l with
  | [] => None
  | (k', v) :: r => if text_eqb k' k then Some v else member r k
  end.

(** GetString() used as a C string (authentication_provider_impl.cpp:155-156, :177): it ends
    at the first zero byte. *)
Fixpoint cstr (s : text) : text :=
  match s with
  | [] => []
  | c :: r => if Ascii.eqb c zero then [] else c :: cstr r
  end.

(** UserImpl::serialize (user_impl.cpp:76-103) and Deserialize (:119-136).  readList gives
    NOTFOUND for a missing list, which is accepted. *)
Definition serializeUser (u : user) : json :=
  JObject [(t "__type", JString (t "User"));
           (t "username", JString (u_name u));
           (t "passwordHash", JString (u_hash u));
           (t "groups", JArray (map JString (u_groups u)))].

Fixpoint strings (l : list json) : option (list text) :=
  match l with
  | [] => Some []
  | JString s :: r => match strings r with Some x => Some (s :: x) | None => None end
  | _ => None
  end.

Definition deserializeUser (j : json) : option user :=
  match j with
  | JObject o =>
      match member o (t "username"), member o (t "passwordHash") with
      | Some (JString n), Some (JString h) =>
          match member o (t "groups") with
          | None => Some (mkUser n h [])
          | Some (JArray g) => match strings g with Some x => Some (mkUser n h x) | None => None end
          | Some _ => None
          end
      | _, _ => None
      end
  | _ => None
  end.

(** The regular expression of a bcrypt hash (authentication_provider_impl.cpp:13-14), in the
    C locale: dollar, 2 with an optional letter a, y or b, dollar, digits, dollar, 53
    characters. *)
Definition between (a b : ascii) (c : ascii) : bool :=
  (N.leb (N_of_ascii a) (N_of_ascii c) && N.leb (N_of_ascii c) (N_of_ascii b))%bool.
Definition isDigit (c : ascii) : bool := between "0" "9" c.
Definition isBase64 (c : ascii) : bool :=
  between "a" "z" c || between "A" "Z" c || isDigit c || Ascii.eqb c "." || Ascii.eqb c "/".
Definition isVariant (c : ascii) : bool := Ascii.eqb c "a" || Ascii.eqb c "y" || Ascii.eqb c "b".

Definition matchEnd (s : text) : bool := Nat.eqb (length s) 53 && forallb isBase64 s.
Definition matchDollarEnd (s : text) : bool :=
  match s with
  | c :: r => Ascii.eqb c "$" && matchEnd r
  | [] => false
  end.
Fixpoint matchDigits (s : text) : bool :=
  match s with
  | c :: r => if isDigit c then matchDigits r else matchDollarEnd (c :: r)
  | [] => false
  end.
Definition matchCost (s : text) : bool :=
  match s with
  | c :: d :: r => Ascii.eqb c "$" && isDigit d && matchDigits r
  | _ => false
  end.
Definition matchBcrypt (s : text) : bool :=
  match s with
  | a :: b :: c :: r =>
      Ascii.eqb a "$" && Ascii.eqb b "2" && (if isVariant c then matchCost r else matchCost (c :: r))
  | _ => false
  end.

(** AuthenticationProviderImpl: allowAnonymous, users by name, and the anonymous user
    (authentication_provider_impl.cpp:20-25). *)
Record provider := { p_anon : bool; p_users : list (text * user); p_anonymous : user }.

(** DictImpl::set (core/corecontainers/src/dictobject_impl.cpp:60-88). *)
Fixpoint set_user (l : list (text * user)) (k : text) (u : user) : list (text * user) :=
  match l with
  | [] => [(k, u)]
  | (k', u') :: r => if text_eqb k' k then (k', u) :: r else (k', u') :: set_user r k u
  end.
Fixpoint find_user (l : list (text * user)) (k : text) : option user :=
  match l with
  | [] => None
  | (k', u) :: r => if text_eqb k' k then Some u else find_user r k
  end.

Definition empty (anon : bool) : provider :=
  {| p_anon := anon; p_users := []; p_anonymous := mkUser [] [] [] |}.

(** StaticAuthenticationProviderImpl and loadUserList (:68-77, :95-99). *)
Definition loadUsers (l : list user) : list (text * user) :=
  fold_left (fun d u => set_user d (u_name u) u) l [].
Definition static (anon : bool) (l : list user) : provider :=
  {| p_anon := anon; p_users := loadUsers l; p_anonymous := mkUser [] [] [] |}.

Section Authenticate.
  (** BCrypt::validatePassword (password, hash). *)
  Variable bcrypt : text -> text -> bool.

  (** isPasswordValid (:84-90). *)
  Definition passwordValid (hash password : text) : bool :=
    if matchBcrypt hash then bcrypt password hash else text_eqb hash password.

  (** authenticate (:27-39); [None] is OPENDAQ_ERR_AUTHENTICATION_FAILED. *)
  Definition authenticate (p : provider) (name password : text) : option user :=
    match find_user (p_users p) name with
    | None => None
    | Some u => if passwordValid (u_hash u) password then Some u else None
    end.

  (** authenticateAnonymous (:49-58). *)
  Definition authenticateAnonymous (p : provider) : option user :=
    if p_anon p then Some (p_anonymous p) else None.

  (** NativeStreamingServerHandler::onAuthenticate (native_streaming_server_handler.cpp:199-241):
      the user a session is accepted for. *)
  Inductive login := Anonymous | Basic (name password : text).
  Definition onAuthenticate (p : provider) (l : login) : option user :=
    match l with
    | Anonymous => authenticateAnonymous p
    | Basic n w => authenticate p n w
    end.
End Authenticate.

(** What loading a document leads to.  [Undefined]: HasMember of a document that is no object
    (RAPIDJSON_ASSERT, nothing in a release build). *)
Inductive loaded := Loaded (p : provider) | ParseFailed | Undefined.

(** parseUserGroups (:161-183). *)
Fixpoint groupNames (l : list json) : option (list text) :=
  match l with
  | [] => Some []
  | JString s :: r => match groupNames r with Some x => Some (cstr s :: x) | None => None end
  | _ => None
  end.
Definition parseGroups (o : list (text * json)) : option (list text) :=
  match member o (t "groups") with
  | None => Some []
  | Some (JArray g) => groupNames g
  | Some _ => None
  end.

(** parseUser (:147-159). *)
Definition parseUser (o : list (text * json)) : option user :=
  match member o (t "username") with
  | Some (JString n) =>
      match member o (t "passwordHash") with
      | Some (JString h) =>
          match parseGroups o with
          | Some g => Some (mkUser (cstr n) (cstr h) g)
          | None => None
          end
      | _ => None
      end
  | _ => None
  end.

(** parseUsers (:123-145). *)
Fixpoint addUsers (l : list json) (d : list (text * user)) : option (list (text * user)) :=
  match l with
  | [] => Some d
  | JObject o :: r =>
      match parseUser o with
      | Some u => addUsers r (set_user d (u_name u) u)
      | None => None
      end
  | _ => None
  end.
Definition parseUsers (o : list (text * json)) : option (list (text * user)) :=
  match member o (t "users") with
  | Some (JArray l) => addUsers l []
  | _ => Some []
  end.

(** loadJsonString (:103-113) and parseAllowAnonymous (:115-121).  [None]: the text is no JSON. *)
Definition loadJson (document : option json) : loaded :=
  match document with
  | None => ParseFailed
  | Some (JObject o) =>
      match member o (t "allowAnonymous") with
      | Some (JBool b) =>
          match parseUsers o with
          | Some d => Loaded {| p_anon := b; p_users := d; p_anonymous := mkUser [] [] [] |}
          | None => ParseFailed
          end
      | _ => ParseFailed
      end
  | Some _ => Undefined
  end.

(** What a program can do to a provider that others use: ask it, and change the list of groups
    it gets from getGroups, which is the user's own and is not frozen (user_impl.cpp:35-41,
    core/corecontainers/src/listobject_impl.cpp). *)
Inductive use := Ask (l : login) | PushGroup (name group : text) | PushAnonymous (group : text).

Definition pushGroup (g : text) (u : user) : user :=
  {| u_name := u_name u; u_hash := u_hash u; u_groups := u_groups u ++ [g] |}.
Fixpoint onUser (l : list (text * user)) (k : text) (f : user -> user) : list (text * user) :=
  match l with
  | [] => []
  | (k', u) :: r => if text_eqb k' k then (k', f u) :: r else (k', u) :: onUser r k f
  end.
Definition after (p : provider) (x : use) : provider :=
  match x with
  | Ask _ => p
  | PushGroup n g => {| p_anon := p_anon p; p_users := onUser (p_users p) n (pushGroup g); p_anonymous := p_anonymous p |}
  | PushAnonymous g =>
      if p_anon p then {| p_anon := p_anon p; p_users := p_users p; p_anonymous := pushGroup g (p_anonymous p) |} else p
  end.
Definition uses (p : provider) (l : list use) : provider := fold_left after l p.
