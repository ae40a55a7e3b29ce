(** Options of an instance and the configuration providers that fill them:
    core/opendaq/opendaq/src/base_config_provider_impl.cpp,
    cmd_line_args_config_provider_impl.cpp, env_config_provider_impl.cpp,
    json_config_provider_impl.cpp and instance_builder_impl.cpp (the options).
    Simplified: dictionaries are association lists in insertion order
    (corecontainers' ordered map); a JSON document is given as a tree (its
    text is parsed by rapidjson); a floating-point number is a decimal
    mantissa and exponent, and hexadecimal numbers, infinities and NaN are
    not read, nor numbers too large for a double refused. *)
From Coq Require Import String Ascii.
From Verif Require Import Base.
Local Open Scope Z_scope.

Definition text := list ascii.
Definition t (s : string) : text := list_ascii_of_string s.
Definition text_eqb (a b : text) : bool := if list_eq_dec ascii_dec a b then true else false.

Inductive opt :=
| ONull | OBool (b : bool) | OInt (z : Z) | OFloat (m e : Z) | OStr (s : text)
| OList (l : list opt) | ODict (l : list (text * opt)) | OOther.
(** the core type; a null has none *)
Inductive kind := KBool | KInt | KFloat | KString | KList | KDict | KOther.
Definition kindOf (o : opt) : option kind :=
  match o with
  | ONull => None | OBool _ => Some KBool | OInt _ => Some KInt | OFloat _ _ => Some KFloat | OStr _ => Some KString
  | OList _ => Some KList | ODict _ => Some KDict | OOther => Some KOther
  end.
Definition kind_eqb (a b : option kind) : bool :=
  match a, b with
  | None, None | Some KBool, Some KBool | Some KInt, Some KInt | Some KFloat, Some KFloat | Some KString, Some KString
  | Some KList, Some KList | Some KDict, Some KDict | Some KOther, Some KOther => true
  | _, _ => false
  end.

Definition dict := list (text * opt).
Fixpoint lookup (l : dict) (k : text) : option opt :=
  match l with [] => None | (k', v) :: r => if text_eqb k' k then Some v else lookup r k end.
Fixpoint assign (l : dict) (k : text) (v : opt) : dict :=
  match l with [] => [(k, v)] | (k', v') :: r => if text_eqb k' k then (k', v) :: r else (k', v') :: assign r k v end.

(** ** Arguments and environment variables *)

(** std::string::find of a character *)
Fixpoint find (c : ascii) (l : text) : option nat :=
  match l with [] => None | x :: r => if ascii_dec x c then Some O else option_map S (find c r) end.
Fixpoint set_text (l : list (text * text)) (k v : text) : list (text * text) :=
  match l with [] => [(k, v)] | (k', v') :: r => if text_eqb k' k then (k', v) :: r else (k', v') :: set_text r k v end.
(** base_config_provider_impl.cpp:9-29: "prefix...=value" *)
Definition keyValue (prefix arg : text) : option (text * text) :=
  if text_eqb (firstn (length prefix) arg) prefix then
    match find "="%char (skipn (length prefix) arg) with
    | Some n => Some (firstn (length prefix + n) arg, skipn (length prefix + n + 1) arg)
    | None => None
    end
  else None.
Definition valuesStartingWith (args : list text) (prefix : text) : list (text * text) :=
  fold_left (fun acc a => match keyValue prefix a with Some (k, v) => set_text acc k v | None => acc end) args [].

(** :36-52 SplitKey, on what follows the prefix *)
Fixpoint split (d : ascii) (l : text) : list text :=
  match l with
  | [] => [[]]
  | x :: r => if ascii_dec x d then [] :: split d r
              else match split d r with [] => [[x]] | w :: ws => (x :: w) :: ws end
  end.
Definition splitKey (key prefix : text) : list text := split "_"%char (skipn (length prefix) key).

(** :31-34 *)
Definition lower (c : ascii) : ascii :=
  let n := nat_of_ascii c in if ((65 <=? n) && (n <=? 90))%nat then ascii_of_nat (n + 32) else c.
(** :55-61 *)
Definition tryBool (v : text) : option opt :=
  let w := map lower v in
  if text_eqb w (t "true") then Some (OBool true) else if text_eqb w (t "false") then Some (OBool false) else None.

Definition digit (c : ascii) : option Z :=
  let n := nat_of_ascii c in if ((48 <=? n) && (n <=? 57))%nat then Some (Z.of_nat n - 48) else None.
Definition is_space (c : ascii) : bool := let n := nat_of_ascii c in ((n =? 32) || ((9 <=? n) && (n <=? 13)))%nat.
Fixpoint skip_spaces (l : text) : text := match l with x :: r => if is_space x then skip_spaces r else l | [] => [] end.
(** the longest run of digits: their value, how many, and the rest *)
Fixpoint digits (l : text) (acc : Z) (n : nat) : Z * nat * text :=
  match l with
  | x :: r => match digit x with Some d => digits r (acc * 10 + d) (S n) | None => (acc, n, l) end
  | [] => (acc, n, [])
  end.
Definition sign (l : text) : Z * text :=
  match l with
  | x :: r => if ascii_dec x "-"%char then (-1, r) else if ascii_dec x "+"%char then (1, r) else (1, l)
  | [] => (1, [])
  end.
Definition in_int64 (z : Z) : bool := (-9223372036854775808 <=? z) && (z <=? 9223372036854775807).
(** :80-92: std::stoll reads a number at the start of the text *)
Definition tryInteger (v : text) : option opt :=
  let (s, l) := sign (skip_spaces v) in
  match digits l 0 0 with
  | (_, O, _) => None
  | (a, _, _) => if in_int64 (s * a) then Some (OInt (s * a)) else None
  end.
(** std::stod on decimal texts *)
Definition exponent (l : text) : Z :=
  match l with
  | x :: r => if ascii_dec (lower x) "e"%char
              then let (s, r') := sign r in match digits r' 0 0 with (a, _, _) => s * a end
              else 0
  | [] => 0
  end.
Definition stod (v : text) : option (Z * Z) :=
  let (s, l) := sign (skip_spaces v) in
  match digits l 0 0 with
  | (a, n, r) =>
    let fraction := match r with x :: r' => if ascii_dec x "."%char then digits r' a 0 else (a, O, r) | [] => (a, O, []) end in
    match fraction with
    | (b, m, r'') => if (n + m =? 0)%nat then None else Some (s * b, exponent r'' - Z.of_nat m)
    end
  end.
(** :63-78 *)
Definition tryFloat (v : text) : option opt :=
  match find "."%char v with
  | None => None
  | Some _ => match stod v with Some (m, e) => Some (OFloat m e) | None => None end
  end.

(** "..." with the quotes taken off *)
Definition unquote (v : text) : option text :=
  match v with
  | x :: r => if ascii_dec x """"%char
              then match rev r with y :: r' => if ascii_dec y """"%char then Some (rev r') else None | [] => None end
              else None
  | [] => None
  end.
(** :94-109 *)
Definition undefinedValue (v : text) : opt :=
  match unquote v with
  | Some w => OStr w
  | None => match tryBool v with
            | Some x => x
            | None => match tryFloat v with
                      | Some x => x
                      | None => match tryInteger v with Some x => x | None => OStr v end
                      end
            end
  end.
(** :111-157 HandleOptionLeaf; [None]: nothing is written *)
Definition optionLeaf (child : opt) (v : text) : option opt :=
  let w := match unquote v with Some w => w | None => v end in
  match kindOf child with
  | Some KBool => tryBool w
  | Some KInt => tryInteger w
  | Some KFloat => tryFloat w
  | Some KString | None => Some (OStr w)
  | _ => None
  end.
(** :158-188 WriteValue *)
Fixpoint writeValue (l : dict) (tokens : list text) (v : text) : dict :=
  match tokens with
  | [] => l
  | [k] => match lookup l k with
           | Some child => match optionLeaf child v with Some x => assign l k x | None => l end
           | None => assign l k (undefinedValue v)
           end
  | k :: rest => match lookup l k with
                 | None => assign l k (ODict (writeValue [] rest v))
                 | Some (ODict d) => assign l k (ODict (writeValue d rest v))
                 | Some _ => l
                 end
  end.
Definition populateFrom (args : list text) (prefix : text) (l : dict) : dict :=
  fold_left (fun acc p => writeValue acc (splitKey (fst p) prefix) (snd p)) (valuesStartingWith args prefix) l.
(** cmd_line_args_config_provider_impl.cpp:14-26, env_config_provider_impl.cpp:26-40 *)
Definition cmdPrefix : text := t "-C".
Definition envPrefix : text := t "OPENDAQ_CONFIG_".

(** ** JSON documents *)
Inductive json := JNull | JBool (b : bool) | JInt (z : Z) | JDouble (m e : Z) | JString (s : text) | JArr (l : list json) | JObj (l : list (text * json)).

(** json_config_provider_impl.cpp:56-81; an integer is between -2^63 and
    2^64 and becomes a signed one *)
Definition signed (z : Z) : Z := let m := z mod two64 in if m <? two64 / 2 then m else m - two64.
(** :83-109 *)
Definition primitive (j : json) : opt :=
  match j with
  | JNull => ONull | JBool b => OBool b | JString s => OStr s | JInt z => OInt (signed z) | JDouble m e => OFloat m e
  | _ => ONull
  end.
Definition isNull (o : opt) : bool := match o with ONull => true | _ => false end.
Definition current (l : dict) (k : text) : opt := match lookup l k with Some o => o | None => ONull end.
(** a primitive member of an object: :189-199 *)
Definition primitiveMember (l : dict) (k : text) (p : opt) : dict :=
  let cur := current l k in
  if negb (isNull cur) && (isNull p || negb (kind_eqb (kindOf cur) (kindOf p))) then l else assign l k p.
Definition orDict (o : opt) : opt := match o with ONull => ODict [] | _ => o end.
Definition orList (o : opt) : opt := match o with ONull => OList [] | _ => o end.
(** :113-205 HandleArray and HandleObject, applied to an option *)
Fixpoint handle (j : json) (o : opt) {struct j} : opt :=
  match j with
  | JObj ms =>
    match o with
    | ODict l =>
      ODict ((fix go (ms : list (text * json)) (l : dict) {struct ms} : dict :=
                match ms with
                | [] => l
                | (k, v) :: r =>
                  go r (match v with
                        | JObj _ => assign l k (handle v (orDict (current l k)))
                        | JArr _ => assign l k (handle v (orList (current l k)))
                        | _ => primitiveMember l k (primitive v)
                        end)
                end) ms l)
    | _ => o
    end
  | JArr els =>
    match o with
    | OList _ =>
      OList ((fix each (els : list json) : list opt :=
                match els with
                | [] => []
                | e :: r => (match e with JObj _ => handle e (ODict []) | JArr _ => handle e (OList []) | _ => primitive e end) :: each r
                end) els)
    | _ => o
    end
  | _ => o
  end.

(** ** Providers and the builder *)
Inductive provider :=
| Env (environment : list text)
| Cmd (args : list text)
| Json (document : option json).     (** [None]: no such file, or it is no JSON *)
Definition populate (p : provider) (l : dict) : dict :=
  match p with
  | Env e => populateFrom e envPrefix l
  | Cmd a => populateFrom a cmdPrefix l
  | Json None => l
  | Json (Some j) => match handle j (ODict l) with ODict l' => l' | _ => l end
  end.

(** instance_builder_impl.cpp:11-46 *)
Definition defaults : dict :=
  [(t "ModuleManager", ODict [(t "ModulesPaths", OList [OStr []]); (t "AddDeviceRescanTimer", OInt 5000); (t "SafeLoadingMode", OBool false)]);
   (t "Scheduler", ODict [(t "WorkersNum", OInt 0); (t "UseMainLoop", OBool false)]);
   (t "Logging", ODict [(t "GlobalLogLevel", OInt 7)]);
   (t "RootDevice", ODict [(t "DefaultLocalId", OStr []); (t "ConnectionString", OStr [])]);
   (t "Configuration", ODict [(t "SerializePrettyPrint", OBool false)]);
   (t "Modules", ODict []);
   (t "MdnsDiscoveryServer", ODict [(t "SingleQuerierRateLimitPerSecond", OInt 25); (t "MaxActiveQueriers", OInt 150);
                                    (t "MaxQueryCountPerSecond", OInt 75); (t "EnableDiscoveryRateLimit", OBool true)])].

(** the builder; instances made by it hold the builder's own dictionary *)
Record builder := { options : dict; providers : list provider; standard : option (option json) (** the standard file, if enabled *) }.
Definition newBuilder : builder := {| options := defaults; providers := []; standard := None |}.
(** :377-421 getOptions *)
Definition populateAll (b : builder) : dict :=
  fold_left (fun l p => populate p l) (match standard b with Some d => Json d :: providers b | None => providers b end) (options b).
Inductive op :=
| AddProvider (p : provider)
| EnableStandard (file : option json)
| SetTo (section key : text) (v : opt)      (** the setters of the builder *)
| GetOptions
| Build.                                    (** an instance: getOptions, and the dictionary is its context's *)
Definition setOption (l : dict) (s k : text) (v : opt) : dict :=
  match lookup l s with Some (ODict d) => assign l s (ODict (assign d k v)) | _ => l end.
Definition with_options (b : builder) (l : dict) : builder := {| options := l; providers := providers b; standard := standard b |}.
Definition step (b : builder) (o : op) : builder :=
  match o with
  | AddProvider p => {| options := options b; providers := providers b ++ [p]; standard := standard b |}
  | EnableStandard f => {| options := options b; providers := providers b; standard := Some f |}
  | SetTo s k v => with_options b (setOption (options b) s k v)
  | GetOptions | Build => with_options b (populateAll b)
  end.
Definition run (b : builder) (ops : list op) : builder := fold_left step ops b.
(** what an instance built before reads now: Context::getOptions *)
Definition instanceOptions (b : builder) : dict := options b.
