(** * MMgr_Model: how the module manager finds and connects devices

    Models core/opendaq/modulemanager/src/module_manager_impl.cpp:588-727
    (grouping of found devices), 764-855 and 1025-1058, 1500-1513, 1673-1696,
    1914-1962 (configurations of a new device), 857-948 (several devices at
    once), 1060-1154 (local ids of function blocks), 1329-1498 (smart
    connections), 1515-1574 (streaming), 1757-1799 (connection strings),
    1854-1911 (merging of capabilities), and
    core/opendaq/device/include/opendaq/device_info_impl.h:773-905 (the list of
    capabilities).

    Simplifications: modules are loaded and answer as given; a device info and
    a capability are values (the objects of one scan are not shared with an
    earlier one); protocol ids and property names have no dots; values of
    properties are texts and setting one never fails; network checks, logging,
    freezing and locks are left out; rescanning is left out (the groups are
    those of the last scan). *)
From Coq Require Import Ascii String List Bool Arith ZArith.
From Verif Require Import CStat_Model.
Import ListNotations.

(** ** Connection strings *)

(** boost::split with one delimiter: empty pieces are kept. *)
Fixpoint split (d : ascii) (s : string) : list string :=
  match s with
  | EmptyString => [EmptyString]
  | String c r =>
      if Ascii.eqb c d then EmptyString :: split d r
      else match split d r with
           | p :: ps => String c p :: ps
           | [] => [String c EmptyString]
           end
  end.

(** :1787-1796: tsl::ordered_map::insert keeps the first value of a key. *)
Fixpoint parseOptions (l : list string) (m : dict string) : option (dict string) :=
  match l with
  | [] => Some m
  | o :: r =>
      match split "=" o with
      | [k; v] => parseOptions r (if dhas k m then m else m ++ [(k, v)])
      | _ => None
      end
  end.

(** :1771-1799 SplitConnectionStringAndOptions; [None]: it throws.  A value
    is the text given to EvalValue. *)
Definition splitConnection (s : string) : option (string * dict string) :=
  match split "?" s with
  | [b] => Some (b, [])
  | [b; o] => match parseOptions (split "&" o) [] with
              | Some m => Some (b, m)
              | None => None
              end
  | _ => None
  end.

(** :1757-1769: without "://" the whole string (substr (0, npos)). *)
Fixpoint prefixOf (s : string) : string :=
  match s with
  | EmptyString => EmptyString
  | String c r => if starts "://" s then EmptyString else String c (prefixOf r)
  end.

(** ** Found devices *)

Inductive ptype := PUnknown | PStreaming | PConfiguration | PBoth.
Inductive reach := Unknown | Reachable | Unreachable.

Record addr := Addr { ad_type : string; ad_conn : string; ad_reach : reach }.
Record cap := Cap { cp_id : string; cp_type : ptype; cp_conn : string; cp_addrs : list addr }.
Record dev := Dev { d_man : string; d_ser : string; d_conn : string; d_caps : list cap; d_hidden : bool }.

(** device_info_impl.h:841-855 hasServerCapability *)
Definition hasCap (id : string) (l : list cap) : bool := existsb (fun c => String.eqb (cp_id c) id) l.

(** :659-661, :669-671 the capabilities that are not there are added. *)
Fixpoint addCaps (have new : list cap) : list cap :=
  match new with
  | [] => have
  | c :: r => addCaps (if hasCap (cp_id c) have then have else have ++ [c]) r
  end.

Definition withCaps (d : dev) (l : list cap) : dev := Dev (d_man d) (d_ser d) (d_conn d) l (d_hidden d).
Definition withConn (d : dev) (c : string) : dev := Dev (d_man d) (d_ser d) c (d_caps d) (d_hidden d).

(** :652 *)
Definition daqId (d : dev) : string := ("daq://" ++ d_man d ++ "_" ++ d_ser d)%string.

(** :646 *)
Definition plain (d : dev) : bool :=
  String.eqb (d_man d) EmptyString || String.eqb (d_ser d) EmptyString ||
  match d_caps d with [] => true | _ => false end.

(** :639-684: one found device; [ipmod] are the devices whose address can be
    changed. *)
Definition group (ipmod : dict dev) (g : dict dev) (d : dev) : dict dev :=
  if plain d then dset (d_conn d) d g
  else
    match dget (daqId d) g with
    | Some v => dset (daqId d) (withCaps v (addCaps (d_caps v) (d_caps d))) g
    | None =>
        match dget (daqId d) ipmod with
        | Some v => dset (daqId d) (withConn (withCaps v (addCaps (d_caps v) (d_caps d))) (daqId d)) g
        | None => dset (daqId d) (withConn d (daqId d)) g
        end
    end.

(** :622-685; [None]: the module failed. *)
Definition scan (ipmod : dict dev) (mods : list (option (list dev))) : dict dev :=
  fold_left (group ipmod) (flat_map (fun m => match m with Some l => l | None => [] end) mods) [].

(** :709-721 getAvailableDevices *)
Definition available (g : dict dev) : list dev := filter (fun d => negb (d_hidden d)) (map snd g).

(** ** Smart connections *)

(** :1329-1348 *)
Definition nativeId : string := "OpenDAQNativeConfiguration".
Definition priority (c : cap) : nat :=
  if String.eqb (cp_id c) nativeId then 42
  else match cp_type c with
       | PUnknown => 0
       | PStreaming => 1
       | PConfiguration => 2
       | PBoth => 3
       end.

(** :1436-1447 *)
Fixpoint select (best : cap) (l : list cap) : cap :=
  match l with
  | [] => best
  | c :: r => select (if priority best <? priority c then c else best) r
  end.

(** :1383-1415: the loop; [st] is resolvedStatus. *)
Fixpoint pickAddress (t : string) (l : list addr) (cs : option string) (st : reach) : option string :=
  match l with
  | [] => cs
  | a :: r =>
      if String.eqb (ad_type a) t then
        match ad_reach a with
        | Unknown =>
            pickAddress t r (match st with Unknown => cs | _ => Some (ad_conn a) end) Unknown
        | Reachable => Some (ad_conn a)
        | Unreachable =>
            pickAddress t r (match cs with Some _ => cs | None => Some (ad_conn a) end) st
        end
      else pickAddress t r cs st
  end.

Definition connectionWithType (c : cap) (t : string) : option string :=
  pickAddress t (cp_addrs c) None Unreachable.

(** :1427-1474 *)
Definition resolveCap (caps : list cap) (t : string) : option (cap * string) :=
  match caps with
  | [] => None
  | c :: r =>
      let s := select c caps in
      let fixed := if String.eqb t "IPv4" || String.eqb t "IPv6" then connectionWithType s t else None in
      Some (s, match fixed with Some x => x | None => cp_conn s end)
  end.

(** :1350-1358, 797-804: the connection string used in the end; [None]: not
    found. *)
Definition resolve (g : dict dev) (s t : string) : option string :=
  if starts "daq://" s then
    match dget s g with
    | Some d => option_map snd (resolveCap (d_caps d) t)
    | None => None
    end
  else Some s.

(** ** Modules *)

(** What a module says: its device types and streaming types as pairs of id
    and prefix ([NoTypes]: not implemented), and whether creating succeeds. *)
Inductive types := NoTypes | TypesFail | Types (l : list (string * string)).
Record modul := Modul { m_types : types; m_creates : string -> bool }.

(** :1490-1497 *)
Fixpoint findType (p : string) (l : list (string * string)) : option string :=
  match l with
  | [] => None
  | (id, q) :: r => if String.eqb q p then Some id else findType p r
  end.

Inductive made := Made (i : nat) (ty : string) | Refused (i : nat) (ty : string) | NoModule | Throws (i : nat).

(** :806-843: the loop over the modules. *)
Fixpoint createWith (i : nat) (mods : list modul) (s : string) : made :=
  match mods with
  | [] => NoModule
  | m :: r =>
      match m_types m with
      | TypesFail => Throws i
      | NoTypes => createWith (S i) r s
      | Types l =>
          match findType (prefixOf s) l with
          | None => createWith (S i) r s
          | Some ty => if m_creates m s then Made i ty else Refused i ty
          end
      end
  end.

Inductive outcome := Created (i : nat) (ty : string) (conn : string) (options : dict string) | Failed.

(** :764-855 createDevice *)
Definition createDevice (mods : list modul) (g : dict dev) (t s : string) : outcome :=
  match splitConnection s with
  | None => Failed
  | Some (b, o) =>
      if String.eqb b EmptyString then Failed
      else match resolve g b t with
           | None => Failed
           | Some c => match createWith 0 mods c with
                       | Made i ty => Created i ty c o
                       | _ => Failed
                       end
           end
  end.

(** :1515-1574: the modules that made a streaming, in order, and the one
    returned; [None]: it throws.  There is no break. *)
Fixpoint createStreaming (i : nat) (mods : list modul) (s : string) (acc : list nat) : list nat * option (option nat) :=
  match mods with
  | [] => (acc, Some (match rev acc with [] => None | x :: _ => Some x end))
  | m :: r =>
      match m_types m with
      | Types l =>
          match findType (prefixOf s) l with
          | None => createStreaming (S i) r s acc
          | Some _ => if m_creates m s then createStreaming (S i) r s (acc ++ [i]) else (acc, None)
          end
      | _ => createStreaming (S i) r s acc
      end
  end.

(** ** Several devices at once *)

Inductive overall := AllCreated | SomeCreated | NoneCreated | NoArguments.
Record several := Several { v_devices : dict bool; v_codes : dict bool; v_count : nat }.

(** :898-935: one of the asynchronous calls ends; [ok] is what createDevice
    gives for it. *)
Definition oneEnds (ok : string -> bool) (s : several) (c : string) : several :=
  Several (dset c (ok c) (v_devices s)) (dset c (ok c) (v_codes s)) (v_count s + if ok c then 1 else 0).

(** :857-948: [ends] is the order in which they end. *)
Definition createDevices (ok : string -> bool) (args ends : list string) : option several * overall :=
  match args with
  | [] => (None, NoArguments)
  | _ =>
      let s := fold_left (oneEnds ok) ends (Several (map (fun c => (c, false)) args) [] 0) in
      (Some s, if v_count s =? length args then AllCreated
               else if v_count s =? 0 then NoneCreated else SomeCreated)
  end.

(** ** Local ids of function blocks *)

(** std::string::find_last_of and substr (:1112-1116) *)
Fixpoint afterLast (s : string) : option string :=
  match s with
  | EmptyString => None
  | String a r => match afterLast r with
                  | Some x => Some x
                  | None => if Ascii.eqb a "_"%char then Some r else None
                  end
  end.

Definition digit (c : ascii) : option Z :=
  let n := Z.of_N (N_of_ascii c) in
  if ((48 <=? n) && (n <=? 57))%Z then Some (n - 48)%Z else None.

Fixpoint digits (s : string) (acc : Z) (any : bool) : option Z :=
  match s with
  | EmptyString => if any then Some acc else None
  | String c r => match digit c with
                  | Some d => digits r (acc * 10 + d)%Z true
                  | None => if any then Some acc else None
                  end
  end.

Definition intMax : Z := 2147483647.
Definition intMin : Z := -2147483648.
Definition isSpace (c : ascii) : bool :=
  let n := N_of_ascii c in ((N.leb 9 n && N.leb n 13) || N.eqb n 32)%bool.
Fixpoint skipSpace (s : string) : string :=
  match s with String c r => if isSpace c then skipSpace r else s | _ => s end.

(** strtol: an optional sign, then the digits. *)
Definition signed (s : string) : option Z :=
  match s with
  | String c r => if Ascii.eqb c "-" then option_map Z.opp (digits r 0 false)
                  else if Ascii.eqb c "+" then digits r 0 false else digits s 0 false
  | EmptyString => None
  end.

(** std::stoi; [None]: it throws. *)
Definition stoi (s : string) : option Z :=
  match signed (skipSpace s) with
  | Some z => if ((intMin <=? z) && (z <=? intMax))%Z then Some z else None
  | None => None
  end.

(** :1103-1126 *)
Definition number (ty id : string) : option Z :=
  if starts ty id then match afterLast id with Some x => stoi x | None => None end else None.

Fixpoint maxNumber (ty : string) (ids : list string) (m : Z) : Z :=
  match ids with
  | [] => m
  | id :: r => maxNumber ty r (match number ty id with
                               | Some z => if (m <? z)%Z then z else m
                               | None => m
                               end)
  end.

(** :1128; [None]: the addition overflows. *)
Definition newLocalId (ty : string) (ids : list string) : option string :=
  let m := maxNumber ty ids 0 in
  if (m =? intMax)%Z then None
  else Some (ty ++ "_" ++ decimal (Z.to_nat (m + 1)))%string.

(** ** Configuration of a new device *)

(** A general property: value and default value. *)
Definition general := dict (string * string).

(** :1673-1696 OverrideConfigProperties *)
Definition override {A} (set : A -> string -> A) (target : dict A) (source : dict string) : dict A :=
  map (fun p => (fst p, match dget (fst p) source with Some v => set (snd p) v | None => snd p end)) target.

(** :1923-1940: the general properties of which the target has the default. *)
Fixpoint copyGeneral (gen : general) (target : dict string) : dict string :=
  match gen with
  | [] => target
  | (n, (v, d)) :: r =>
      copyGeneral r (match dget n target with
                     | Some x => if String.eqb x d then dset n v target else target
                     | None => target
                     end)
  end.

(** :1025-1034 *)
Fixpoint fromOptions (o : dict string) (target : dict string) : dict string :=
  match o with
  | [] => target
  | (n, v) :: r => fromOptions r (if dhas n target then dset n v target else target)
  end.

(** The configuration given by the user: none, a plain one, or a complete
    one with the general and the device values. *)
Inductive given := NoConfig | Simple (c : dict string) | Full (gen : general) (device : dict string).

(** :770-786, 1036-1058; [gen] and [device] are the defaults. *)
Definition deviceConfig (gen : general) (device : dict string) (g : given) (o : dict string) : dict string :=
  match g with
  | NoConfig => fromOptions o (copyGeneral gen device)
  | Simple c =>
      let gen1 := override (fun p v => (v, snd p)) gen c in
      fromOptions o (override (fun _ v => v) (copyGeneral gen1 device) c)
  | Full gen1 device1 => fromOptions o (copyGeneral gen1 device1)
  end.

(** ** Capabilities of a connected device *)

(** The properties of a capability: value and default value. *)
Definition props := dict (string * string).
Record pcap := PCap { pc_id : string; pc_props : props }.

(** :1854-1877; a property the device lacks is added as a copy of the
    property (IPropertyInternal::clone), which has the default value. *)
Fixpoint mergeProps (disc have : props) : props :=
  match disc with
  | [] => have
  | (n, (v, d)) :: r =>
      mergeProps r (match dget n have with
                    | None => have ++ [(n, (d, d))]
                    | Some (_, d0) => if String.eqb v d then have else dset n (v, d0) have
                    end)
  end.

Fixpoint findCap (id : string) (l : list pcap) : option pcap :=
  match l with
  | [] => None
  | c :: r => if String.eqb (pc_id c) id then Some c else findCap id r
  end.

Definition removeCap (id : string) (l : list pcap) : list pcap :=
  filter (fun c => negb (String.eqb (pc_id c) id)) l.

(** :1887-1909 *)
Fixpoint mergeCaps (disc have : list pcap) : list pcap :=
  match disc with
  | [] => have
  | c :: r =>
      mergeCaps r (match findCap (pc_id c) have with
                   | Some h => removeCap (pc_id c) have ++ [PCap (pc_id h) (mergeProps (pc_props c) (pc_props h))]
                   | None => have ++ [c]
                   end)
  end.
