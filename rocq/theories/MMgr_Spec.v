(** * MMgr_Spec: what a user expects of finding and connecting devices *)
From Coq Require Import Ascii String List Bool Arith ZArith.
From Verif Require Import CStat_Model MMgr_Model.
Import ListNotations.

(** ** Texts *)

Fixpoint occurs (c : ascii) (s : string) : Prop :=
  match s with
  | EmptyString => False
  | String x r => x = c \/ occurs c r
  end.

(** A key and a value that can be written as an option. *)
Definition cleanText (s : string) : Prop := ~ occurs "?" s /\ ~ occurs "&" s /\ ~ occurs "=" s.
Definition cleanPair (p : string * string) : Prop := cleanText (fst p) /\ cleanText (snd p).

(** "k1=v1&k2=v2&..." *)
Fixpoint optionText (l : list (string * string)) : string :=
  match l with
  | [] => EmptyString
  | [(k, v)] => (k ++ "=" ++ v)%string
  | (k, v) :: r => (k ++ "=" ++ v ++ "&" ++ optionText r)%string
  end.

(** [v] is the first value given for [k]. *)
Definition firstValue {A} (l : list (string * A)) (k : string) (v : A) : Prop :=
  exists l1 l2, l = l1 ++ (k, v) :: l2 /\ ~ In k (map fst l1).

Definition firstValues (l o : list (string * string)) : Prop :=
  NoDup (map fst o) /\ forall k v, In (k, v) o <-> firstValue l k v.

(** ** Found devices *)

Definition identified (d : dev) : Prop :=
  d_man d <> EmptyString /\ d_ser d <> EmptyString /\ d_caps d <> [].

(** All the devices the modules that answered reported, in order. *)
Fixpoint reported (mods : list (option (list dev))) : list dev :=
  match mods with
  | [] => []
  | Some l :: r => l ++ reported r
  | None :: r => reported r
  end.

Definition idText (man ser : string) : string := ("daq://" ++ man ++ "_" ++ ser)%string.

(** A device without identification does not claim a "daq://" address. *)
Definition wellBehaved (l : list dev) : Prop :=
  forall d, In d l -> ~ identified d -> starts "daq://" (d_conn d) = false.

(** A device lists a protocol once (device_info_impl.h refuses a second). *)
Definition onceEach (l : list dev) : Prop := forall d, In d l -> NoDup (map cp_id (d_caps d)).

(** The capabilities known for the identification [id], in order: those of
    the entry with a changeable address, then those found. *)
Inductive offered (id : string) : list dev -> list cap -> Prop :=
| offered_nil : offered id [] []
| offered_yes : forall d l c, identified d -> idText (d_man d) (d_ser d) = id -> offered id l c -> offered id (d :: l) (d_caps d ++ c)
| offered_no : forall d l c, ~ (identified d /\ idText (d_man d) (d_ser d) = id) -> offered id l c -> offered id (d :: l) c.

Definition capsOf (o : option dev) : list cap := match o with Some d => d_caps d | None => [] end.

(** [c] is the first in [l] of its protocol. *)
Definition firstCap (l : list cap) (c : cap) : Prop :=
  exists l1 l2, l = l1 ++ c :: l2 /\ ~ In (cp_id c) (map cp_id l1).

(** ** Choosing *)

(** The preference among protocols. *)
Inductive protocolRank : cap -> nat -> Prop :=
| rank_native : forall c, cp_id c = "OpenDAQNativeConfiguration"%string -> protocolRank c 4
| rank_both : forall c, cp_id c <> "OpenDAQNativeConfiguration"%string -> cp_type c = PBoth -> protocolRank c 3
| rank_conf : forall c, cp_id c <> "OpenDAQNativeConfiguration"%string -> cp_type c = PConfiguration -> protocolRank c 2
| rank_str : forall c, cp_id c <> "OpenDAQNativeConfiguration"%string -> cp_type c = PStreaming -> protocolRank c 1
| rank_unknown : forall c, cp_id c <> "OpenDAQNativeConfiguration"%string -> cp_type c = PUnknown -> protocolRank c 0.

Definition reachRank (r : reach) : nat := match r with Reachable => 2 | Unknown => 1 | Unreachable => 0 end.

(** [x] is the first of the best in [l]. *)
Definition firstBest {A} (rank : A -> nat -> Prop) (l : list A) (x : A) : Prop :=
  exists l1 l2 n, l = l1 ++ x :: l2 /\ rank x n /\
    (forall y m, In y l1 -> rank y m -> m < n) /\ (forall y m, In y l2 -> rank y m -> m <= n).

(** Among the addresses of the type [t]. *)
Definition addressRank (a : addr) (n : nat) : Prop := n = reachRank (ad_reach a).
Definition ofType (t : string) (l : list addr) : list addr := filter (fun a => String.eqb (ad_type a) t) l.

(** ** Modules *)

(** The module's first type with the prefix [p] is [ty]. *)
Definition takes (m : modul) (p ty : string) : Prop :=
  exists a b, m_types m = Types (a ++ (ty, p) :: b) /\ ~ In p (map snd a).
(** The module has no type with the prefix [p]. *)
Definition passes (m : modul) (p : string) : Prop :=
  m_types m = NoTypes \/ exists l, m_types m = Types l /\ ~ In p (map snd l).

(** ** Configuration *)

(** The value that a property [n] of the device's configuration, which was
    [x] before, should have. *)
Definition fromGeneral (gen : dict (string * string)) (n x : string) : string :=
  match dget n gen with
  | Some (v, d) => if String.eqb x d then v else x
  | None => x
  end.

Definition expected (gen : dict (string * string)) (device : dict string) (g : given) (o : dict string) (n : string) : option string :=
  match g, dget n device with
  | Full _ device1, _ =>
      match dget n device1 with
      | None => None
      | Some x => Some (match dget n o, g with
                        | Some v, _ => v
                        | None, Full gen1 _ => fromGeneral gen1 n x
                        | None, _ => x
                        end)
      end
  | _, None => None
  | NoConfig, Some x => Some (match dget n o with Some v => v | None => fromGeneral gen n x end)
  | Simple c, Some x => Some (match dget n o, dget n c with
                              | Some v, _ => v
                              | None, Some v => v
                              | None, None => fromGeneral gen n x
                              end)
  end.

(** A capability that both sides know: a value found by discovery wins unless
    it is the default. *)
Definition mergedProp (disc have : option (string * string)) : option (string * string) :=
  match disc, have with
  | None, x => x
  | Some (_, d), None => Some (d, d)
  | Some (v, d), Some (v0, d0) => if String.eqb v d then Some (v0, d0) else Some (v, d0)
  end.
