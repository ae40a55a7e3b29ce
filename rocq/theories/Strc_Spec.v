(** What the theorems about structs and enumerations say. *)
From Verif Require Import Base Strc_Model.
Local Open Scope Z_scope.

(** ** Two types are the same type *)

(** a simple type and a type of another kind that only agree in name and core
    type count as the same when the simple one is asked *)
Definition bare (t : ty) : Prop :=
  match t with TSimple _ => True | TClass _ => True | _ => False end.

Inductive same_ty : ty -> ty -> Prop :=
| same_bare a b : bare a \/ bare b -> label a = label b -> core a = core b -> same_ty a b
| same_enum n es es' : incl es es' -> incl es' es -> same_ty (TEnum n es) (TEnum n es')
| same_struct_without n ns ts ts' :
    Forall2 same_ty ts ts' -> same_ty (TStruct n ns ts None) (TStruct n ns ts' None)
| same_struct_with n ns ts ts' ds ds' :
    Forall2 same_ty ts ts' -> Forall2 same_val ds ds' ->
    same_ty (TStruct n ns ts (Some ds)) (TStruct n ns ts' (Some ds'))
with same_val : val -> val -> Prop :=
| same_null : same_val VNull VNull
| same_atom c i : same_val (VAtom c i) (VAtom c i)
| same_builtin c t t' i : same_val (VBuiltin c t i) (VBuiltin c t' i)
| same_enumeration n es es' v : incl es es' -> incl es' es -> same_val (VEnum n es v) (VEnum n es' v)
| same_struct t t' fs fs' :
    same_ty t t' ->
    Forall2 (fun e e' => fst e = fst e' /\ same_val (snd e) (snd e')) fs fs' ->
    same_val (VRec t fs) (VRec t' fs').

(** ** A value suits the type of a field *)

Definition kind (v : val) : ct :=
  match v with
  | VNull => CUndef
  | VAtom c _ => c
  | VBuiltin c _ _ => c
  | VEnum _ _ _ => CEnum
  | VRec _ _ => CStruct
  end.
(** the object is a struct of the type *)
Definition is_struct_of (v : val) (t : ty) : Prop :=
  (exists fs, v = VRec t fs) \/ (exists c i, v = VBuiltin c t i).

Definition fits (t : ty) (v : val) : Prop :=
  v = VNull \/
  match t with
  | TSimple c => c = CUndef \/ kind v = c
  | TStruct _ _ _ _ => exists tv, is_struct_of v tv /\ same_ty tv t
  | TEnum n es => exists es' w, v = VEnum n es' w /\ incl es es' /\ incl es' es
  | TClass _ => False
  end.
(** the same, but the enumerations are not told apart *)
Definition nearly_fits (t : ty) (v : val) : Prop :=
  match t with TEnum _ _ => v = VNull \/ kind v = CEnum | _ => fits t v end.

Definition default_at (ds : option (list val)) (j : nat) (v : val) : Prop :=
  exists l, ds = Some l /\ nth_error l j = Some v.

Definition keys {A : Type} (l : list (name * A)) : list name := map fst l.

(** the fields are those of the type, and their values suit it *)
Definition conforms (good : ty -> val -> Prop) (t : ty) (es : list (name * val)) : Prop :=
  exists n ns ts ds,
    t = TStruct n ns ts ds /\ length ns = length ts /\ NoDup (keys es) /\
    (forall k, In k (keys es) <-> In k ns) /\
    forall j k tj v, nth_error ns j = Some k -> nth_error ts j = Some tj -> In (k, v) es ->
      good tj v \/ default_at ds j v.

(** every default value of the type suits its field *)
Definition sound_defaults (t : ty) : Prop :=
  match t with
  | TStruct _ _ ts ds =>
    forall j tj v, nth_error ts j = Some tj -> default_at ds j v -> nearly_fits tj v
  | _ => True
  end.

(** ** Creation *)

(** a value that the constructor of a struct takes for a field of the type *)
Definition suits (t : ty) (v : val) : Prop :=
  v = VNull \/
  match t with
  | TSimple c => c = CUndef \/ kind v = c
  | TStruct _ _ _ _ => is_struct_of v t
  | TEnum _ _ => kind v = CEnum
  | TClass _ => False
  end.

(** the value a field has when it was left out *)
Definition left_out (ds : option (list val)) (j : nat) (v : val) : Prop :=
  match ds with Some l => nth_error l j = Some v | None => v = VNull end.

(** the type that stands in the type manager under a name *)
Definition registered (s : st) (n : name) (t : ty) : Prop := In (n, t) (mgr s).

(** the type of a struct made under a name nobody registered *)
Definition inferred (v : val) (t : ty) : Prop :=
  match v with
  | VNull => t = TSimple CUndef
  | VRec tv _ => t = tv
  | VBuiltin CStruct tv _ => t = tv
  | VBuiltin c _ _ => t = TSimple c
  | VAtom c _ => t = TSimple c
  | VEnum n es _ => t = TEnum n es
  end.

(** the numbers of consecutive enumerators *)
Fixpoint counted (ns : list name) (z : Z) : list (name * Z) :=
  match ns with [] => [] | n :: r => (n, z) :: counted r (z + 1) end.

(** ** What the theorems about one operation speak of *)

(** null, or a value that was made *)
Definition made (s : st) (v : val) : Prop := v = VNull \/ In v (vals s).

(** the dictionary and whether it can still be changed *)
Definition contents (s : st) (d : nat) (fz : bool) (es : list (name * val)) : Prop :=
  nth_error (dicts s) d = Some {| frozen := fz; items := es |}.

(** the builder makes structs of the type from the dictionary *)
Definition builder (s : st) (b : nat) (t : ty) (d : nat) : Prop := nth_error (builders s) b = Some (t, d).

(** the type of a value as a builder sees it *)
Definition typed (v : val) (t : ty) : Prop :=
  match v with
  | VNull => False
  | VAtom c _ => t = TSimple c
  | VBuiltin _ tv _ => t = tv
  | VEnum n es _ => t = TEnum n es
  | VRec tv _ => t = tv
  end.

(** a name that stands for the number: the first of them *)
Definition first_with (es : list (name * Z)) (z : Z) (k : name) : Prop :=
  exists before after, es = before ++ (k, z) :: after /\ Forall (fun e => snd e <> z) before.
