(** * Specification of tags, search filters and component ids *)
From Coq Require Import ZArith List Bool Ascii String.
From Verif Require Import Eval_Model Eval_Spec Tree_Model.
Import ListNotations.

(** ** Tags *)

Inductive change : Type :=
| Added (s : text) | Removed (s : text) | ReplacedBy (l : list text).

(** the tags after a history of changes, newest first *)
Fixpoint tags_after (h : list change) : tags :=
  match h with
  | [] => []
  | Added s :: h' => fst (fst (add s (tags_after h')))
  | Removed s :: h' => fst (fst (remove s (tags_after h')))
  | ReplacedBy l :: h' => fst (fst (replace l (tags_after h')))
  end.

(** a tag is there iff the newest change that speaks of it put it there *)
Fixpoint tagged (h : list change) (s : text) : Prop :=
  match h with
  | [] => False
  | Added s' :: h' => s' = s \/ tagged h' s
  | Removed s' :: h' => s' <> s /\ tagged h' s
  | ReplacedBy l :: _ => In s l
  end.

(** a tag expression, its truth and its tree *)
Inductive tagexp : Type :=
| Tag (s : text) | Const (b : bool) | Neither (e : tagexp)
| Both (a b : tagexp) | Either (a b : tagexp) | Same (a b : tagexp) | Different (a b : tagexp).

Fixpoint holds (e : tagexp) (on : text -> Prop) : Prop :=
  match e with
  | Tag s => on s
  | Const b => b = true
  | Neither a => ~ holds a on
  | Both a b => holds a on /\ holds b on
  | Either a b => holds a on \/ holds b on
  | Same a b => holds a on <-> holds b on
  | Different a b => ~ (holds a on <-> holds b on)
  end.

Fixpoint tag_tree (e : tagexp) : node :=
  match e with
  | Tag s => NRef RFunc s None (-1)
  | Const b => NBool b
  | Neither a => NNot (tag_tree a)
  | Both a b => NBin LogAnd (tag_tree a) (tag_tree b)
  | Either a b => NBin LogOr (tag_tree a) (tag_tree b)
  | Same a b => NBin Equals (tag_tree a) (tag_tree b)
  | Different a b => NBin NotEquals (tag_tree a) (tag_tree b)
  end.

(** ** Filters *)

(** what a filter is meant to accept; [custom] functions do not fail *)
Fixpoint matches (f : filter) (c : attrs) : Prop :=
  match f with
  | FAny => True
  | FOr l r => matches l c \/ matches r c
  | FAnd l r => matches l c /\ matches r c
  | FNot g => ~ matches g c
  | FCustom acc _ => acc c = Some true
  | FRecursive g => matches g c
  | FVisible => visible c = true
  | FRequired l => forall s, In s l -> In s (tagsOf c)
  | FExcluded l => forall s, In s l -> ~ In s (tagsOf c)
  | FInterface i => In i (interfaces c)
  | FLocalId s => lid c = s
  | FProperty => False
  end.

(** what is meant to be looked into *)
Fixpoint enters (f : filter) (c : attrs) : Prop :=
  match f with
  | FOr l r => enters l c \/ enters r c
  | FAnd l r => enters l c /\ enters r c
  | FCustom _ (Some v) => v c = Some true
  | FRecursive g => enters g c
  | FVisible => visible c = true
  | FProperty => False
  | _ => True
  end.

(** a filter for components whose functions do not fail *)
Fixpoint sound_filter (f : filter) : Prop :=
  match f with
  | FOr l r | FAnd l r => sound_filter l /\ sound_filter r
  | FNot g | FRecursive g => sound_filter g
  | FCustom acc v =>
      (forall c, acc c <> None) /\ (forall w, v = Some w -> forall c, w c <> None)
  | FProperty => False
  | _ => True
  end.

(** ** Paths *)

(** the component at the end of a path of local ids *)
Inductive at_path : tree -> list text -> tree -> Prop :=
| at_here t : at_path t [] t
| at_below a items c p t :
    In c items -> folder a = true -> at_path c p t ->
    at_path (Node a items) (lid (attr c) :: p) t.

(** the same, through folders the filter enters only *)
Inductive reached (f : filter) : tree -> list text -> tree -> Prop :=
| re_item a items c : In c items -> reached f (Node a items) [lid (attr c)] c
| re_below a items c p t :
    In c items -> folder (attr c) = true -> enters f (attr c) -> reached f c p t ->
    reached f (Node a items) (lid (attr c) :: p) t.

(** the global id of the component at a path below the folder [g] *)
Fixpoint id_below (g : text) (p : list text) : text :=
  match p with
  | [] => g
  | l :: p' => id_below (g ++ "/"%char :: l) p'
  end.

(** local ids joined by slashes *)
Fixpoint joined (p : list text) : text :=
  match p with
  | [] => []
  | [l] => l
  | l :: p' => l ++ "/"%char :: joined p'
  end.

Definition slashless (s : text) : Prop := ~ In "/"%char s.

(** Items of one folder have different local ids, no local id holds a slash
    or is empty. (The first is guaranteed by the folder, see C27, the last by
    the constructor; nothing guarantees the second.) *)
Inductive tidy : tree -> Prop :=
| tidy_node a items :
    slashless (lid a) -> lid a <> [] ->
    NoDup (map (fun c => lid (attr c)) items) ->
    (forall c, In c items -> tidy c) ->
    tidy (Node a items).

Definition plain (p : list text) : Prop := forall l, In l p -> slashless l /\ l <> [].

Definition ends_with (s e : text) : Prop := exists b, s = b ++ e.
