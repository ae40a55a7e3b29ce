(** * Tags, search filters and ids of components

    Models core/opendaq/component/include/opendaq/tags_impl.h,
    core/opendaq/component/src/search_filter_impl.cpp,
    core/coretypes/src/search_filter_impl.cpp, the search and the lookup of
    core/opendaq/component/include/opendaq/component_impl.h and folder_impl.h,
    and core/opendaq/utility/include/opendaq/ids_parser.h.

    Simplifications: a component is the tuple of the attributes the filters
    look at; the tree is a snapshot in which every component was created with
    the folder it is in as its parent. Strings are [list ascii]. *)
From Coq Require Import ZArith List Bool Ascii Lia.
From Verif Require Import Base Eval_Model.
Import ListNotations.
Local Open Scope nat_scope.

(** ** Tags *)

(** [tags.count(s) > 0] *)
Definition has (s : text) (l : list text) : bool := existsb (text_eqb s) l.

(** The order of an [unordered_set] is not specified; the model keeps the
    order of insertion and no theorem depends on it. *)
Definition tags := list text.

Inductive outcome : Type := Success | Ignored.

(** The core event TagsChanged is the boolean of the result. *)
Definition step := (tags * outcome * bool)%type.

(** tags_impl.h:86-106 [add] *)
Definition add (s : text) (t : tags) : step :=
  if has s t then (t, Ignored, false) else (t ++ [s], Success, true).

(** tags_impl.h:108-127 [remove] *)
Definition remove (s : text) (t : tags) : step :=
  if has s t then (filter (fun x => negb (text_eqb s x)) t, Success, true) else (t, Ignored, false).

(** [unordered_set::insert] *)
Definition insert (t : tags) (s : text) : tags := if has s t then t else t ++ [s].

(** tags_impl.h:129-147 [replace] *)
Definition replace (l : list text) (t : tags) : step := (fold_left insert l [], Success, true).

(** tags_impl.h:72-84 [getList] *)
Definition getList (t : tags) : list text := t.

(** tags_impl.h:149-157 [contains] *)
Definition contains (s : text) (t : tags) : bool := has s t.

(** tags_impl.h:159-173 [query]: an [EvalValueFunc] whose names are looked up
    in the set (eval_value_impl.cpp:168-184: without an owner nothing else can
    be referred to), converted to a boolean. [None]: it throws; the outcomes
    [Undefined] and [Outside] of the evaluation are kept apart. *)
Inductive queried : Type := Answer (b : bool) | Throws | Unknown (r : result).

Definition tagRef (t : tags) (k : refkind) (s : text) (i : option Z) (arg : Z) : option value :=
  match k with
  | RFunc => Some (VBool (has s t))
  | _ => None
  end.

Definition query (s : text) (t : tags) : queried :=
  match Eval_Model.getResult (tagRef t) true s with
  | Result (Val v) =>
      match truthOf v with Truth b => Answer b | NoTruth => Throws | TruthOutside => Unknown Outside end
  | Result CalcFailed => Throws
  | Result r => Unknown r
  | ParseFailed | ResolveFailed => Throws
  end.

(** tags_impl.h:175-199 [equals]: [other] is the list of the other tags *)
Definition equals (t other : tags) : bool :=
  (length (getList other) =? length t) && forallb (fun s => has s t) (getList other).

(** tags_impl.h:201-218 [serialize], 233-262 [Deserialize]: the list of tags,
    added one by one to an empty set *)
Definition serialize (t : tags) : list text := t.
Definition deserialize (l : list text) : tags := fold_left (fun t s => fst (fst (add s t))) l [].

(** ** Components and filters *)

(** What the filters ask a component for. *)
Record attrs : Type := {
  lid : text;                (* getLocalId *)
  visible : bool;            (* getVisible *)
  tagsOf : tags;             (* getTags *)
  interfaces : list nat;     (* supportsInterface *)
  folder : bool              (* is it an IFolder *)
}.

Inductive tree : Type := Node (a : attrs) (items : list tree).
Definition attr (t : tree) : attrs := match t with Node a _ => a end.
Definition children (t : tree) : list tree := match t with Node _ l => l end.

(** The filters; [FProperty] is any of the filters for properties
    (core/coreobjects/src/search_filter_impl.cpp), which refuse components. A
    function given by the user may fail. *)
Inductive filter : Type :=
| FAny | FOr (l r : filter) | FAnd (l r : filter) | FNot (f : filter)
| FCustom (acc : attrs -> option bool) (visit : option (attrs -> option bool))
| FRecursive (f : filter)
| FVisible | FRequired (l : list text) | FExcluded (l : list text)
| FInterface (i : nat) | FLocalId (s : text) | FProperty.

(** [||] and [&&] of two calls that may throw *)
Definition orElse (a b : option bool) : option bool :=
  match a with Some true => Some true | Some false => b | None => None end.
Definition andThen (a b : option bool) : option bool :=
  match a with Some true => b | Some false => Some false | None => None end.

(** [acceptsObject]: core/coretypes/src/search_filter_impl.cpp:8-156,
    core/opendaq/component/src/search_filter_impl.cpp:18-181. [None]: an error.
    The constructors of the tag filters copy their list into a set
    (48-52, 88-92), which changes neither membership nor the answer. *)
Fixpoint acceptsObject (f : filter) (c : attrs) : option bool :=
  match f with
  | FAny => Some true
  | FOr l r => orElse (acceptsObject l c) (acceptsObject r c)
  | FAnd l r => andThen (acceptsObject l c) (acceptsObject r c)
  | FNot g => match acceptsObject g c with Some b => Some (negb b) | None => None end
  | FCustom acc _ => acc c
  | FRecursive g => acceptsObject g c
  | FVisible => Some (visible c)
  | FRequired l => Some (forallb (fun s => contains s (tagsOf c)) l)
  | FExcluded l => Some (negb (existsb (fun s => has s l) (getList (tagsOf c))))
  | FInterface i => Some (existsb (Nat.eqb i) (interfaces c))
  | FLocalId s => Some (text_eqb (lid c) s)
  | FProperty => None
  end.

(** [visitChildren], same files *)
Fixpoint visitChildren (f : filter) (c : attrs) : option bool :=
  match f with
  | FAny => Some true
  | FOr l r => orElse (visitChildren l c) (visitChildren r c)
  | FAnd l r => andThen (visitChildren l c) (visitChildren r c)
  | FNot _ => Some true
  | FCustom _ (Some v) => v c
  | FCustom _ None => Some true
  | FRecursive g => visitChildren g c
  | FVisible => Some (visible c)
  | FRequired _ | FExcluded _ | FInterface _ | FLocalId _ => Some true
  | FProperty => None
  end.

(** [supportsInterface<IRecursiveSearch>()]: only the outermost filter counts *)
Definition isRecursive (f : filter) : bool := match f with FRecursive _ => true | _ => false end.

(** ** Ids *)

Definition slash : ascii := "/"%char.

(** component_impl.h:245-248: the id of a component below [parent] *)
Definition childId (parent : text) (l : text) : text := parent ++ slash :: l.
Definition rootId (l : text) : text := slash :: l.

(** ids_parser.h:26-38 [splitRelativeId] *)
Fixpoint splitRelativeId (id : text) : option (text * text) :=
  match id with
  | [] => None
  | c :: id' =>
      if Ascii.eqb c slash then Some ([], id')
      else match splitRelativeId id' with
           | Some (start, rest) => Some (c :: start, rest)
           | None => None
           end
  end.

(** [s.find(p) == 0] *)
Fixpoint startsWith (p s : text) : bool :=
  match p, s with
  | [], _ => true
  | c :: p', d :: s' => Ascii.eqb c d && startsWith p' s'
  | _, [] => false
  end.

(** ids_parser.h:40-43 [isNestedComponentId] *)
Definition isNestedComponentId (ancestor descendant : text) : bool :=
  startsWith (ancestor ++ [slash]) descendant.

(** ids_parser.h:45-50 [idEndsWith] *)
Definition idEndsWith (id ending : text) : bool :=
  if length id <? length ending then false
  else startsWith (rev ending) (rev id).

(** ** Searching *)

(** A found component with its global id. [allItems] is a set of components
    compared by global id (component_keys.h:23-37) that keeps the order. *)
Definition found := (text * attrs)%type.
Definition hasId (g : text) (l : list found) : bool := existsb (fun x => text_eqb g (fst x)) l.
Definition insertFound (l : list found) (x : found) : list found :=
  if hasId (fst x) l then l else l ++ [x].

(** component_impl.h:1166-1172, the accepted items themselves *)
Fixpoint accepted (f : filter) (g : text) (l : list tree) (acc : list found) : option (list found) :=
  match l with
  | [] => Some acc
  | t :: l' =>
      match acceptsObject f (attr t) with
      | None => None
      | Some b =>
          accepted f g l' (if b then insertFound acc (childId g (lid (attr t)), attr t) else acc)
      end
  end.

(** folder_impl.h:122-143 [getItems] with a filter, component_impl.h:1166-1194
    [searchItems]; [g] is the global id of the folder *)
Fixpoint getItems (f : filter) (g : text) (t : tree) {struct t} : option (list found) :=
  match t with
  | Node _ items =>
      match accepted f g items [] with
      | None => None
      | Some acc =>
          if isRecursive f then
            (fix go (l : list tree) (acc : list found) : option (list found) :=
               match l with
               | [] => Some acc
               | t' :: l' =>
                   match visitChildren f (attr t') with
                   | None => None
                   | Some false => go l' acc
                   | Some true =>
                       if folder (attr t') then
                         match getItems f (childId g (lid (attr t'))) t' with
                         | None => None
                         | Some r => go l' (fold_left insertFound r acc)
                         end
                       else go l' acc
                   end
               end) items acc
          else Some acc
      end
  end.

(** folder_impl.h:145-155: without a filter *)
Definition getVisibleItems (g : text) (t : tree) : list found :=
  map (fun c => (childId g (lid (attr c)), attr c))
      (List.filter (fun c => visible (attr c)) (children t)).

(** ** Lookup by path *)

(** folder_impl.h:157-173 [getItem] *)
Definition getItem (t : tree) (l : text) : option tree :=
  find (fun c => text_eqb (lid (attr c)) l) (children t).

(** component_impl.h:1331-1361 [findComponentInternal]; [n] bounds the number
    of calls, each of which removes at least one character of [id]. *)
Fixpoint findInternal (n : nat) (t : tree) (id : text) : option tree :=
  match id with
  | [] => Some t
  | _ =>
      match n with
      | O => None
      | S n' =>
          if folder (attr t) then
            match splitRelativeId id with
            | None => getItem t id
            | Some (start, rest) =>
                match getItem t start with
                | Some t' => findInternal n' t' rest
                | None => None
                end
            end
          else None
      end
  end.

(** component_impl.h:902-927 [findComponent] *)
Definition findComponent (t : tree) (id : text) : option tree :=
  let str :=
    match id with
    | c :: id' =>
        if Ascii.eqb c slash then
          match splitRelativeId id' with
          | Some (start, rest) => if text_eqb start (lid (attr t)) then rest else id'
          | None => if text_eqb [] (lid (attr t)) then [] else id'
          end
        else id
    | [] => id
    end in
  findInternal (length str) t str.
