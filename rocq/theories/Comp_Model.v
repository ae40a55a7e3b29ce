(** Components and folders: activity, adding and removing.
    core/opendaq/component/include/opendaq/component_impl.h, folder_impl.h.

    Left out: core events and their listeners (a listener could call back), locks,
    names, descriptions, statuses, operation modes, deserialization; a device that
    is a root device ignores setParentActive (device_impl.h:1206-1211), which is not
    modelled.  A signal container (signal_container_impl.h:216-220) notifies a fixed
    list of components in the same way as a folder does. *)
From Coq Require Import String.
From Verif Require Import Base.
Local Open Scope nat_scope.

(** component_impl.h:140-176 and folder_impl.h:70, 98: the members.  [accepts] is the
    folder's itemId, None for a component that is no folder; [items] is the ordered
    map from local ids, in insertion order *)
Record comp := {
  parent : option nat; lid : string; intfs : list nat; accepts : option nat; items : list nat;
  active : bool; parentActive : bool; localActive : bool;
  removed : bool; frozen : bool; lockedActive : bool; lockedVisible : bool; visible : bool }.

Definition heap := list comp.
Definition get (h : heap) (c : nat) : option comp := nth_error h c.
Fixpoint put (h : heap) (c : nat) (x : comp) : heap :=
  match h, c with [], _ => [] | _ :: r, O => x :: r | y :: r, S c' => y :: put r c' x end.

Definition set_items (l : list nat) (x : comp) : comp :=
  {| parent := parent x; lid := lid x; intfs := intfs x; accepts := accepts x; items := l; active := active x; parentActive := parentActive x; localActive := localActive x;
     removed := removed x; frozen := frozen x; lockedActive := lockedActive x; lockedVisible := lockedVisible x; visible := visible x |}.
(** new values of localActive and parentActive; component_impl.h:472-484, updateActive *)
Definition set_active (l p : bool) (x : comp) : comp :=
  {| parent := parent x; lid := lid x; intfs := intfs x; accepts := accepts x; items := items x; active := p && l; parentActive := p; localActive := l;
     removed := removed x; frozen := frozen x; lockedActive := lockedActive x; lockedVisible := lockedVisible x; visible := visible x |}.
Definition set_flags (r f la lv v : bool) (x : comp) : comp :=
  {| parent := parent x; lid := lid x; intfs := intfs x; accepts := accepts x; items := items x; active := active x; parentActive := parentActive x; localActive := localActive x;
     removed := r; frozen := f; lockedActive := la; lockedVisible := lv; visible := v |}.

Inductive outcome :=
| Success | Ignored | ErrFrozen | ErrRemoved | ErrDuplicate | ErrNotFound | ErrParameter | ErrGeneral
| NoInterface (* not such a component *) | Endless
| Created (c : nat) | Found (c : nat) | Listed (l : list nat) | Flag (b : bool).
Definition fails (o : outcome) : bool :=
  match o with Success | Ignored | Created _ | Found _ | Listed _ | Flag _ => false | _ => true end.

(** a loop over items that an exception ends *)
Fixpoint each (f : heap -> nat -> heap * outcome) (h : heap) (l : list nat) : heap * outcome :=
  match l with
  | [] => (h, Success)
  | i :: r => let '(h', o) := f h i in if fails o then (h', o) else each f h' r
  end.

Definition activeOf (h : heap) (c : nat) : bool := match get h c with Some x => active x | None => false end.

(** component_impl.h:409-469, setParentActive and notifyItemsActiveChanged; folder_impl.h:216-225 *)
Fixpoint setParentActive (fuel : nat) (onUpdate : bool) (h : heap) (c : nat) (b : bool) : heap * outcome :=
  match fuel with
  | O => (h, Endless)
  | S n =>
      match get h c with
      | None => (h, NoInterface)
      | Some x =>
          if negb onUpdate && removed x then (h, ErrRemoved)
          else if Bool.eqb b (parentActive x) then (h, Ignored)
          else
            let x' := set_active (localActive x) b x in
            let h' := put h c x' in
            if Bool.eqb (active x) (active x') then (h', if onUpdate then Success else Ignored)
            else each (fun g i => setParentActive n onUpdate g i (activeOf g c)) h' (items x)
      end
  end.
Definition notifyActiveChanged (onUpdate : bool) (h : heap) (c : nat) (l : list nat) : heap * outcome :=
  each (fun g i => setParentActive (S (length h)) onUpdate g i (activeOf g c)) h l.

(** component_impl.h:349-407 *)
Definition setActive (h : heap) (c : nat) (b : bool) : heap * outcome :=
  match get h c with
  | None => (h, NoInterface)
  | Some x =>
      if frozen x then (h, ErrFrozen)
      else if removed x then (h, ErrRemoved)
      else if Bool.eqb b (localActive x) then (h, Ignored)
      else if lockedActive x then (h, Ignored)
      else
        let x' := set_active b (parentActive x) x in
        let h' := put h c x' in
        if Bool.eqb (active x) (active x') then (h', Ignored) else notifyActiveChanged false h' c (items x)
  end.

(** component_impl.h:1232-1246, updateObject; [o]: the value of "active" in the object.
    A frozen component is
    not spared: only the properties are (property_object_impl.h:3716-3724). *)
Definition update (h : heap) (c : nat) (o : option bool) : heap * outcome :=
  match get h c with
  | None => (h, NoInterface)
  | Some x =>
      if lockedActive x then (h, Success)
      else
        let x' := set_active (match o with Some b => b | None => true end) (parentActive x) x in
        let h' := put h c x' in
        if Bool.eqb (active x) (active x') then (h', Success) else notifyActiveChanged true h' c (items x)
  end.

(** component_impl.h:929-952, remove; folder_impl.h:436-463, clearInternal and removed *)
Fixpoint remove (fuel : nat) (h : heap) (c : nat) : heap * outcome :=
  match fuel with
  | O => (h, Endless)
  | S n =>
      match get h c with
      | None => (h, NoInterface)
      | Some x =>
          if removed x then (h, Ignored)
          else
            let x1 := if active x then set_active false (parentActive x) x else x in
            let h1 := put h c (set_flags true (frozen x) (lockedActive x) (lockedVisible x) (visible x) x1) in
            let '(h2, o) := each (remove n) h1 (items x) in
            if fails o then (h2, o)
            else (match get h2 c with Some y => put h2 c (set_items [] y) | None => h2 end, Success)
      end
  end.

Definition lidOf (h : heap) (c : nat) : string := match get h c with Some x => lid x | None => EmptyString end.
(** items.find *)
Definition findItem (h : heap) (l : list nat) (s : string) : option nat := find (fun i => String.eqb (lidOf h i) s) l.

(** folder_impl.h:227-262, 465-473, addItem and addItemInternal *)
Definition addItem (h : heap) (f c : nat) : heap * outcome :=
  match get h f, get h c with
  | Some x, Some y =>
      match accepts x with
      | None => (h, NoInterface)
      | Some t =>
          if negb (existsb (Nat.eqb t) (intfs y)) then (h, ErrParameter)
          else match findItem h (items x) (lid y) with
               | Some _ => (h, ErrDuplicate)
               | None => (put h f (set_items (items x ++ [c]) x), Success)
               end
      end
  | _, _ => (h, NoInterface)
  end.

(** folder_impl.h:264-327, 600-610, removeItem and removeItemWithLocalId *)
Definition removeById (h : heap) (f : nat) (s : string) : heap * outcome :=
  match get h f with
  | None => (h, NoInterface)
  | Some x =>
      match accepts x with
      | None => (h, NoInterface)
      | Some _ =>
          match findItem h (items x) s with
          | None => (h, ErrNotFound)
          | Some i =>
              let '(h', o) := remove (S (length h)) h i in
              if fails o then (h', o)
              else (match get h' f with Some y => put h' f (set_items (filter (fun j => negb (Nat.eqb j i)) (items y)) y) | None => h' end, Success)
          end
      end
  end.

(** folder_impl.h:329-336, clear *)
Definition clear (h : heap) (f : nat) : heap * outcome :=
  match get h f with
  | None => (h, NoInterface)
  | Some x =>
      match accepts x with
      | None => (h, NoInterface)
      | Some _ =>
          let '(h', o) := each (remove (S (length h))) h (items x) in
          if fails o then (h', o)
          else (match get h' f with Some y => put h' f (set_items [] y) | None => h' end, Success)
      end
  end.

(** component_impl.h:212-279, the constructor; folder_impl.h:104-121 *)
Definition create (h : heap) (p : option nat) (s : string) (t : list nat) (a : option nat) : heap * outcome :=
  if String.eqb s EmptyString then (h, ErrGeneral)
  else
    let mk (pa : bool) :=
      (h ++ [{| parent := p; lid := s; intfs := t; accepts := a; items := []; active := pa; parentActive := pa; localActive := true;
                removed := false; frozen := false; lockedActive := false; lockedVisible := true; visible := true |}], Created (length h)) in
    match p with
    | None => mk true
    | Some q => match get h q with Some x => mk (active x) | None => (h, NoInterface) end
    end.

Inductive op :=
| Create (p : option nat) (s : string) (t : list nat) (a : option nat)
| AddItem (f c : nat) | RemoveItem (f c : nat) | RemoveById (f : nat) (s : string) | Clear (f : nat) | Remove (c : nat)
| SetActive (c : nat) (b : bool) | Update (c : nat) (o : option bool)
| LockActive (c : nat) (b : bool) | LockVisible (c : nat) (b : bool) | SetVisible (c : nat) (b : bool) | Freeze (c : nat)
| GetActive (c : nat) | GetLocalActive (c : nat) | GetParentActive (c : nat) | IsRemoved (c : nat)
| GetItem (f : nat) (s : string) | HasItem (f : nat) (s : string) | GetItems (f : nat).

Definition with_comp (h : heap) (c : nat) (k : comp -> heap * outcome) : heap * outcome :=
  match get h c with Some x => k x | None => (h, NoInterface) end.
Definition with_folder (h : heap) (c : nat) (k : comp -> heap * outcome) : heap * outcome :=
  with_comp h c (fun x => match accepts x with Some _ => k x | None => (h, NoInterface) end).

Definition step (h : heap) (o : op) : heap * outcome :=
  match o with
  | Create p s t a => create h p s t a
  | AddItem f c => addItem h f c
  | RemoveItem f c => with_comp h c (fun y => removeById h f (lid y))
  | RemoveById f s => removeById h f s
  | Clear f => clear h f
  | Remove c => remove (S (length h)) h c
  | SetActive c b => setActive h c b
  | Update c o => update h c o
  (* component_impl.h:686-744, lockAttributes and unlockAttributes *)
  | LockActive c b => with_comp h c (fun x => if removed x then (h, ErrRemoved) else (put h c (set_flags (removed x) (frozen x) b (lockedVisible x) (visible x) x), Success))
  | LockVisible c b => with_comp h c (fun x => if removed x then (h, ErrRemoved) else (put h c (set_flags (removed x) (frozen x) (lockedActive x) b (visible x) x), Success))
  (* component_impl.h:636-673 *)
  | SetVisible c b => with_comp h c (fun x => if frozen x then (h, ErrFrozen) else if removed x then (h, ErrRemoved) else if lockedVisible x then (h, Ignored)
                                     else (put h c (set_flags (removed x) (frozen x) (lockedActive x) (lockedVisible x) b x), Success))
  (* property_object_impl.h: freeze *)
  | Freeze c => with_comp h c (fun x => if frozen x then (h, Ignored) else (put h c (set_flags (removed x) true (lockedActive x) (lockedVisible x) (visible x) x), Success))
  (* component_impl.h:316-347, 954-962 *)
  | GetActive c => with_comp h c (fun x => (h, Flag (active x)))
  | GetLocalActive c => with_comp h c (fun x => (h, Flag (localActive x)))
  | GetParentActive c => with_comp h c (fun x => (h, Flag (parentActive x)))
  | IsRemoved c => with_comp h c (fun x => (h, Flag (removed x)))
  (* folder_impl.h:124-200 *)
  | GetItem f s => with_folder h f (fun x => (h, match findItem h (items x) s with Some i => Found i | None => ErrNotFound end))
  | HasItem f s => with_folder h f (fun x => (h, Flag (match findItem h (items x) s with Some _ => true | None => false end)))
  | GetItems f => with_folder h f (fun x => (h, Listed (filter (fun i => match get h i with Some y => visible y | None => false end) (items x))))
  end.

(** newest first *)
Fixpoint after (l : list op) : heap := match l with [] => [] | o :: r => fst (step (after r) o) end.
