(** Model of the device user lock and of locking a tree of devices.
    Sources: /repo/core/opendaq/device/src/user_lock_impl.cpp,
             /repo/core/opendaq/device/include/opendaq/device_impl.h:380-491, 1654-1702,
             /repo/core/coreobjects/src/user_impl.cpp:42-73 *)
From Verif Require Import Base.

(** The value of a user object. Names and hashes are numbered; 0 is the empty string. *)
Record uvalue := { u_name : nat; u_hash : nat; u_groups : list nat }.
(** A user object is its address; user objects are immutable, so their values are given by a map. *)
Definition user := nat.
Section Users.
Variable val : user -> uvalue.

(** user_impl.cpp:42-48 *)
Definition isAnonymous (u : user) : bool := (u_name (val u) =? 0) && (u_hash (val u) =? 0).
Fixpoint list_eqb (a b : list nat) : bool :=
  match a, b with [], [] => true | x :: a', y :: b' => (x =? y) && list_eqb a' b' | _, _ => false end.
(** user_impl.cpp:50-73 *)
Definition user_equals (a b : user) : bool :=
  (u_name (val a) =? u_name (val b)) && (u_hash (val a) =? u_hash (val b)) && list_eqb (u_groups (val a)) (u_groups (val b)).

(** [option user]: a UserPtr, [None] = nullptr. std::optional<UserPtr> userLock. *)
Definition lockst := option (option user).

(** compareObjectPtr (objectptr.h:1086-1101) used by userLock != userPtr in lock *)
Definition ptr_eq (a b : option user) : bool :=
  match a, b with None, None => true | None, Some _ => false | Some _, None => false | Some x, Some y => user_equals x y end.
(** userLock != user with a raw IUser* in unlock: comparison of addresses *)
Definition raw_eq (a b : option user) : bool :=
  match a, b with None, None => true | Some x, Some y => x =? y | _, _ => false end.

(** user_lock_impl.cpp:15-27 *)
Definition norm (u : option user) : option user :=
  match u with Some x => if isAnonymous x then None else Some x | None => None end.
Definition ul_lock (s : lockst) (u : option user) : lockst * bool :=
  let u' := norm u in
  match s with
  | Some h => if ptr_eq h u' then (Some u', true) else (s, false)
  | None => (Some u', true)
  end.
(** user_lock_impl.cpp:29-36 *)
Definition ul_unlock (s : lockst) (u : option user) : lockst * bool :=
  match s with
  | Some (Some h) => if raw_eq (Some h) u then (None, true) else (s, false)
  | _ => (None, true)
  end.
(** user_lock_impl.cpp:44-50 *)
Definition ul_isLocked (s : lockst) : bool := match s with Some _ => true | None => false end.

(** user_lock_impl.cpp:52-69: (locked, username) *)
Definition ul_save (s : lockst) : bool * option nat :=
  (ul_isLocked s, match s with Some (Some h) => Some (u_name (val h)) | _ => None end).
(** user_lock_impl.cpp:84-114; [find] is the authentication provider's findUser *)
Definition ul_restore (find : nat -> option user) (x : bool * option nat) : lockst :=
  let user := match snd x with Some n => find n | None => None end in
  if fst x then fst (ul_lock None user) else None.

(** A device with its sub-devices (getDevices(search::Any())). *)
Inductive dev := Dev (lk : lockst) (ch : list dev).
Definition d_lk (t : dev) : lockst := match t with Dev lk _ => lk end.
Definition d_ch (t : dev) : list dev := match t with Dev _ ch => ch end.
Definition d_locked (t : dev) : bool := ul_isLocked (d_lk t).

Fixpoint height (t : dev) : nat := match t with Dev _ ch => S (fold_right (fun c m => Nat.max (height c) m) 0 ch) end.

(** The loops over the sub-devices: stop at the first failure; also the number of successes. *)
Section Loop.
Variable f : dev -> dev * bool.
Fixpoint until_fail (cs : list dev) : list dev * bool * nat :=
  match cs with
  | [] => ([], true, 0)
  | c :: r => let (c', ok) := f c in
              if ok then let '(r', ok', n) := until_fail r in (c' :: r', ok', S n) else (c' :: r, false, 0)
  end.
End Loop.
(** device_impl.h:1684-1702 revertLockedDevices: the first [n] sub-devices whose recorded status is [doLock] *)
Fixpoint revert (n : nat) (sts : list bool) (doLock : bool) (f : dev -> dev * bool) (cs : list dev) : list dev * bool :=
  match n, sts, cs with
  | S n', s :: sts', c :: r =>
      if Bool.eqb s doLock then
        let (c', ok) := f c in
        if ok then let (r', ok') := revert n' sts' doLock f r in (c' :: r', ok') else (c' :: r, false)
      else let (r', ok') := revert n' sts' doLock f r in (c :: r', ok')
  | _, _, _ => (cs, true)
  end.

(** device_impl.h:380-418 lock(user) and 421-460 unlock(user). [plocked]: the parent device is locked
    (unlockInternal, 1660-1669). [n] bounds the depth of the recursion. Errors are not distinguished. *)
Fixpoint lockD (n : nat) (u : option user) (t : dev) {struct n} : dev * bool :=
  match n with
  | O => (t, false)
  | S n' =>
      match t with
      | Dev lk ch =>
          let sts := map d_locked ch in
          let '(ch1, ok, k) := until_fail (lockD n' u) ch in
          if ok then
            let (lk', r) := ul_lock lk u in (Dev lk' ch1, r)
          else
            let (ch2, _) := revert k sts false (unlockD n' u (ul_isLocked lk)) ch1 in (Dev lk ch2, false)
      end
  end
with unlockD (n : nat) (u : option user) (plocked : bool) (t : dev) {struct n} : dev * bool :=
  match n with
  | O => (t, false)
  | S n' =>
      if plocked then (t, false)
      else
      match t with
      | Dev lk ch =>
          let (lk', r) := ul_unlock lk u in
          if r then
            let sts := map d_locked ch in
            let '(ch1, ok, k) := until_fail (unlockD n' u (ul_isLocked lk')) ch in
            if ok then (Dev lk' ch1, true)
            else let (ch2, _) := revert k sts true (lockD n' u) ch1 in (Dev lk' ch2, false)
          else (t, false)
      end
  end.

(** device_impl.h:470-491 with forceUnlockInternal (1672-1681) *)
Fixpoint forceD (plocked : bool) (t : dev) : dev * bool :=
  if plocked then (t, false)
  else match t with
       | Dev lk ch => let '(ch1, ok, _) := until_fail (forceD false) ch in (Dev None ch1, ok)
       end.

(** Calls on devices of one tree, addressed by their path of sub-device indices. *)
Inductive call := CLock (u : option user) | CUnlock (u : option user) | CForce | CAdd (d : dev).
Definition docall (c : call) (plocked : bool) (t : dev) : dev * bool :=
  match c with
  | CLock u => lockD (height t) u t
  | CUnlock u => unlockD (height t) u plocked t
  | CForce => forceD plocked t
  | CAdd d => (match t with Dev lk ch => Dev lk (ch ++ [d]) end, true)   (* a sub-device is added *)
  end.
Fixpoint set_nth {A} (i : nat) (x : A) (l : list A) : list A :=
  match i, l with O, _ :: r => x :: r | S i', y :: r => y :: set_nth i' x r | _, [] => [] end.
Fixpoint at_path (p : list nat) (c : call) (plocked : bool) (t : dev) : dev * bool :=
  match p with
  | [] => docall c plocked t
  | i :: p' => match t with
               | Dev lk ch => match nth_error ch i with
                              | Some d => let (d', r) := at_path p' c (ul_isLocked lk) d in (Dev lk (set_nth i d' ch), r)
                              | None => (t, false)
                              end
               end
  end.
Definition step (t : dev) (o : list nat * call) : dev := fst (at_path (fst o) (snd o) false t).
Definition run (t : dev) (ops : list (list nat * call)) : dev := fold_left step ops t.
End Users.
