(** C09, C10. *)
From Coq Require Import Permutation.
From Verif Require Import Base Perm_Model Perm_Spec Perm_Proofs Perm_Shape.
Local Open Scope Z_scope.

(** C09: after every history of creating managers, setting permissions and re-parenting, a manager's
    effective permissions say about every group and every permission bit exactly what the builder calls
    of its chain of ancestors say, starting below the last manager of the chain that does not inherit. *)
Theorem c09_effective_is_inheritance_chain : forall ops id,
  match getPermissions (run ops) id, chain_of id (run ops) with
  | Some e, Some l => forall g k, says e g k = chain_means g k l
  | None, None => True
  | _, _ => False
  end.
Proof. exact effective_chain. Qed.

(** C09: the chain is the one given by the parents and local permissions of the managers ... *)
Theorem c09_chain_follows_parents : forall ops i p inh cs, In (i, (p, inh, cs)) (managers (run ops)) ->
  chain_of i (run ops) = match p with
                         | None => Some [(inh, cs)]
                         | Some q => match chain_of q (run ops) with Some lq => Some (lq ++ [(inh, cs)]) | None => None end
                         end.
Proof. exact chain_follows_parents. Qed.

(** ... and these are what the calls last set: each call changes exactly the manager it names. *)
Theorem c09_new_manager : forall ops id parent, let f := run ops in
  ~ In id (map fst (managers f)) -> (parent = None \/ exists p, parent = Some p /\ In p (map fst (managers f))) ->
  Permutation (managers (step f (NewManager id parent))) ((id, (parent, true, [])) :: managers f).
Proof. exact shape_new. Qed.
Theorem c09_set_permissions : forall ops id inh calls,
  managers (step (run ops) (SetPermissions id inh calls)) = map (with_local id inh calls) (managers (run ops)).
Proof. exact shape_set. Qed.
Theorem c09_set_parent : forall ops id parent c, let f := run ops in
  ffind id f = Some c ->
  (parent = None \/ exists p, parent = Some p /\ In p (map fst (managers f)) /\ ~ In p (subtree_ids c)) ->
  Permutation (managers (step f (SetParent id parent))) (map (with_parent id parent) (managers f)).
Proof. exact shape_parent. Qed.
Theorem c09_ids_unique : forall ops, NoDup (map fst (managers (run ops))).
Proof. exact unique_ids. Qed.

(** C09: extending a builder by existing permissions has the effect of repeating the calls they were built with. *)
Theorem c09_extend_replays_calls : forall inh inh' c1 c2 g k,
  says (extend (build inh c1) (build inh' c2)) g k = says (build inh (c1 ++ c2)) g k.
Proof. exact extend_replays. Qed.

(** C10: a user is authorized for a permission bit exactly when none of their groups is denied it
    and at least one is allowed it. *)
Theorem c10_authorized_iff : forall p groups k, 0 <= k ->
  (isAuthorized p groups (2 ^ k) = true <-> access (fun g => says p g k) groups).
Proof. exact authorized_iff. Qed.

(** C09 and C10 together, end to end: authorization on a manager in any reachable tree is decided by
    what the chain of configurations says. *)
Theorem c10_authorized_by_chain : forall ops id e l groups k, 0 <= k ->
  getPermissions (run ops) id = Some e -> chain_of id (run ops) = Some l ->
  (isAuthorized e groups (2 ^ k) = true <-> access (fun g => chain_means g k l) groups).
Proof.
  intros ops id e l groups k Hk HE HL. pose proof (effective_chain ops id) as X. rewrite HE, HL in X.
  rewrite authorized_iff by exact Hk. unfold access. split.
  - intros [A (g & B & C)]. split; [intros h Hh; rewrite <- X; auto|]. exists g. rewrite <- X. auto.
  - intros [A (g & B & C)]. split; [intros h Hh; rewrite X; auto|]. exists g. rewrite X. auto.
Qed.

(** Non-vacuity: a root assigning Read|Write to group 1, a child denying Write to it, a grandchild
    that inherits; then the root is changed and the change reaches the grandchild. *)
Definition demo : list op :=
  [NewManager 0%nat None; NewManager 1%nat (Some 0%nat); NewManager 2%nat (Some 1%nat);
   SetPermissions 1%nat true [BDeny 1%nat 2]; SetPermissions 0%nat false [BAssign 1%nat 3; BAllow 2%nat 4]].
Example demo_chain : chain_of 2%nat (run demo) = Some [(false, [BAssign 1%nat 3; BAllow 2%nat 4]); (true, [BDeny 1%nat 2]); (true, [])].
Proof. vm_compute. reflexivity. Qed.
Example demo_managers : managers (run (demo ++ [SetParent 2%nat (Some 0%nat)])) =
  [(0%nat, (None, false, [BAssign 1%nat 3; BAllow 2%nat 4])); (2%nat, (Some 0%nat, true, [])); (1%nat, (Some 0%nat, true, [BDeny 1%nat 2]))].
Proof. vm_compute. reflexivity. Qed.
Example demo_auth :
  match getPermissions (run demo) 2%nat with
  | Some e => (isAuthorized e [1%nat] 1, isAuthorized e [1%nat] 2, isAuthorized e [1%nat; 2%nat] 4, isAuthorized e [2%nat] 1) = (true, false, true, false)
  | None => False
  end.
Proof. vm_compute. reflexivity. Qed.
Example demo_moved :
  match getPermissions (run (demo ++ [SetParent 2%nat (Some 0%nat)])) 2%nat with
  | Some e => isAuthorized e [1%nat] 2 = true | None => False end.
Proof. vm_compute. reflexivity. Qed.

Print Assumptions c09_effective_is_inheritance_chain.
Print Assumptions c09_chain_follows_parents.
Print Assumptions c09_new_manager.
Print Assumptions c09_set_permissions.
Print Assumptions c09_set_parent.
Print Assumptions c09_ids_unique.
Print Assumptions c09_extend_replays_calls.
Print Assumptions c10_authorized_iff.
Print Assumptions c10_authorized_by_chain.
