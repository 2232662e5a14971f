(** What it means for a synchronised enforcer to be linearisable, and which calls take
    the policy mutex once. *)
From Verif Require Import Base M_Synced S_Policy.

(** ** Linearisability *)

(** A history of calls and returns in which every completed call has a point of effect
    between its call and its return. *)
Inductive point := PCall (t : nat) (c : scall) | PEffect (t : nat) (c : scall) (out : res value) | PReturn (t : nat) (c : scall) (out : res value).
Definition thread_of (x : point) : nat := match x with PCall t _ | PEffect t _ _ | PReturn t _ _ => t end.
(** What an observer sees of it. *)
Fixpoint seen (l : list point) : list event :=
  match l with
  | [] => []
  | PCall t c :: l' => Call t c :: seen l'
  | PEffect _ _ _ :: l' => seen l'
  | PReturn t c out :: l' => Return t c out :: seen l'
  end.
Fixpoint effects (l : list point) : list (scall * res value) :=
  match l with
  | [] => []
  | PEffect _ c out :: l' => (c, out) :: effects l'
  | _ :: l' => effects l'
  end.
(** Each thread calls, has its effect, returns that result, and calls again. *)
Inductive phase := Out | Called (c : scall) | Applied (c : scall) (out : res value).
Inductive follows (t : nat) : phase -> list point -> phase -> Prop :=
| f_nil : forall p, follows t p [] p
| f_other : forall x l p q, thread_of x <> t -> follows t p l q -> follows t p (x :: l) q
| f_call : forall c l q, follows t (Called c) l q -> follows t Out (PCall t c :: l) q
| f_effect : forall c out l q, follows t (Applied c out) l q -> follows t (Called c) (PEffect t c out :: l) q
| f_return : forall c out l q, follows t Out l q -> follows t (Applied c out) (PReturn t c out :: l) q.
(** The effects, one after the other on a plain enforcer. *)
Inductive one_by_one (o : oracle) : enforcer -> list (scall * res value) -> enforcer -> Prop :=
| seq_nil : forall e, one_by_one o e [] e
| seq_snoc : forall e l e1 c out e2, one_by_one o e l e1 -> plain o c e1 = (e2, out) -> one_by_one o e (l ++ [(c, out)]) e2.

(** The history [h], which began in state [e] and ended in state [e'], has the results and
    the effect of some sequential order that respects real time. *)
Definition linearisable (o : oracle) (e : enforcer) (h : list event) (e' : enforcer) : Prop :=
  exists l, seen l = h /\ (forall t, exists p, follows t Out l p) /\ one_by_one o e (effects l) e'.

(** ** Assumptions about the steps of plain code *)

(** No step of [s], run from [e] without disturbance, changes the state. *)
Fixpoint never_writes (e : enforcer) (s : steps) : Prop :=
  match s with
  | Fin _ => True
  | Step f => match f e with (e', s') => e' = e /\ never_writes e s' end
  end.
(** The steps of a piece of code have, undisturbed, the effect of the code; and code that
    leaves the state as it is does not write to it on the way. *)
Definition faithful_split (split : M value -> steps) : Prop :=
  (forall x e, undisturbed (split x) e = x e) /\
  (forall x e, fst (x e) = e -> never_writes e (split x)).

(** ** The calls that take the mutex once and do everything under it *)
Definition locked_once (c : scall) : option mode :=
  match c with
  | SLoadModel _ | SClearPolicy | SLoadPolicy | SSavePolicy | SBuildRoleLinks
  | SEnforce _ | SEnforceMap _ | SBatchEnforce _ | SBatchEnforceWithMatcher _ _
  | SAddNamedPolicy _ _ | SAddNamedPolicies _ _ | SUpdateNamedPolicy _ _ _ | SUpdateNamedPolicies _ _ _
  | SRemoveNamedPolicy _ _ | SRemoveNamedPolicies _ _ | SRemoveFilteredNamedPolicy _ _ _
  | SAddNamedGroupingPolicy _ _ | SAddNamedGroupingPolicies _ _ | SRemoveNamedGroupingPolicies _ _
  | SUpdateNamedGroupingPolicy _ _ _ | SGetAllActions
  | SSyncedEnforceExWithMatcher _ _ | SSyncedEnforceExWithMatcherMap _ _ | SSyncedEnforceEx _
  | SSyncedEnforceWithMatcher _ _ | SSyncedEnforceWithMatcherMap _ _ => Some Exclusive
  | SGetAllSubjects | SGetAllNamedSubjects _ | SGetAllObjects | SGetAllNamedObjects _ | SGetAllNamedActions _
  | SGetAllRoles | SGetAllNamedRoles _
  | SGetNamedPolicy _ | SGetFilteredNamedPolicy _ _ _ | SGetNamedGroupingPolicy _ | SGetFilteredNamedGroupingPolicy _ _ _
  | SHasNamedPolicy _ _ | SHasNamedGroupingPolicy _ _
  | SGetPermissionsForUser _ | SGetPermissionsForUserInDomain _ _ => Some Shared
  | _ => None
  end.
(** The three listings over all policy types. *)
Definition lists_all (c : scall) : Prop := match c with SGetAllSubjects | SGetAllObjects | SGetAllRoles => True | _ => False end.

(** A state with at least one policy type and one role definition. *)
Definition both_sections (m : model) : Prop := (exists pt a, get_ast m "p" pt = Ok a) /\ (exists pt a, get_ast m "g" pt = Ok a).

(** ** The calls that lock the mutex again while they hold it *)
Definition locks_itself (c : scall) (e : enforcer) : Prop :=
  match c with
  | SLoadFilteredPolicy _
  | SGetPolicy | SGetGroupingPolicy | SGetFilteredGroupingPolicy _ _ | SHasPolicy _ | SGetFilteredPolicy _ _
  | SAddPolicy _ | SAddPolicies _ | SRemovePolicy _ | SUpdatePolicy _ _ | SUpdatePolicies _ _ | SRemovePolicies _ | SRemoveFilteredPolicy _ _
  | SHasGroupingPolicy _ | SAddGroupingPolicy _ | SAddGroupingPolicies _ | SRemoveGroupingPolicy _ | SRemoveGroupingPolicies _
  | SRemoveFilteredGroupingPolicy _ _ | SUpdateGroupingPolicy _ _
  | SAddRoleForUser _ _ | SDeleteRoleForUser _ _ | SDeleteRolesForUser _ | SDeleteUser _ | SDeleteRole _ | SDeletePermission _
  | SAddPermissionForUser _ _ | SDeletePermissionForUser _ _ | SDeletePermissionsForUser _ | SHasPermissionForUser _ _
  | SAddRoleForUserInDomain _ _ _ | SDeleteRoleForUserInDomain _ _ _ => True
  | SAddRolesForUser _ roles => roles <> []
  (* with automatic role links, once the rule was looked for *)
  | SRemoveNamedGroupingPolicy pt r =>
      exists e1 b, i_removePolicy "g" pt r e = (e1, Ok b) /\ e_auto_build e1 = true
  | SRemoveFilteredNamedGroupingPolicy pt i vals =>
      exists e1 b, i_removeFilteredPolicy "g" pt i vals e = (e1, Ok b) /\ e_auto_build e1 = true
  | _ => False
  end.

(** ** Where threads are *)
Definition inside (w : world) (i : nat) : Prop :=
  exists todo c s k, nth_error (w_threads w) i = Some (mkT todo (Inside c s k)).
Definition all_done (w : world) : Prop := Forall (fun t => t = mkT [] Idle) (w_threads w).

(** Among them, the calls that hold the mutex exclusively when they ask for it again. *)
Definition never_returns (c : scall) : Prop :=
  match c with
  | SLoadFilteredPolicy _ | SGetFilteredPolicy _ _
  | SAddPolicy _ | SAddPolicies _ | SRemovePolicy _ | SUpdatePolicy _ _ | SUpdatePolicies _ _ | SRemovePolicies _ | SRemoveFilteredPolicy _ _
  | SAddGroupingPolicy _ | SAddGroupingPolicies _ | SRemoveGroupingPolicy _ | SRemoveGroupingPolicies _
  | SRemoveFilteredGroupingPolicy _ _ | SUpdateGroupingPolicy _ _
  | SAddRoleForUser _ _ | SDeleteRoleForUser _ _ | SDeleteRolesForUser _ | SDeleteUser _ | SDeleteRole _ | SDeletePermission _
  | SAddPermissionForUser _ _ | SDeletePermissionForUser _ _ | SDeletePermissionsForUser _
  | SAddRoleForUserInDomain _ _ _ | SDeleteRoleForUserInDomain _ _ _ => True
  | SAddRolesForUser _ roles => roles <> []
  | _ => False
  end.

(** The functions SyncedEnforcer inherits and that take no lock. *)
Definition takes_no_lock (c : scall) : Prop :=
  match c with
  | SGetRolesForUser _ _ | SGetUsersForRole _ _ | SHasRoleForUser _ _ | SGetImplicitRolesForUser _ _
  | SEnforceWithMatcher _ _ | SEnforceEx _ => True
  | _ => False
  end.
