(** Histories of API calls on one enforcer.  A call is one public function with its
    arguments; a history is any list of calls.  A caller may catch an exception and go
    on, so a history continues after a call that throws; it ends at a call with
    undefined behaviour. *)
From Verif Require Import Base M_Util M_RoleManager M_Model M_Persist M_Evaluator M_Enforcer.

Inductive call :=
(* management of policy rules *)
| KAddPolicy (pt : string) (r : rule)
| KAddPolicies (pt : string) (rs : list rule)
| KRemovePolicy (pt : string) (r : rule)
| KRemovePolicies (pt : string) (rs : list rule)
| KRemoveFiltered (pt : string) (i : nat) (vals : list string)
| KUpdatePolicy (pt : string) (old new : rule)
| KUpdatePolicies (pt : string) (olds news : list rule)
(* management of grouping rules *)
| KAddGrouping (pt : string) (r : rule)
| KAddGroupings (pt : string) (rs : list rule)
| KRemoveGrouping (pt : string) (r : rule)
| KRemoveGroupings (pt : string) (rs : list rule)
| KRemoveFilteredGrouping (pt : string) (i : nat) (vals : list string)
| KUpdateGrouping (pt : string) (old new : rule)
(* role based functions that are not one of the above with other arguments *)
| KAddRolesForUser (user : string) (roles : list string)
| KDeleteUser (user : string)
| KDeleteRole (role : string)
(* queries *)
| KGetAll (sec : string) (i : nat)      (* GetAllSubjects, GetAllObjects, ... *)
| KGetRolesForUser (name : string) (domain : list string)
| KGetImplicitRoles (name : string) (domain : list string)
| KGetImplicitPermissions (name : string) (domain : list string)
| KGetImplicitUsers (perm : list string)
| KEnforce (matcher : string) (params : list data)
| KEnforceMap (matcher : string) (params : list (string * data))
| KBatchEnforce (matcher : string) (reqs : list (list data))
(* loading, saving, configuration *)
| KClearPolicy
| KLoadPolicy
| KLoadFilteredPolicy (flt : option filter)
| KSavePolicy
| KBuildRoleLinks
| KEnableEnforce (b : bool)
| KEnableAutoNotify (b : bool)
| KEnableAutoSave (b : bool)
| KEnableAutoBuild (b : bool)
| KSetModel (m : model)
| KSetAdapter (a : option adapter)
| KSetWatcher
| KSetRoleManager (r : role_manager)
| KSetEvaluator
| KAddMatchingFunc (fn : string -> string -> bool).

Definition drop_value {A} (c : M A) : M unit := c ;;; ret tt.

Definition run (o : oracle) (c : call) : M unit :=
  match c with
  | KAddPolicy pt r => drop_value (AddNamedPolicy pt r)
  | KAddPolicies pt rs => drop_value (AddNamedPolicies pt rs)
  | KRemovePolicy pt r => drop_value (RemoveNamedPolicy pt r)
  | KRemovePolicies pt rs => drop_value (RemoveNamedPolicies pt rs)
  | KRemoveFiltered pt i vals => drop_value (RemoveFilteredNamedPolicy pt i vals)
  | KUpdatePolicy pt old new => drop_value (UpdateNamedPolicy pt old new)
  | KUpdatePolicies pt olds news => drop_value (UpdateNamedPolicies pt olds news)
  | KAddGrouping pt r => drop_value (AddNamedGroupingPolicy pt r)
  | KAddGroupings pt rs => drop_value (AddNamedGroupingPolicies pt rs)
  | KRemoveGrouping pt r => drop_value (RemoveNamedGroupingPolicy pt r)
  | KRemoveGroupings pt rs => drop_value (RemoveNamedGroupingPolicies pt rs)
  | KRemoveFilteredGrouping pt i vals => drop_value (RemoveFilteredNamedGroupingPolicy pt i vals)
  | KUpdateGrouping pt old new => drop_value (UpdateNamedGroupingPolicy pt old new)
  | KAddRolesForUser user roles => drop_value (AddRolesForUser user roles)
  | KDeleteUser user => drop_value (DeleteUser user)
  | KDeleteRole role => drop_value (DeleteRole role)
  | KGetAll sec i => drop_value (all_types sec i)
  | KGetRolesForUser name domain => drop_value (GetRolesForUser name domain)
  | KGetImplicitRoles name domain => drop_value (GetImplicitRolesForUser name domain)
  | KGetImplicitPermissions name domain => drop_value (GetImplicitPermissionsForUser name domain)
  | KGetImplicitUsers perm => drop_value (GetImplicitUsersForPermission o perm)
  | KEnforce matcher params => drop_value (EnforceWithMatcher o matcher params)
  | KEnforceMap matcher params => drop_value (EnforceWithMatcherMap o matcher params)
  | KBatchEnforce matcher reqs => drop_value (BatchEnforceWithMatcher o matcher reqs)
  | KClearPolicy => e_ClearPolicy
  | KLoadPolicy => LoadPolicy
  | KLoadFilteredPolicy flt => e_LoadFilteredPolicy flt
  | KSavePolicy => SavePolicy
  | KBuildRoleLinks => e_BuildRoleLinks
  | KEnableEnforce b => EnableEnforce b
  | KEnableAutoNotify b => EnableAutoNotifyWatcher b
  | KEnableAutoSave b => EnableAutoSave b
  | KEnableAutoBuild b => EnableAutoBuildRoleLinks b
  | KSetModel m => SetModel m
  | KSetAdapter a => SetAdapter a
  | KSetWatcher => SetWatcher
  | KSetRoleManager r => SetRoleManager r
  | KSetEvaluator => SetEvaluator
  | KAddMatchingFunc fn => drop_value (AddNamedMatchingFunc fn)
  end.

(** The state after a history, when no call in it had undefined behaviour. *)
Inductive reaches (o : oracle) : enforcer -> list call -> enforcer -> Prop :=
| reach_nil : forall e, reaches o e [] e
| reach_step : forall e c cs e1 out e2,
    run o c e = (e1, out) -> (forall u, out <> UB u) -> reaches o e1 cs e2 -> reaches o e (c :: cs) e2.

(** Which policy types a call is about. *)
Definition about (c : call) (sec pt : string) : Prop :=
  match c with
  | KAddPolicy q _ | KAddPolicies q _ | KRemovePolicy q _ | KRemovePolicies q _
  | KRemoveFiltered q _ _ | KUpdatePolicy q _ _ | KUpdatePolicies q _ _ => sec = "p" /\ pt = q
  | KAddGrouping q _ | KAddGroupings q _ | KRemoveGrouping q _ | KRemoveGroupings q _
  | KRemoveFilteredGrouping q _ _ | KUpdateGrouping q _ _ => sec = "g" /\ pt = q
  | KAddRolesForUser _ _ => sec = "g" /\ pt = "g"
  | KDeleteUser _ | KDeleteRole _ => (sec = "g" /\ pt = "g") \/ (sec = "p" /\ pt = "p")
  | KClearPolicy | KLoadPolicy | KLoadFilteredPolicy _ | KSetModel _ => True
  | _ => False
  end.
