(** Specification of the policy calls without side conditions: rules are compared up to
    the order of their fields.  The tables list every call of the management and RBAC API
    with the policy type and rule it is about. *)
From Coq Require Import Permutation.
From Verif Require Import Base M_Util M_RoleManager M_Model M_Persist M_Evaluator M_Enforcer S_Policy.

(** Some rule of the list has the fields of [r], in some order. *)
Definition similar (r : rule) (l : list rule) : Prop := exists x, In x l /\ Permutation r x.
(** The first such rule is taken out of the list. *)
Definition first_out (r : rule) (l l' : list rule) : Prop :=
  exists pre x post, l = pre ++ x :: post /\ l' = pre ++ post /\ Permutation r x /\ ~ similar r pre.
(** ... for each rule of a list, one after the other. *)
Inductive each_out : list rule -> list rule -> list rule -> Prop :=
| out_nil : forall l, each_out [] l l
| out_cons : forall r rs l l1 l2, first_out r l l1 -> each_out rs l1 l2 -> each_out (r :: rs) l l2.

(** management_api.cpp, rbac_api.cpp, rbac_api_with_domains.cpp: calls that ask for a rule. *)
Inductive asks : M bool -> string -> string -> rule -> Prop :=
| asks_named : forall pt r, asks (HasNamedPolicy pt r) "p" pt r
| asks_p : forall r, asks (e_HasPolicy r) "p" "p" r
| asks_grouping : forall pt r, asks (HasNamedGroupingPolicy pt r) "g" pt r
| asks_g : forall r, asks (HasGroupingPolicy r) "g" "g" r
| asks_permission : forall u perm, asks (HasPermissionForUser u perm) "p" "p" (u :: perm).

(** Calls that list rules: all of them, or those a filter selects. *)
Inductive lists : M (list rule) -> string -> string -> Prop :=
| lists_named : forall pt, lists (GetNamedPolicy pt) "p" pt
| lists_p : lists e_GetPolicy "p" "p"
| lists_grouping : forall pt, lists (GetNamedGroupingPolicy pt) "g" pt
| lists_g : lists GetGroupingPolicy "g" "g".
Inductive filters : M (list rule) -> string -> string -> nat -> list string -> Prop :=
| filters_named : forall pt i vals, filters (GetFilteredNamedPolicy pt i vals) "p" pt i vals
| filters_p : forall i vals, filters (e_GetFilteredPolicy i vals) "p" "p" i vals
| filters_grouping : forall pt i vals, filters (GetFilteredNamedGroupingPolicy pt i vals) "g" pt i vals
| filters_g : forall i vals, filters (GetFilteredGroupingPolicy i vals) "g" "g" i vals
| filters_user : forall u, filters (GetPermissionsForUser u) "p" "p" 0 [u]
| filters_user_domain : forall u d, filters (GetPermissionsForUserInDomain u d) "p" "p" 0 [u; d].

(** Calls that add one rule, that add several, and that remove one. *)
Inductive adds : M bool -> string -> string -> rule -> Prop :=
| adds_named : forall pt r, adds (AddNamedPolicy pt r) "p" pt r
| adds_p : forall r, adds (e_AddPolicy r) "p" "p" r
| adds_grouping : forall pt r, adds (AddNamedGroupingPolicy pt r) "g" pt r
| adds_g : forall r, adds (AddGroupingPolicy r) "g" "g" r
| adds_permission : forall u perm, adds (AddPermissionForUser u perm) "p" "p" (u :: perm)
| adds_role : forall u x, adds (AddRoleForUser u x) "g" "g" [u; x]
| adds_role_domain : forall u x d, adds (AddRoleForUserInDomain u x d) "g" "g" [u; x; d].
Inductive adds_many : M bool -> string -> string -> list rule -> Prop :=
| adds_many_named : forall pt rs, adds_many (AddNamedPolicies pt rs) "p" pt rs
| adds_many_p : forall rs, adds_many (e_AddPolicies rs) "p" "p" rs
| adds_many_grouping : forall pt rs, adds_many (AddNamedGroupingPolicies pt rs) "g" pt rs
| adds_many_g : forall rs, adds_many (AddGroupingPolicies rs) "g" "g" rs.
Inductive removes : M bool -> string -> string -> rule -> Prop :=
| removes_named : forall pt r, removes (RemoveNamedPolicy pt r) "p" pt r
| removes_p : forall r, removes (e_RemovePolicy r) "p" "p" r
| removes_grouping : forall pt r, removes (RemoveNamedGroupingPolicy pt r) "g" pt r
| removes_g : forall r, removes (RemoveGroupingPolicy r) "g" "g" r
| removes_permission : forall u perm, removes (DeletePermissionForUser u perm) "p" "p" (u :: perm)
| removes_role : forall u x, removes (DeleteRoleForUser u x) "g" "g" [u; x]
| removes_role_domain : forall u x d, removes (DeleteRoleForUserInDomain u x d) "g" "g" [u; x; d].
(** Calls that by their name remove several rules. *)
Inductive removes_many : M bool -> string -> string -> list rule -> Prop :=
| removes_many_named : forall pt rs, removes_many (RemoveNamedPolicies pt rs) "p" pt rs
| removes_many_p : forall rs, removes_many (e_RemovePolicies rs) "p" "p" rs
| removes_many_grouping : forall pt rs, removes_many (RemoveNamedGroupingPolicies pt rs) "g" pt rs
| removes_many_g : forall rs, removes_many (RemoveGroupingPolicies rs) "g" "g" rs.
(** Calls that remove the rules a filter selects. *)
Inductive removes_filtered : M bool -> string -> string -> nat -> list string -> Prop :=
| rf_named : forall pt i vals, removes_filtered (RemoveFilteredNamedPolicy pt i vals) "p" pt i vals
| rf_p : forall i vals, removes_filtered (e_RemoveFilteredPolicy i vals) "p" "p" i vals
| rf_grouping : forall pt i vals, removes_filtered (RemoveFilteredNamedGroupingPolicy pt i vals) "g" pt i vals
| rf_g : forall i vals, removes_filtered (RemoveFilteredGroupingPolicy i vals) "g" "g" i vals
| rf_roles : forall u, removes_filtered (DeleteRolesForUser u) "g" "g" 0 [u]
| rf_permission : forall perm, removes_filtered (DeletePermission perm) "p" "p" 1 perm
| rf_permissions : forall u, removes_filtered (DeletePermissionsForUser u) "p" "p" 0 [u].
(** Calls that replace one rule, or several. *)
Inductive updates : M bool -> string -> string -> rule -> rule -> Prop :=
| updates_named : forall pt old new, updates (UpdateNamedPolicy pt old new) "p" pt old new
| updates_p : forall old new, updates (e_UpdatePolicy old new) "p" "p" old new
| updates_grouping : forall pt old new, updates (UpdateNamedGroupingPolicy pt old new) "g" pt old new
| updates_g : forall old new, updates (UpdateGroupingPolicy old new) "g" "g" old new.
Inductive updates_many : M bool -> string -> string -> list rule -> list rule -> Prop :=
| updates_many_named : forall pt olds news, updates_many (UpdateNamedPolicies pt olds news) "p" pt olds news
| updates_many_p : forall olds news, updates_many (e_UpdatePolicies olds news) "p" "p" olds news.

(** The value a call returns, if it returns. *)
Definition returns (out : res bool) (P : Prop) : Prop := forall b, out = Ok b -> (b = true <-> P).
