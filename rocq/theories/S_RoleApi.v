(** Specification of the role calls of the RBAC API, with and without domains. *)
From Verif Require Import Base M_Util M_RoleManager M_Model M_Persist M_Evaluator M_Enforcer S_Policy S_History S_Roles S_Sync.

(** The calls of rbac_api.cpp (no domain) and rbac_api_with_domains.cpp (a domain). *)
Definition list_roles (d : option string) (u : string) : M (list string) :=
  match d with None => GetRolesForUser u [] | Some k => GetRolesForUserInDomain u k end.
Definition list_users (d : option string) (x : string) : M (list string) :=
  match d with None => GetUsersForRole x [] | Some k => GetUsersForRoleInDomain x k end.
Definition give_role (d : option string) (u x : string) : M bool :=
  match d with None => AddRoleForUser u x | Some k => AddRoleForUserInDomain u x k end.
Definition take_role (d : option string) (u x : string) : M bool :=
  match d with None => DeleteRoleForUser u x | Some k => DeleteRoleForUserInDomain u x k end.

(** Role assignments are kept by the library, as rules of type g only, none of them twice. *)
Record staffed (o : oracle) (names : node -> Prop) (n : nat) (rules : rule -> Prop) (e : enforcer) : Prop := mkStaffed {
  sf_managed : managed o names n rules e;
  sf_declared : declared e "g" "g";
  sf_only : forall pt, pt <> "g" -> stored e "g" pt = [];
  sf_once : NoDup (stored e "g" "g") }.

(** A role assignment that may be made: the grouping rule for it is one in use. *)
Definition usable (rules : rule -> Prop) (d : option string) (u x : string) : Prop := rules (u :: x :: dom_arg d).

(** The role assignments of [e'] are those of [e] as changed by [change]: every listing of
    roles and of users of the names in use says so. *)
Definition roles_become (names : node -> Prop) (e e' : enforcer) (change : (link -> Prop) -> link -> Prop) : Prop :=
  exists L : link -> Prop,
    (forall d u, names (d, u) -> exists l l', list_roles d u e = (e, Ok l) /\ list_roles d u e' = (e', Ok l') /\
       (forall x, In x l <-> L (d, u, x)) /\ (forall x, In x l' <-> change L (d, u, x))) /\
    (forall d x l', names (d, x) -> snd (list_users d x e') = Ok l' -> forall u, In u l' <-> change L (d, u, x)) /\
    (forall d x t, names (d, x) -> snd (list_users d x e') = Throw t -> forall u, ~ change L (d, u, x)).
