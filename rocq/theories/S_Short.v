(** Vocabulary of property C108: grouping rules with fewer fields than their role
    definition has. *)
From Verif Require Import Base M_Util M_RoleManager M_Model M_Persist M_Evaluator M_Enforcer S_Policy S_History.

(** The role definition [pt] has [n] fields ("_, _" has two). *)
Definition takes (e : enforcer) (pt : string) (n : nat) : Prop :=
  exists a, get_ast (e_model e) "g" pt = Ok a /\ scount "_" (a_value a) = n.
(** The enforcer's role manager is the one the definition [pt] uses, as it is after the
    links were built. *)
Definition connected (e : enforcer) (pt : string) : Prop :=
  (exists a, get_ast (e_model e) "g" pt = Ok a /\ a_rm a = Some (e_rm e)) /\ exists r, hget (e_heap e) (e_rm e) = Ok r.
(** Rules are kept in order, as grouping rules are. *)
Definition listed_in_order (e : enforcer) (pt : string) : Prop :=
  exists a l, get_ast (e_model e) "g" pt = Ok a /\ a_policy a = Vec l.

(** A rule is stored that its role definition does not admit. *)
Definition holds_short (e : enforcer) : Prop :=
  exists pt n r, takes e pt n /\ In r (stored e "g" pt) /\ List.length r < n.

(** Two enforcers decide every request alike, for every matcher, and have the same roles. *)
Definition answers_alike (o : oracle) (e e' : enforcer) : Prop :=
  (forall matcher params, snd (EnforceExWithMatcher o matcher params e') = snd (EnforceExWithMatcher o matcher params e)) /\
  (forall matcher params, snd (EnforceExWithMatcherMap o matcher params e') = snd (EnforceExWithMatcherMap o matcher params e)) /\
  (forall user domain, snd (GetRolesForUser user domain e') = snd (GetRolesForUser user domain e)) /\
  (forall role domain, snd (GetUsersForRole role domain e') = snd (GetUsersForRole role domain e)).

(** Nobody is told: not the storage, not the file system, not the watcher. *)
Definition nobody_told (e e' : enforcer) : Prop :=
  e_adapter e' = e_adapter e /\ e_fs e' = e_fs e /\ e_watcher e' = e_watcher e.

(** The calls that take grouping rules away, and BuildRoleLinks. *)
Definition relinks (c : call) : Prop :=
  match c with
  | KRemoveGrouping _ _ | KRemoveFilteredGrouping _ _ _ | KDeleteUser _ | KDeleteRole _ | KBuildRoleLinks => True
  | _ => False
  end.
