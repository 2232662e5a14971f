(** Vocabulary of property C95: a watcher of the caller that may fail. *)
From Verif Require Import Base M_Util M_RoleManager M_Model M_Persist M_Evaluator M_Enforcer M_OwnWatcher S_Policy S_History S_Notify.

(** A call of the API when the watcher is [up].  The calls not listed tell the watcher
    nothing. *)
Definition wrun (up : notice -> nat -> M unit) (o : oracle) (c : call) : M unit :=
  match c with
  | KAddPolicy pt r => drop_value (w_addPolicy up "p" pt r)
  | KAddPolicies pt rs => drop_value (w_addPolicies up "p" pt rs)
  | KRemovePolicy pt r => drop_value (w_removePolicy up "p" pt r)
  | KRemovePolicies pt rs => drop_value (w_removePolicies up "p" pt rs)
  | KRemoveFiltered pt i vals => drop_value (w_removeFilteredPolicy up "p" pt i vals)
  | KUpdatePolicy pt old new => drop_value (w_updatePolicy up "p" pt old new)
  | KUpdatePolicies pt olds news => drop_value (w_updatePolicies up "p" pt olds news)
  | KAddGrouping pt r => drop_value (w_AddNamedGroupingPolicy up pt r)
  | KAddGroupings pt rs => drop_value (w_addPolicies up "g" pt rs)
  | KRemoveGrouping pt r => drop_value (w_RemoveNamedGroupingPolicy up pt r)
  | KRemoveGroupings pt rs => drop_value (w_removePolicies up "g" pt rs)
  | KRemoveFilteredGrouping pt i vals => drop_value (w_RemoveFilteredNamedGroupingPolicy up pt i vals)
  | KUpdateGrouping pt old new => drop_value (w_updatePolicy up "g" pt old new)
  | KAddRolesForUser user roles => drop_value (w_AddRolesForUser up user roles false)
  | KDeleteUser user => drop_value (w_delete up 0 user)
  | KDeleteRole role => drop_value (w_delete up 1 role)
  | KSavePolicy => w_SavePolicy up
  | _ => run o c
  end.

(** A watcher that always returns and leaves the enforcer alone, and one that leaves the
    enforcer alone but may throw. *)
Definition dutiful (up : notice -> nat -> M unit) : Prop := forall k n e, up k n e = (e, Ok tt).
Definition detached (up : notice -> nat -> M unit) : Prop := forall k n e, fst (up k n e) = e.

(** Calls that make one change and have nothing left to do once the watcher was told. *)
Definition told_last (c : call) : Prop :=
  match c with
  | KAddPolicy _ _ | KAddPolicies _ _ | KRemovePolicy _ _ | KRemovePolicies _ _ | KRemoveFiltered _ _ _
  | KUpdatePolicy _ _ _ | KUpdatePolicies _ _ _ | KAddGroupings _ _ | KRemoveGroupings _ _ | KUpdateGrouping _ _ _
  | KSavePolicy => True
  | _ => False
  end.
(** Calls that make one change. *)
Definition one_change (c : call) : Prop :=
  told_last c \/ match c with KAddGrouping _ _ | KRemoveGrouping _ _ | KRemoveFilteredGrouping _ _ _ => True | _ => False end.

(** The watcher was told of something between two states. *)
Definition was_told (e e' : enforcer) : Prop := heard e < heard e'.

(** A history with this watcher, in which no call had undefined behaviour; the caller may
    catch exceptions and go on. *)
Inductive wreaches (up : notice -> nat -> M unit) (o : oracle) : enforcer -> list call -> enforcer -> Prop :=
| wreach_nil : forall e, wreaches up o e [] e
| wreach_step : forall e c cs e1 out e2,
    wrun up o c e = (e1, out) -> (forall u, out <> UB u) -> wreaches up o e1 cs e2 -> wreaches up o e (c :: cs) e2.

(** All calls but those with something left to do after the watcher was told. *)
Definition undivided (c : call) : Prop :=
  match c with
  | KAddGrouping _ _ | KRemoveGrouping _ _ | KRemoveFilteredGrouping _ _ _
  | KAddRolesForUser _ _ | KDeleteUser _ | KDeleteRole _ => False
  | _ => True
  end.
