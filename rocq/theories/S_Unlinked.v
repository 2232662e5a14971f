(** Specification for property C114: an enforcer whose role links were never built. *)
From Verif Require Import Base M_Util M_Model M_Enforcer S_History.

(** What a role function says when there are no links: a name has itself as a role, in every
    domain, and nothing else. *)
Definition itself (f : string) (args : list string) : Prop :=
  match args with
  | [a; b] | [a; b; _] => a = b
  | _ => False
  end.

(** Calls that neither add grouping rules nor build links: management of the rules of section p,
    requests, queries of the rules, saving, and switches other than the automatic building of links. *)
Definition linkless_call (c : call) : Prop :=
  match c with
  | KAddPolicy _ _ | KAddPolicies _ _ | KRemovePolicy _ _ | KRemovePolicies _ _ | KRemoveFiltered _ _ _
  | KUpdatePolicy _ _ _ | KUpdatePolicies _ _ _ => True
  | KGetAll _ _ | KGetImplicitUsers _ | KEnforce _ _ | KEnforceMap _ _ | KBatchEnforce _ _ => True
  | KSavePolicy | KEnableEnforce _ | KEnableAutoNotify _ | KEnableAutoSave _ | KSetWatcher | KSetEvaluator => True
  | _ => False
  end.

(** Calls after which the evaluator of the enforcer is the same object: every call in order (S_Sync.v), among
    them adding grouping rules and BuildRoleLinks, but not SetEvaluator. *)
Definition evaluator_stays (c : call) : Prop :=
  match c with KSetEvaluator => False | _ => True end.
