(** Specification: what a storage and a watcher are told. *)
From Coq Require Import Permutation.
From Verif Require Import Base M_Util M_RoleManager M_Model M_Persist M_Evaluator M_Enforcer S_Policy S_History.

(** The policy as a set of rules, by section and type. *)
Definition table := string -> string -> rule -> Prop.
Definition policy (e : enforcer) : table := fun sec pt r => In r (stored e sec pt).

(** The calls a user's own adapter has received, and how often the watcher was told. *)
Definition told (e : enforcer) : list acall := match e_adapter e with Some (AUser u) => ua_log u | _ => [] end.
Definition heard (e : enforcer) : nat := match e_watcher e with Some n => n | None => 0 end.

(** What a storage that does as it is told makes of its rules. *)
Definition does (c : acall) (T T' : table) : Prop :=
  match c with
  | CAdd sec pt r => forall s q x, T' s q x <-> T s q x \/ (s = sec /\ q = pt /\ x = r)
  | CRemove sec pt r => forall s q x, T' s q x <-> T s q x /\ ~ (s = sec /\ q = pt /\ x = r)
  | CRemoveFiltered sec pt i vals => forall s q x, T' s q x <-> T s q x /\ ~ (s = sec /\ q = pt /\ qualifies i vals x)
  | CAddMany sec pt rs => forall s q x, T' s q x <-> T s q x \/ (s = sec /\ q = pt /\ In x rs)
  | CRemoveMany sec pt rs => forall s q x, T' s q x <-> T s q x /\ ~ (s = sec /\ q = pt /\ In x rs)
  end.
(** Something is different. *)
Definition differ (T T' : table) : Prop := exists s q x, (T s q x /\ ~ T' s q x) \/ (~ T s q x /\ T' s q x).

(** [replay log T T']: following the log, each entry of which changes something, leads
    from the rules T to the rules T'. *)
Inductive replay : list acall -> table -> table -> Prop :=
| replay_nil : forall T T', (forall s q x, T' s q x <-> T s q x) -> replay [] T T'
| replay_step : forall c log T T1 T', does c T T1 -> differ T T1 -> replay log T1 T' -> replay (c :: log) T T'.

(** A history in which no call failed. *)
Inductive succeeds (o : oracle) : enforcer -> list call -> enforcer -> Prop :=
| succeed_nil : forall e, succeeds o e [] e
| succeed_step : forall e c cs e1 e2, run o c e = (e1, Ok tt) -> succeeds o e1 cs e2 -> succeeds o e (c :: cs) e2.

(** The calls whose changes are forwarded as they are; rules given in calls are among
    [rules]. *)
Definition forwarded (rules : rule -> Prop) (c : call) : Prop :=
  match c with
  | KAddPolicy _ r | KRemovePolicy _ r | KAddGrouping _ r | KRemoveGrouping _ r => rules r
  | KAddPolicies _ rs | KAddGroupings _ rs => rs <> [] /\ NoDup rs /\ Forall rules rs
  | KAddRolesForUser u roles => Forall (fun r => rules [u; r]) roles
  | KRemovePolicies _ _ | KRemoveGroupings _ _ | KUpdatePolicy _ _ _ | KUpdatePolicies _ _ _ | KUpdateGrouping _ _ _
  | KClearPolicy | KLoadPolicy | KLoadFilteredPolicy _ | KSetModel _ | KSetAdapter _ => False
  | KEnableAutoSave b => b = true
  | _ => True
  end.

(** The functions that change the policy and answer whether they did. *)
Inductive changes : M bool -> Prop :=
| ch_add : forall pt r, changes (AddNamedPolicy pt r)
| ch_add_many : forall pt rs, changes (AddNamedPolicies pt rs)
| ch_remove : forall pt r, changes (RemoveNamedPolicy pt r)
| ch_remove_many : forall pt rs, changes (RemoveNamedPolicies pt rs)
| ch_remove_filtered : forall pt i vals, changes (RemoveFilteredNamedPolicy pt i vals)
| ch_update : forall pt old new, changes (UpdateNamedPolicy pt old new)
| ch_update_many : forall pt olds news, changes (UpdateNamedPolicies pt olds news)
| ch_add_g : forall pt r, changes (AddNamedGroupingPolicy pt r)
| ch_add_many_g : forall pt rs, changes (AddNamedGroupingPolicies pt rs)
| ch_remove_g : forall pt r, changes (RemoveNamedGroupingPolicy pt r)
| ch_remove_many_g : forall pt rs, changes (RemoveNamedGroupingPolicies pt rs)
| ch_remove_filtered_g : forall pt i vals, changes (RemoveFilteredNamedGroupingPolicy pt i vals)
| ch_update_g : forall pt old new, changes (UpdateNamedGroupingPolicy pt old new).

(** A history of such functions that did not fail, with their answers. *)
Inductive answers : enforcer -> list bool -> enforcer -> Prop :=
| answers_nil : forall e, answers e [] e
| answers_step : forall f e e1 b bs e2, changes f -> f e = (e1, Ok b) -> answers e1 bs e2 -> answers e (b :: bs) e2.

(** What each function should say to the adapter. *)
Inductive forwards : M bool -> acall -> Prop :=
| fw_add : forall pt r, forwards (AddNamedPolicy pt r) (CAdd "p" pt r)
| fw_add_many : forall pt rs, forwards (AddNamedPolicies pt rs) (CAddMany "p" pt rs)
| fw_remove : forall pt r, forwards (RemoveNamedPolicy pt r) (CRemove "p" pt r)
| fw_remove_many : forall pt rs, forwards (RemoveNamedPolicies pt rs) (CRemoveMany "p" pt rs)
| fw_remove_filtered : forall pt i vals, forwards (RemoveFilteredNamedPolicy pt i vals) (CRemoveFiltered "p" pt i vals)
| fw_add_g : forall pt r, forwards (AddNamedGroupingPolicy pt r) (CAdd "g" pt r)
| fw_add_many_g : forall pt rs, forwards (AddNamedGroupingPolicies pt rs) (CAddMany "g" pt rs)
| fw_remove_g : forall pt r, forwards (RemoveNamedGroupingPolicy pt r) (CRemove "g" pt r)
| fw_remove_many_g : forall pt rs, forwards (RemoveNamedGroupingPolicies pt rs) (CRemoveMany "g" pt rs)
| fw_remove_filtered_g : forall pt i vals, forwards (RemoveFilteredNamedGroupingPolicy pt i vals) (CRemoveFiltered "g" pt i vals).

(** A change of the policy by functions whose answer says whether they changed it;
    rules to be removed are among [rules]. *)
Inductive reports (rules : rule -> Prop) : M bool -> Prop :=
| rp_add : forall pt r, reports rules (AddNamedPolicy pt r)
| rp_add_many : forall pt rs, rs <> [] -> reports rules (AddNamedPolicies pt rs)
| rp_remove : forall pt r, rules r -> reports rules (RemoveNamedPolicy pt r)
| rp_remove_filtered : forall pt i vals, reports rules (RemoveFilteredNamedPolicy pt i vals)
| rp_add_g : forall pt r, reports rules (AddNamedGroupingPolicy pt r)
| rp_add_many_g : forall pt rs, rs <> [] -> reports rules (AddNamedGroupingPolicies pt rs)
| rp_remove_g : forall pt r, rules r -> reports rules (RemoveNamedGroupingPolicy pt r)
| rp_remove_filtered_g : forall pt i vals, reports rules (RemoveFilteredNamedGroupingPolicy pt i vals).

(** Calls that leave auto-save and the adapter as they are. *)
Definition keeps_saving_off (c : call) : Prop :=
  match c with KEnableAutoSave b => b = false | KSetAdapter _ | KSetModel _ => False | _ => True end.
