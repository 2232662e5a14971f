(** Vocabulary of the claim on working with the parts behind the enforcer. *)
From Verif Require Import Base M_Util M_RoleManager M_Model M_Persist M_Evaluator M_Enforcer S_Policy S_Roles M_Direct.

(** Direct calls one after another; exceptions are caught by the caller. *)
Inductive worked : enforcer -> list direct -> enforcer -> Prop :=
| worked_nil : forall e, worked e [] e
| worked_step : forall e d ds e1 out e2,
    directly d e = (e1, out) -> (forall u, out <> UB u) -> worked e1 ds e2 -> worked e (d :: ds) e2.

(** The links in force: those there were, changed by the calls on the role manager and by
    nothing else. *)
Definition in_force (L : link -> Prop) (ds : list direct) : link -> Prop :=
  fold_left (fun L d => match d with DRole c => links_step L c | _ => L end) ds L.

(** Arguments in order: grouping rules among those in use, policy rules of [k] fields,
    names among those in use. *)
Definition brings (d : direct) (sec pt : string) : list rule :=
  match d with
  | DAddPolicy s q r | DUpdatePolicy s q _ r => if String.eqb s sec && String.eqb q pt then [r] else []
  | DAddPolicies s q rs | DUpdatePolicies s q _ rs => if String.eqb s sec && String.eqb q pt then rs else []
  | _ => []
  end.
Record in_order (names : node -> Prop) (k : nat) (rules : rule -> Prop) (d : direct) : Prop := mkOrder {
  io_grouping : forall pt r, In r (brings d "g" pt) -> rules r;
  io_fields : forall r, In r (brings d "p" "p") -> List.length r = k;
  io_names : forall c x, d = DRole c -> mentions c x -> names x }.

(** The enforcer's call of the same name, for a section p or g. *)
Definition by_enforcer (d : direct) : option (M bool) :=
  match d with
  | DAddPolicy "p" pt r => Some (AddNamedPolicy pt r)
  | DAddPolicy "g" pt r => Some (AddNamedGroupingPolicy pt r)
  | DAddPolicies "p" pt rs => Some (AddNamedPolicies pt rs)
  | DAddPolicies "g" pt rs => Some (AddNamedGroupingPolicies pt rs)
  | DRemovePolicy "p" pt r => Some (RemoveNamedPolicy pt r)
  | DRemovePolicy "g" pt r => Some (RemoveNamedGroupingPolicy pt r)
  | DRemoveFilteredPolicy "p" pt i vals => Some (RemoveFilteredNamedPolicy pt i vals)
  | DRemoveFilteredPolicy "g" pt i vals => Some (RemoveFilteredNamedGroupingPolicy pt i vals)
  | DUpdatePolicy "p" pt old new => Some (UpdateNamedPolicy pt old new)
  | DUpdatePolicy "g" pt old new => Some (UpdateNamedGroupingPolicy pt old new)
  | DUpdatePolicies "p" pt olds news => Some (UpdateNamedPolicies pt olds news)
  | DClearPolicy => Some (e_ClearPolicy ;;; ret true)
  | _ => None
  end.

(** The parts a direct call could tell of a change, and the settings. *)
Definition told (e : enforcer) :=
  (e_adapter e, e_watcher e, e_fs e, e_rm e).
Definition settings (e : enforcer) :=
  (e_enabled e, e_auto_save e, e_auto_build e, e_notify e).
