(** Vocabulary of property C88. *)
From Verif Require Import Base M_Util M_RoleManager M_Model M_Persist M_Evaluator M_Enforcer M_Copies S_History S_Sync S_Rbac.

(** What is done with an enforcer and its copies: safe calls (S_Sync.v, S_Rbac.v) through
    any of them, copies and assignments. *)
Definition family_action (rules : rule -> Prop) (k : nat) (a : action) : Prop :=
  match a with
  | Call _ c => safe_call rules c /\ shaped_call k c
  | Copy _ | Assign _ _ => True
  | Onto _ => False
  end.

(** The switches of an enforcer. *)
Definition switches (e : enforcer) : bool * bool * bool * bool :=
  (e_enabled e, e_auto_save e, e_auto_build e, e_notify e).

(** The enforcer an action is about, when it changes one. *)
Definition about (a : action) : option nat :=
  match a with Call i _ | Assign i _ => Some i | Copy _ | Onto _ => None end.

(** The calls that give an enforcer another adapter, watcher or evaluator. *)
Definition sets_part (c : call) : Prop :=
  match c with KSetAdapter _ | KSetWatcher | KSetEvaluator => True | _ => False end.

(** What is done with an enforcer and its copies when none of them is given another part:
    any calls but those and SetModel, which also drops the watcher and the evaluator. *)
Definition leaves_parts (a : action) : Prop :=
  match a with
  | Call _ c => ~ sets_part c /\ (forall m, c <> KSetModel m)
  | Copy _ | Assign _ _ => True
  | Onto _ => False
  end.
