(** Vocabulary of property C107: a watcher that makes its own enforcer load the policy when
    it is told of a change.  enforcer.cpp:393-399 [SetWatcher] means to install such a
    callback; a user who wants it has to write a watcher that does it. *)
From Verif Require Import Base M_Util M_RoleManager M_Model M_Persist M_Evaluator M_Enforcer M_OwnWatcher S_Policy S_Persist S_History S_Notify S_OwnWatcher S_Cluster.

(** Whatever it is told, it calls LoadPolicy. *)
Definition reloading : notice -> nat -> M unit := fun _ _ => LoadPolicy.

(** A history with this watcher in which every call returned. *)
Inductive returns (up : notice -> nat -> M unit) (o : oracle) : enforcer -> list call -> enforcer -> Prop :=
| returns_nil : forall e, returns up o e [] e
| returns_step : forall e c cs e1 e2, wrun up o c e = (e1, Ok tt) -> returns up o e1 cs e2 -> returns up o e (c :: cs) e2.

(** The policy is in a file. *)
Definition file_backed (e : enforcer) : Prop :=
  match e_adapter e with Some (AFile _ _) | Some (AFiltered _ _) => True | _ => False end.
(** The enforcer has the policy and grouping rules that loading would give it. *)
Definition as_loaded (e : enforcer) : Prop :=
  forall sec pt, sec = "p" \/ sec = "g" -> stored e sec pt = stored (fst (LoadPolicy e)) sec pt.
(** The calls that replace rules. *)
Definition updates (c : call) : Prop :=
  match c with KUpdatePolicy _ _ _ | KUpdatePolicies _ _ _ | KUpdateGrouping _ _ _ => True | _ => False end.
