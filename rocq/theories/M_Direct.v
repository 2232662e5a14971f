(** Working on the parts behind the enforcer: the model GetModel() returns and the role
    manager GetRoleManager() returns are the enforcer's own (shared pointers), so a call
    on them changes the enforcer without its functions being called. *)
From Verif Require Import Base M_Util M_RoleManager M_Model M_Persist M_Evaluator M_Enforcer S_Roles.

(** What a call on a role manager returns or throws; answers are left out
    (default_role_manager.cpp:165-291). *)
Definition role_outcome (r : role_manager) (c : rcall) : res unit :=
  match c with
  | RAdd d a b => snd (AddLink r a b (dom_arg d))
  | RDel d a b => snd (DeleteLink r a b (dom_arg d))
  | RClear => Ok tt
  | RHasLink d a b => let! _ := snd (HasLink r a b (dom_arg d)) in Ok tt
  | RGetRoles d a => let! _ := snd (GetRoles r a (dom_arg d)) in Ok tt
  | RGetUsers d b => let! _ := GetUsers r b (dom_arg d) in Ok tt
  end.

(** enforcer.cpp:371-373 [GetModel] and one of the public functions of Model
    (model.cpp:227-426); enforcer.cpp:407-409 [GetRoleManager] and a call on it.
    Simplification: the second part of RemoveFilteredPolicy's answer is left out. *)
Inductive direct :=
| DAddPolicy (sec pt : string) (r : rule)
| DAddPolicies (sec pt : string) (rs : list rule)
| DRemovePolicy (sec pt : string) (r : rule)
| DRemovePolicies (sec pt : string) (rs : list rule)
| DRemoveFilteredPolicy (sec pt : string) (i : nat) (vals : list string)
| DUpdatePolicy (sec pt : string) (old new : rule)
| DUpdatePolicies (sec pt : string) (olds news : list rule)
| DClearPolicy
| DRole (c : rcall).
Definition directly (d : direct) : M bool :=
  match d with
  | DAddPolicy sec pt r => on_model (fun m => AddPolicy m sec pt r)
  | DAddPolicies sec pt rs => on_model (fun m => AddPolicies m sec pt rs)
  | DRemovePolicy sec pt r => on_model (fun m => RemovePolicy m sec pt r)
  | DRemovePolicies sec pt rs => on_model (fun m => RemovePolicies m sec pt rs)
  | DRemoveFilteredPolicy sec pt i vals =>
      p <- on_model (fun m => RemoveFilteredPolicy m sec pt i vals) ;; ret (fst p)
  | DUpdatePolicy sec pt old new => on_model (fun m => UpdatePolicy m sec pt old new)
  | DUpdatePolicies sec pt olds news => on_model (fun m => UpdatePolicies m sec pt olds news)
  | DClearPolicy => on_model (fun m => Ok (ClearPolicy m, true))
  | DRole c => fun e =>
      match hget (e_heap e) (e_rm e) with
      | Ok r => (set_heap (hset (e_heap e) (e_rm e) (rrun r c)) e, let! _ := role_outcome r c in Ok true)
      | Throw x => (e, Throw x)
      | UB u => (e, UB u)
      end
  end.
