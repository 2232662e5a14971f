(** Vocabulary of property C89: a storage that refuses. *)
From Verif Require Import Base M_Util M_RoleManager M_Model M_Persist M_Evaluator M_Enforcer S_Policy S_History S_Calls S_Notify.

(** The calls of the tables of S_Calls.v that are forwarded to the adapter, with their
    section and what the adapter is told. *)
Inductive says : M bool -> string -> acall -> Prop :=
| says_add : forall f sec pt r, adds f sec pt r -> says f sec (CAdd sec pt r)
| says_add_many : forall f sec pt rs, adds_many f sec pt rs -> says f sec (CAddMany sec pt rs)
| says_remove : forall f sec pt r, removes f sec pt r -> says f sec (CRemove sec pt r)
| says_remove_many : forall f sec pt rs, removes_many f sec pt rs -> says f sec (CRemoveMany sec pt rs)
| says_remove_filtered : forall f sec pt i vals, removes_filtered f sec pt i vals -> says f sec (CRemoveFiltered sec pt i vals).

(** The enforcer saves its changes with the adapter [u], which understands [c]. *)
Definition saves_with (u : user_adapter) (c : acall) (e : enforcer) : Prop :=
  e_adapter e = Some (AUser u) /\ e_auto_save e = true /\ (is_batch_call c = true -> ua_batch u = true).
(** The exception with which [u] answers to [c]; UnsupportedOperationException does not
    count (the enforcer ignores it). *)
Definition refusal (u : user_adapter) (c : acall) : option exn :=
  match ua_resp u (ua_log u) c with
  | Some UnsupportedOperation => None
  | x => x
  end.

(** How often the watcher has heard of a change after one more. *)
Definition one_more (e : enforcer) : nat :=
  match e_watcher e with Some n => if e_notify e then S n else n | None => 0 end.
