(** Model of the calls of casbin/internal_api.cpp, casbin/management_api.cpp,
    casbin/rbac_api.cpp and casbin/enforcer.cpp that tell the watcher of a change, with a
    watcher of the caller whose Update() may throw and may itself call the enforcer. *)
From Verif Require Export Base M_Util M_RoleManager M_Model M_Persist M_Evaluator M_Enforcer.

(** The functions of a watcher: persist/watcher.h:38 [Update], persist/watcher_ex.h:29-43
    and persist/watcher_update.h:34-42. *)
Inductive notice :=
| NUpdate
| NForAddPolicy (params : rule) | NForRemovePolicy (params : rule)
| NForRemoveFilteredPolicy (field_index : nat) (field_values : list string) | NForSavePolicy
| NForUpdatePolicy (old new : rule) | NForUpdatePolicies (olds news : list rule).
(** The classes a pointer may have at compile time, and std::is_base_of. *)
Inductive class := CWatcher | CWatcherEx | CWatcherUpdatable.
Definition is_base_of (base derived : class) : bool :=
  match base, derived with
  | CWatcher, _ | CWatcherEx, CWatcherEx | CWatcherUpdatable, CWatcherUpdatable => true
  | _, _ => false
  end.
(** util/is_instance_of.cpp:28-31 [IsInstanceOf]: the answer depends on the type of the
    pointer, not on the object; m_watcher is a std::shared_ptr<Watcher> (enforcer.h). *)
Definition IsInstanceOf (base static : class) : bool := is_base_of base static.
Definition m_watcher_class : class := CWatcher.

Section OwnWatcher.
  (** What the [n]-th call of the watcher, counted from 0, does, by the function called.  Simplification: what the
      watcher does otherwise is not part of the state; since [up] is any function of the
      number of the call and of the enforcer, every behaviour of a watcher in one run is
      the behaviour of some [up]. *)
  Variable up : notice -> nat -> M unit.

  (** A function of the watcher, called through m_watcher. *)
  Definition w_call (k : notice) : M unit :=
    fun e => match e_watcher e with
             | Some n => up k n (set_watcher (Some (S n)) e)
             | None => (e, Ok tt)
             end.
  (** internal_api.cpp:49-54, 99-104, 150-155, 169-174, 189-194: the function with the
      change if the watcher has one, otherwise Update(). *)
  Definition w_notify (base : class) (k : notice) : M unit :=
    fun e => if e_notify e then w_call (if IsInstanceOf base m_watcher_class then k else NUpdate) e else (e, Ok tt).

  (** internal_api.cpp:32-57 [addPolicy]. *)
  Definition w_addPolicy (sec pt : string) (r : rule) : M bool :=
    added <- on_model (fun m => AddPolicy m sec pt r) ;;
    if negb added then ret false
    else when_g sec (e_BuildIncrementalRoleLinks policy_add pt [r]) ;;;
         autosave (CAdd sec pt r) ;;;
         w_notify CWatcherEx (NForAddPolicy r) ;;;
         ret true.
  (** internal_api.cpp:60-79 [addPolicies]. *)
  Definition w_addPolicies (sec pt : string) (rs : list rule) : M bool :=
    added <- on_model (fun m => AddPolicies m sec pt rs) ;;
    if negb added then ret false
    else when_g sec (e_BuildIncrementalRoleLinks policy_add pt rs) ;;;
         autosave (CAddMany sec pt rs) ;;;
         w_notify CWatcher NUpdate ;;;
         ret true.
  (** internal_api.cpp:82-107 [removePolicy]. *)
  Definition w_removePolicy (sec pt : string) (r : rule) : M bool :=
    removed <- on_model (fun m => RemovePolicy m sec pt r) ;;
    if negb removed then ret false
    else when_g sec (e_BuildIncrementalRoleLinks policy_add pt [r]) ;;;
         autosave (CRemove sec pt r) ;;;
         w_notify CWatcherEx (NForRemovePolicy r) ;;;
         ret true.
  (** internal_api.cpp:110-129 [removePolicies]. *)
  Definition w_removePolicies (sec pt : string) (rs : list rule) : M bool :=
    removed <- on_model (fun m => AddPolicies m sec pt rs) ;;
    if negb removed then ret false
    else when_g sec (e_BuildIncrementalRoleLinks policy_add pt rs) ;;;
         autosave (CRemoveMany sec pt rs) ;;;
         w_notify CWatcher NUpdate ;;;
         ret true.
  (** internal_api.cpp:132-158 [removeFilteredPolicy]. *)
  Definition w_removeFilteredPolicy (sec pt : string) (i : nat) (vals : list string) : M bool :=
    p <- on_model (fun m => RemoveFilteredPolicy m sec pt i vals) ;;
    let (removed, effects) := p : bool * list rule in
    if negb removed then ret false
    else when_g sec (e_BuildIncrementalRoleLinks policy_remove pt effects) ;;;
         autosave (CRemoveFiltered sec pt i vals) ;;;
         w_notify CWatcherEx (NForRemoveFilteredPolicy i vals) ;;;
         ret true.
  (** internal_api.cpp:160-177 [updatePolicy]. *)
  Definition w_updatePolicy (sec pt : string) (old new : rule) : M bool :=
    updated <- on_model (fun m => UpdatePolicy m sec pt old new) ;;
    if negb updated then ret false
    else when_g sec (e_BuildIncrementalRoleLinks policy_remove pt [old] ;;;
                     e_BuildIncrementalRoleLinks policy_add pt [new]) ;;;
         w_notify CWatcherUpdatable (NForUpdatePolicy old new) ;;;
         ret true.
  (** internal_api.cpp:179-198 [updatePolicies]. *)
  Definition w_updatePolicies (sec pt : string) (olds news : list rule) : M bool :=
    updated <- on_model (fun m => UpdatePolicies m sec pt olds news) ;;
    if negb updated then ret false
    else when_g sec (e_BuildIncrementalRoleLinks policy_remove pt olds ;;;
                     e_BuildIncrementalRoleLinks policy_add pt news) ;;;
         w_notify CWatcherUpdatable (NForUpdatePolicies olds news) ;;;
         ret true.

  (** management_api.cpp:230-248 [AddNamedGroupingPolicy]. *)
  Definition w_AddNamedGroupingPolicy (pt : string) (params : rule) : M bool :=
    added <- w_addPolicy "g" pt params ;;
    (fun e => if e_auto_build e
              then e_BuildIncrementalRoleLinks policy_add pt [params] e
              else (e, Ok tt)) ;;;
    ret added.
  (** management_api.cpp:273-290 [RemoveNamedGroupingPolicy]. *)
  Definition w_RemoveNamedGroupingPolicy (pt : string) (params : rule) : M bool :=
    removed <- w_removePolicy "g" pt params ;;
    rebuild_if_auto ;;;
    ret removed.
  (** management_api.cpp:298-305 [RemoveFilteredNamedGroupingPolicy]. *)
  Definition w_RemoveFilteredNamedGroupingPolicy (pt : string) (i : nat) (vals : list string) : M bool :=
    removed <- w_removeFilteredPolicy "g" pt i vals ;;
    rebuild_if_auto ;;;
    ret removed.
  (** rbac_api.cpp:65-73 [AddRolesForUser]. *)
  Fixpoint w_AddRolesForUser (user : string) (roles : list string) (f : bool) : M bool :=
    match roles with
    | [] => ret f
    | r :: rs => b <- w_AddNamedGroupingPolicy "g" [user; r] ;; w_AddRolesForUser user rs (if b : bool then true else f)
    end.
  (** rbac_api.cpp:91-111 [DeleteUser] with field 0, [DeleteRole] with field 1. *)
  Definition w_delete (i : nat) (name : string) : M bool :=
    r1 <- w_RemoveFilteredNamedGroupingPolicy "g" i [name] ;;
    r2 <- w_removeFilteredPolicy "p" "p" 0 [name] ;;
    ret (r1 || r2).
  (** enforcer.cpp:463-476 [SavePolicy]. *)
  Definition w_SavePolicy : M unit :=
    filtered <- IsFiltered ;;
    if filtered then fail CasbinEnforcer else adapter_save ;;; w_call (if IsInstanceOf CWatcherEx m_watcher_class then NForSavePolicy else NUpdate).
End OwnWatcher.
