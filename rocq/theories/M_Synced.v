(** Model of casbin/enforcer_synced.cpp: which calls take the policy mutex, in which
    mode, and what they run while they hold it. *)
From Verif Require Export Base M_Util M_RoleManager M_Effector M_Model M_Persist M_Eval M_Evaluator M_Enforcer.

(** The values the functions return. *)
Inductive value :=
| VUnit | VBool (b : bool) | VBools (bs : list bool) | VNames (l : list string) | VRules (l : list rule)
| VExplain (x : bool * list string).

Definition as_value {A} (f : A -> value) (x : M A) : M value := a <- x ;; ret (f a).
Definition vu := as_value (fun _ : unit => VUnit).
Definition vb := as_value VBool.
Definition vbs := as_value VBools.
Definition vn := as_value VNames.
Definition vr := as_value VRules.
Definition vx := as_value VExplain.

(** std::shared_lock and std::unique_lock on policyMutex. *)
Inductive mode := Shared | Exclusive.

(** What a thread executes: pieces of the plain enforcer's code, and operations on the
    mutex. *)
Inductive prog :=
| Done (out : res value)
| Act (x : M value) (k : res value -> prog)
| Acquire (m : mode) (k : prog)
| Release (m : mode) (k : prog).

Fixpoint andthen (p : prog) (k : res value -> prog) : prog :=
  match p with
  | Done out => k out
  | Act x f => Act x (fun out => andthen (f out) k)
  | Acquire m q => Acquire m (andthen q k)
  | Release m q => Release m (andthen q k)
  end.
(** The next statement, unless an exception passes by. *)
Definition pbind (p : prog) (k : value -> prog) : prog :=
  andthen p (fun out => match out with Ok v => k v | Throw t => Done (Throw t) | UB u => Done (UB u) end).
Definition act (x : M value) : prog := Act x Done.
(** A lock object at the top of the function body: it is released on every way out. *)
Definition locked (m : mode) (p : prog) : prog := Acquire m (andthen p (fun out => Release m (Done out))).

Definition the_bool (v : value) : bool := match v with VBool b => b | _ => false end.
Definition the_names (v : value) : list string := match v with VNames l => l | _ => [] end.
Definition the_rules (v : value) : list rule := match v with VRules l => l | _ => [] end.

(** The public functions of a SyncedEnforcer, with their arguments.  The forms of
    Enforce, EnforceWithMatcher and EnforceEx for lists and vectors are one; the forms
    for an evaluator of the caller are left out, as are AddNamedMatchingFunc, the Init
    functions, the setters (SetModel, SetAdapter, ..., which take no lock) and the
    functions of the ticker (modelled in M_Ticker.v). *)
Inductive scall :=
(* enforcer_synced.cpp:141-181 *)
| SLoadModel (loaded : res model)       (* what the model file yields *)
| SClearPolicy | SLoadPolicy | SLoadFilteredPolicy (flt : option filter) | SSavePolicy | SBuildRoleLinks
(* :192-238 *)
| SEnforce (params : list data) | SEnforceMap (params : list (string * data))
| SBatchEnforce (reqs : list (list data)) | SBatchEnforceWithMatcher (matcher : string) (reqs : list (list data))
(* :241-334 *)
| SGetAllSubjects | SGetAllNamedSubjects (pt : string) | SGetAllObjects | SGetAllNamedObjects (pt : string)
| SGetAllNamedActions (pt : string) | SGetAllRoles | SGetAllNamedRoles (pt : string)
| SGetPolicy | SGetNamedPolicy (pt : string) | SGetFilteredNamedPolicy (pt : string) (i : nat) (vals : list string)
| SGetGroupingPolicy | SGetFilteredGroupingPolicy (i : nat) (vals : list string)
| SGetNamedGroupingPolicy (pt : string) | SGetFilteredNamedGroupingPolicy (pt : string) (i : nat) (vals : list string)
| SHasPolicy (r : rule) | SHasNamedPolicy (pt : string) (r : rule)
(* :339-424 *)
| SAddPolicy (r : rule) | SAddPolicies (rs : list rule) | SAddNamedPolicy (pt : string) (r : rule) | SAddNamedPolicies (pt : string) (rs : list rule)
| SRemovePolicy (r : rule) | SUpdatePolicy (old new : rule) | SUpdateNamedPolicy (pt : string) (old new : rule)
| SUpdatePolicies (olds news : list rule) | SUpdateNamedPolicies (pt : string) (olds news : list rule)
| SRemovePolicies (rs : list rule) | SRemoveFilteredPolicy (i : nat) (vals : list string)
| SRemoveNamedPolicy (pt : string) (r : rule) | SRemoveNamedPolicies (pt : string) (rs : list rule)
| SRemoveFilteredNamedPolicy (pt : string) (i : nat) (vals : list string)
(* :427-514 *)
| SHasGroupingPolicy (r : rule) | SHasNamedGroupingPolicy (pt : string) (r : rule)
| SAddGroupingPolicy (r : rule) | SAddGroupingPolicies (rs : list rule)
| SAddNamedGroupingPolicy (pt : string) (r : rule) | SAddNamedGroupingPolicies (pt : string) (rs : list rule)
| SRemoveGroupingPolicy (r : rule) | SRemoveGroupingPolicies (rs : list rule)
| SRemoveFilteredGroupingPolicy (i : nat) (vals : list string)
| SRemoveNamedGroupingPolicy (pt : string) (r : rule) | SRemoveNamedGroupingPolicies (pt : string) (rs : list rule)
| SUpdateGroupingPolicy (old new : rule) | SUpdateNamedGroupingPolicy (pt : string) (old new : rule)
| SRemoveFilteredNamedGroupingPolicy (pt : string) (i : nat) (vals : list string)
(* :517-589 *)
| SGetAllActions | SGetFilteredPolicy (i : nat) (vals : list string)
| SSyncedEnforceExWithMatcher (matcher : string) (params : list data)
| SSyncedEnforceExWithMatcherMap (matcher : string) (params : list (string * data))
| SSyncedEnforceEx (params : list data)
| SSyncedEnforceWithMatcher (matcher : string) (params : list data)
| SSyncedEnforceWithMatcherMap (matcher : string) (params : list (string * data))
(* inherited: rbac_api.cpp, rbac_api_with_domains.cpp *)
| SGetRolesForUser (name : string) (domain : list string) | SGetUsersForRole (name : string) (domain : list string)
| SHasRoleForUser (name role : string)
| SAddRoleForUser (user role : string) | SAddRolesForUser (user : string) (roles : list string)
| SDeleteRoleForUser (user role : string) | SDeleteRolesForUser (user : string)
| SDeleteUser (user : string) | SDeleteRole (role : string) | SDeletePermission (perm : list string)
| SAddPermissionForUser (user : string) (perm : list string) | SDeletePermissionForUser (user : string) (perm : list string)
| SDeletePermissionsForUser (user : string) | SGetPermissionsForUser (user : string)
| SHasPermissionForUser (user : string) (perm : list string)
| SGetImplicitRolesForUser (name : string) (domain : list string)
| SGetImplicitPermissionsForUser (user : string) (domain : list string)
| SGetImplicitUsersForPermission (perm : list string)
| SGetPermissionsForUserInDomain (user domain : string)
| SAddRoleForUserInDomain (user role domain : string) | SDeleteRoleForUserInDomain (user role domain : string)
(* inherited, not overridden: enforcer.cpp:536-564 and 571-592 *)
| SEnforceWithMatcher (matcher : string) (params : list data) | SEnforceEx (params : list data).

Section Synced.
  Variable o : oracle.

  (** enforcer.cpp:362-368 [LoadModel]. *)
  Definition e_LoadModel (loaded : res model) : M unit :=
    fun e => match loaded with
             | Ok m => SetModel m e
             | Throw t => (e, Throw t)
             | UB u => (e, UB u)
             end.

  (** The plain enforcer's function behind each call. *)
  Definition plain (c : scall) : M value :=
    match c with
    | SLoadModel m => vu (e_LoadModel m)
    | SClearPolicy => vu e_ClearPolicy | SLoadPolicy => vu LoadPolicy
    | SLoadFilteredPolicy f => vu (e_LoadFilteredPolicy f)
    | SSavePolicy => vu SavePolicy | SBuildRoleLinks => vu e_BuildRoleLinks
    | SEnforce ps => vb (Enforce o ps) | SEnforceMap ps => vb (EnforceMap o ps)
    | SBatchEnforce rs => vbs (BatchEnforce o rs) | SBatchEnforceWithMatcher m rs => vbs (BatchEnforceWithMatcher o m rs)
    | SGetAllSubjects => vn GetAllSubjects | SGetAllNamedSubjects pt => vn (GetAllNamedSubjects pt)
    | SGetAllObjects => vn GetAllObjects | SGetAllNamedObjects pt => vn (GetAllNamedObjects pt)
    | SGetAllNamedActions pt => vn (GetAllNamedActions pt)
    | SGetAllRoles => vn GetAllRoles | SGetAllNamedRoles pt => vn (GetAllNamedRoles pt)
    | SGetPolicy => vr e_GetPolicy | SGetNamedPolicy pt => vr (GetNamedPolicy pt)
    | SGetFilteredNamedPolicy pt i vs => vr (GetFilteredNamedPolicy pt i vs)
    | SGetGroupingPolicy => vr GetGroupingPolicy | SGetFilteredGroupingPolicy i vs => vr (GetFilteredGroupingPolicy i vs)
    | SGetNamedGroupingPolicy pt => vr (GetNamedGroupingPolicy pt)
    | SGetFilteredNamedGroupingPolicy pt i vs => vr (GetFilteredNamedGroupingPolicy pt i vs)
    | SHasPolicy r => vb (e_HasPolicy r) | SHasNamedPolicy pt r => vb (HasNamedPolicy pt r)
    | SAddPolicy r => vb (e_AddPolicy r) | SAddPolicies rs => vb (e_AddPolicies rs)
    | SAddNamedPolicy pt r => vb (AddNamedPolicy pt r) | SAddNamedPolicies pt rs => vb (AddNamedPolicies pt rs)
    | SRemovePolicy r => vb (e_RemovePolicy r)
    | SUpdatePolicy a b => vb (e_UpdatePolicy a b) | SUpdateNamedPolicy pt a b => vb (UpdateNamedPolicy pt a b)
    | SUpdatePolicies a b => vb (e_UpdatePolicies a b) | SUpdateNamedPolicies pt a b => vb (UpdateNamedPolicies pt a b)
    | SRemovePolicies rs => vb (e_RemovePolicies rs) | SRemoveFilteredPolicy i vs => vb (e_RemoveFilteredPolicy i vs)
    | SRemoveNamedPolicy pt r => vb (RemoveNamedPolicy pt r) | SRemoveNamedPolicies pt rs => vb (RemoveNamedPolicies pt rs)
    | SRemoveFilteredNamedPolicy pt i vs => vb (RemoveFilteredNamedPolicy pt i vs)
    | SHasGroupingPolicy r => vb (HasGroupingPolicy r) | SHasNamedGroupingPolicy pt r => vb (HasNamedGroupingPolicy pt r)
    | SAddGroupingPolicy r => vb (AddGroupingPolicy r) | SAddGroupingPolicies rs => vb (AddGroupingPolicies rs)
    | SAddNamedGroupingPolicy pt r => vb (AddNamedGroupingPolicy pt r) | SAddNamedGroupingPolicies pt rs => vb (AddNamedGroupingPolicies pt rs)
    | SRemoveGroupingPolicy r => vb (RemoveGroupingPolicy r) | SRemoveGroupingPolicies rs => vb (RemoveGroupingPolicies rs)
    | SRemoveFilteredGroupingPolicy i vs => vb (RemoveFilteredGroupingPolicy i vs)
    | SRemoveNamedGroupingPolicy pt r => vb (RemoveNamedGroupingPolicy pt r) | SRemoveNamedGroupingPolicies pt rs => vb (RemoveNamedGroupingPolicies pt rs)
    | SUpdateGroupingPolicy a b => vb (UpdateGroupingPolicy a b) | SUpdateNamedGroupingPolicy pt a b => vb (UpdateNamedGroupingPolicy pt a b)
    | SRemoveFilteredNamedGroupingPolicy pt i vs => vb (RemoveFilteredNamedGroupingPolicy pt i vs)
    | SGetAllActions => vn GetAllActions | SGetFilteredPolicy i vs => vr (e_GetFilteredPolicy i vs)
    | SSyncedEnforceExWithMatcher m ps => vx (EnforceExWithMatcher o m ps)
    | SSyncedEnforceExWithMatcherMap m ps => vx (EnforceExWithMatcherMap o m ps)
    | SSyncedEnforceEx ps => vx (EnforceEx o ps)
    | SSyncedEnforceWithMatcher m ps => vb (EnforceWithMatcher o m ps)
    | SSyncedEnforceWithMatcherMap m ps => vb (EnforceWithMatcherMap o m ps)
    | SGetRolesForUser n d => vn (GetRolesForUser n d) | SGetUsersForRole n d => vn (GetUsersForRole n d)
    | SHasRoleForUser n r => vb (HasRoleForUser n r)
    | SAddRoleForUser u r => vb (AddRoleForUser u r) | SAddRolesForUser u rs => vb (AddRolesForUser u rs)
    | SDeleteRoleForUser u r => vb (DeleteRoleForUser u r) | SDeleteRolesForUser u => vb (DeleteRolesForUser u)
    | SDeleteUser u => vb (DeleteUser u) | SDeleteRole r => vb (DeleteRole r) | SDeletePermission p => vb (DeletePermission p)
    | SAddPermissionForUser u p => vb (AddPermissionForUser u p) | SDeletePermissionForUser u p => vb (DeletePermissionForUser u p)
    | SDeletePermissionsForUser u => vb (DeletePermissionsForUser u) | SGetPermissionsForUser u => vr (GetPermissionsForUser u)
    | SHasPermissionForUser u p => vb (HasPermissionForUser u p)
    | SGetImplicitRolesForUser n d => vn (GetImplicitRolesForUser n d)
    | SGetImplicitPermissionsForUser u d => vr (GetImplicitPermissionsForUser u d)
    | SGetImplicitUsersForPermission p => vn (GetImplicitUsersForPermission o p)
    | SGetPermissionsForUserInDomain u d => vr (GetPermissionsForUserInDomain u d)
    | SAddRoleForUserInDomain u r d => vb (AddRoleForUserInDomain u r d) | SDeleteRoleForUserInDomain u r d => vb (DeleteRoleForUserInDomain u r d)
    | SEnforceWithMatcher m ps => vb (EnforceWithMatcher o m ps) | SEnforceEx ps => vx (EnforceEx o ps)
    end.

  (** ** The overriding functions that run one piece of plain code under one lock.
      Enforcer::LoadPolicy names Enforcer::ClearPolicy and Enforcer::BuildRoleLinks
      (enforcer.cpp:429, 434), EnforceWithMatcher with parameters and
      BuildIncrementalRoleLinks are not virtual, addPolicy, ... are not overridden. *)
  Definition under (m : mode) (c : scall) : prog := locked m (act (plain c)).

  Definition s_ClearPolicy : prog := under Exclusive SClearPolicy.                                    (* enforcer_synced.cpp:147-150 *)
  Definition s_BuildRoleLinks : prog := under Exclusive SBuildRoleLinks.                              (* :178-181 *)
  Definition s_Enforce (params : list data) : prog := under Exclusive (SEnforce params).              (* :192-203 *)
  Definition s_GetAllSubjects : prog := under Shared SGetAllSubjects.                                 (* :241-244 *)
  Definition s_GetNamedPolicy (pt : string) : prog := under Shared (SGetNamedPolicy pt).              (* :289-292 *)
  Definition s_GetFilteredNamedPolicy (pt : string) (i : nat) (vals : list string) : prog :=
    under Shared (SGetFilteredNamedPolicy pt i vals).                                                 (* :295-298 *)
  Definition s_GetNamedGroupingPolicy (pt : string) : prog := under Shared (SGetNamedGroupingPolicy pt). (* :313-316 *)
  Definition s_GetFilteredNamedGroupingPolicy (pt : string) (i : nat) (vals : list string) : prog :=
    under Shared (SGetFilteredNamedGroupingPolicy pt i vals).                                         (* :319-322 *)
  Definition s_HasNamedPolicy (pt : string) (r : rule) : prog := under Shared (SHasNamedPolicy pt r). (* :331-334 *)
  Definition s_HasNamedGroupingPolicy (pt : string) (r : rule) : prog := under Shared (SHasNamedGroupingPolicy pt r). (* :433-436 *)
  Definition s_AddNamedPolicy (pt : string) (r : rule) : prog := under Exclusive (SAddNamedPolicy pt r). (* :355-358 *)
  Definition s_AddNamedPolicies (pt : string) (rs : list rule) : prog := under Exclusive (SAddNamedPolicies pt rs). (* :363-366 *)
  Definition s_UpdateNamedPolicy (pt : string) (a b : rule) : prog := under Exclusive (SUpdateNamedPolicy pt a b). (* :380-383 *)
  Definition s_UpdateNamedPolicies (pt : string) (a b : list rule) : prog := under Exclusive (SUpdateNamedPolicies pt a b). (* :391-394 *)
  Definition s_RemoveNamedPolicy (pt : string) (r : rule) : prog := under Exclusive (SRemoveNamedPolicy pt r). (* :409-412 *)
  Definition s_RemoveNamedPolicies (pt : string) (rs : list rule) : prog := under Exclusive (SRemoveNamedPolicies pt rs). (* :415-418 *)
  Definition s_RemoveFilteredNamedPolicy (pt : string) (i : nat) (vals : list string) : prog :=
    under Exclusive (SRemoveFilteredNamedPolicy pt i vals).                                           (* :421-424 *)
  Definition s_AddNamedGroupingPolicy (pt : string) (r : rule) : prog := under Exclusive (SAddNamedGroupingPolicy pt r). (* :457-460 *)
  Definition s_AddNamedGroupingPolicies (pt : string) (rs : list rule) : prog := under Exclusive (SAddNamedGroupingPolicies pt rs). (* :465-468 *)
  Definition s_RemoveNamedGroupingPolicies (pt : string) (rs : list rule) : prog := under Exclusive (SRemoveNamedGroupingPolicies pt rs). (* :495-498 *)
  Definition s_UpdateNamedGroupingPolicy (pt : string) (a b : rule) : prog := under Exclusive (SUpdateNamedGroupingPolicy pt a b). (* :505-508 *)

  (** management_api.cpp:286-287, 301-302 and enforcer.cpp:453-454: "if
      (m_auto_build_role_links) this->BuildRoleLinks()" calls the overriding function. *)
  Definition build_if_auto : prog :=
    pbind (act (fun e => (e, Ok (VBool (e_auto_build e))))) (fun v => if the_bool v then s_BuildRoleLinks else Done (Ok VUnit)).
  (** enforcer_synced.cpp:489-492 over management_api.cpp:273-290. *)
  Definition s_RemoveNamedGroupingPolicy (pt : string) (r : rule) : prog :=
    locked Exclusive (pbind (act (vb (i_removePolicy "g" pt r))) (fun v => pbind build_if_auto (fun _ => Done (Ok v)))).
  (** enforcer_synced.cpp:511-514 over management_api.cpp:298-305. *)
  Definition s_RemoveFilteredNamedGroupingPolicy (pt : string) (i : nat) (vals : list string) : prog :=
    locked Exclusive (pbind (act (vb (i_removeFilteredPolicy "g" pt i vals))) (fun v => pbind build_if_auto (fun _ => Done (Ok v)))).
  (** enforcer_synced.cpp:159-163 over enforcer.cpp:439-455: this->ClearPolicy() and
      this->BuildRoleLinks(). *)
  Definition s_LoadFilteredPolicy (flt : option filter) : prog :=
    locked Exclusive
      (pbind s_ClearPolicy (fun _ =>
       pbind (act (vu (fun e => match e_adapter e with
                                | None => (e, UB NullDeref)
                                | Some a =>
                                    if negb (adapter_filtered a) then (e, Throw CasbinAdapter)
                                    else match a with
                                         | AFiltered path fd =>
                                             let '(fd', m, out) := LoadFilteredPolicy (e_fs e) path fd flt (e_model e) in
                                             (set_adapter (Some (AFiltered path fd')) (set_model m e), out)
                                         | _ => (e, UB Unmodelled)
                                         end
                                end))) (fun _ =>
       build_if_auto))).

  (** ** The overriding functions whose plain code calls "this->..." *)
  Definition s_AddPolicy (r : rule) : prog := locked Exclusive (s_AddNamedPolicy "p" r).                       (* :339-342 over management_api.cpp:127-129 *)
  Definition s_RemovePolicy (r : rule) : prog := locked Exclusive (s_RemoveNamedPolicy "p" r).                 (* :369-372 over :158-160 *)
  Definition s_RemoveFilteredPolicy (i : nat) (vals : list string) : prog :=
    locked Exclusive (s_RemoveFilteredNamedPolicy "p" i vals).                                                 (* :403-406 over :168-170 *)
  Definition s_HasPolicy (r : rule) : prog := locked Shared (s_HasNamedPolicy "p" r).                          (* :325-328 over :107-109 *)
  Definition s_AddGroupingPolicy (r : rule) : prog := locked Exclusive (s_AddNamedGroupingPolicy "g" r).       (* :441-444 over :216-218 *)
  Definition s_RemoveGroupingPolicy (r : rule) : prog := locked Exclusive (s_RemoveNamedGroupingPolicy "g" r). (* :471-474 over :258-260 *)
  Definition s_RemoveFilteredGroupingPolicy (i : nat) (vals : list string) : prog :=
    locked Exclusive (s_RemoveFilteredNamedGroupingPolicy "g" i vals).                                         (* :483-486 over :268-270 *)

  (** ** Inherited functions.  The virtual GetFilteredPolicy takes its vector by reference
      (enforcer.h); the one of SyncedEnforcer takes it by value and overrides nothing, so
      "this->GetFilteredPolicy" is Enforcer's. *)
  Definition s_base_GetFilteredPolicy (i : nat) (vals : list string) : prog := s_GetFilteredNamedPolicy "p" i vals. (* management_api.cpp:72-74 *)

  (** rbac_api.cpp:65-73. *)
  Fixpoint s_add_roles (user : string) (roles : list string) (f : bool) : prog :=
    match roles with
    | [] => Done (Ok (VBool f))
    | r :: rs => pbind (s_AddGroupingPolicy [user; r]) (fun v => s_add_roles user rs (if the_bool v then true else f))
    end.
  (** rbac_api.cpp:91-111. *)
  Definition s_delete (i : nat) (name : string) : prog :=
    pbind (s_RemoveFilteredGroupingPolicy i [name]) (fun r1 =>
    pbind (s_RemoveFilteredPolicy 0 [name]) (fun r2 => Done (Ok (VBool (the_bool r1 || the_bool r2))))).
  (** rbac_api.cpp:206-214. *)
  Fixpoint s_perms_of (domain : list string) (roles : list string) : prog :=
    match roles with
    | [] => Done (Ok (VRules []))
    | r :: rs =>
        pbind (match domain with
               | d :: _ => s_base_GetFilteredPolicy 0 [r; d]
               | [] => s_base_GetFilteredPolicy 0 [r]
               end) (fun ps =>
        pbind (s_perms_of domain rs) (fun rest => Done (Ok (VRules (the_rules ps ++ the_rules rest)))))
    end.
  (** rbac_api.cpp:193-217; GetImplicitRolesForUser takes no lock. *)
  Definition s_implicit_perms (user : string) (domain : list string) : prog :=
    pbind (act (vn (GetImplicitRolesForUser user domain))) (fun roles =>
    if Nat.ltb 1 (List.length domain) then Done (Throw CasbinEnforcer)
    else s_perms_of domain (user :: the_names roles)).
  (** rbac_api.cpp:237-243. *)
  Fixpoint s_allowed (perm : list string) (subjects : list string) : prog :=
    match subjects with
    | [] => Done (Ok (VNames []))
    | s :: ss =>
        match (let! p0 := vget perm 0 in let! p1 := vget perm 1 in Ok (p0, p1)) with
        | Ok (p0, p1) =>
            pbind (s_Enforce [DStr s; DStr p0; DStr p1]) (fun v =>
            pbind (s_allowed perm ss) (fun rest =>
            Done (Ok (VNames (if the_bool v then s :: the_names rest else the_names rest)))))
        | Throw t => Done (Throw t)
        | UB u => Done (UB u)
        end
    end.
  (** rbac_api.cpp:227-247: the model is read without the lock between two locked calls. *)
  Definition s_implicit_users (perm : list string) : prog :=
    pbind s_GetAllSubjects (fun ps =>
    pbind (act (vn (all_types "g" 1))) (fun gi =>
    pbind (act (vn (all_types "g" 0))) (fun gs =>
    pbind (s_allowed perm (ArrayRemoveDuplicates (the_names ps ++ the_names gs))) (fun res =>
    Done (Ok (VNames (SetSubtract (the_names res) (the_names gi)))))))).

  (** ** What a thread executes for each call. *)
  Definition code (c : scall) : prog :=
    match c with
    | SLoadFilteredPolicy f => s_LoadFilteredPolicy f
    | SClearPolicy => s_ClearPolicy | SBuildRoleLinks => s_BuildRoleLinks
    | SLoadModel _ | SLoadPolicy | SSavePolicy => under Exclusive c                       (* :141-144, 153-156, 172-175 *)
    | SEnforce ps => s_Enforce ps
    | SEnforceMap _ => under Exclusive c                                                  (* :207-210 *)
    | SBatchEnforce _ | SBatchEnforceWithMatcher _ _ => under Exclusive c                 (* :213-238: Enforcer::Enforce, Enforcer::EnforceWithMatcher *)
    | SGetAllSubjects => s_GetAllSubjects
    | SGetAllNamedSubjects _ | SGetAllObjects | SGetAllNamedObjects _ | SGetAllNamedActions _
    | SGetAllRoles | SGetAllNamedRoles _ => under Shared c                                (* :247-280 *)
    | SGetPolicy => locked Shared (s_GetNamedPolicy "p")                                  (* :283-286 over management_api.cpp:67-69 *)
    | SGetNamedPolicy pt => s_GetNamedPolicy pt
    | SGetFilteredNamedPolicy pt i vs => s_GetFilteredNamedPolicy pt i vs
    | SGetGroupingPolicy => locked Shared (s_GetNamedGroupingPolicy "g")                  (* :301-304 over :87-89 *)
    | SGetFilteredGroupingPolicy i vs => locked Shared (s_GetFilteredNamedGroupingPolicy "g" i vs) (* :307-310 over :92-94 *)
    | SGetNamedGroupingPolicy pt => s_GetNamedGroupingPolicy pt
    | SGetFilteredNamedGroupingPolicy pt i vs => s_GetFilteredNamedGroupingPolicy pt i vs
    | SHasPolicy r => s_HasPolicy r | SHasNamedPolicy pt r => s_HasNamedPolicy pt r
    | SAddPolicy r => s_AddPolicy r
    | SAddPolicies rs => locked Exclusive (s_AddNamedPolicies "p" rs)                     (* :347-350 over :134-136 *)
    | SAddNamedPolicy pt r => s_AddNamedPolicy pt r | SAddNamedPolicies pt rs => s_AddNamedPolicies pt rs
    | SRemovePolicy r => s_RemovePolicy r
    | SUpdatePolicy a b => locked Exclusive (s_UpdateNamedPolicy "p" a b)                 (* :375-378 over :316-318 *)
    | SUpdateNamedPolicy pt a b => s_UpdateNamedPolicy pt a b
    | SUpdatePolicies a b => locked Exclusive (s_UpdateNamedPolicies "p" a b)             (* :386-389 over :325-327 *)
    | SUpdateNamedPolicies pt a b => s_UpdateNamedPolicies pt a b
    | SRemovePolicies rs => locked Exclusive (s_RemoveNamedPolicies "p" rs)               (* :397-400 over :163-165 *)
    | SRemoveFilteredPolicy i vs => s_RemoveFilteredPolicy i vs
    | SRemoveNamedPolicy pt r => s_RemoveNamedPolicy pt r | SRemoveNamedPolicies pt rs => s_RemoveNamedPolicies pt rs
    | SRemoveFilteredNamedPolicy pt i vs => s_RemoveFilteredNamedPolicy pt i vs
    | SHasGroupingPolicy r => locked Shared (s_HasNamedGroupingPolicy "g" r)              (* :427-430 over :196-198 *)
    | SHasNamedGroupingPolicy pt r => s_HasNamedGroupingPolicy pt r
    | SAddGroupingPolicy r => s_AddGroupingPolicy r
    | SAddGroupingPolicies rs => locked Exclusive (s_AddNamedGroupingPolicies "g" rs)     (* :449-452 over :223-225 *)
    | SAddNamedGroupingPolicy pt r => s_AddNamedGroupingPolicy pt r
    | SAddNamedGroupingPolicies pt rs => s_AddNamedGroupingPolicies pt rs
    | SRemoveGroupingPolicy r => s_RemoveGroupingPolicy r
    | SRemoveGroupingPolicies rs => locked Exclusive (s_RemoveNamedGroupingPolicies "g" rs) (* :477-480 over :263-265 *)
    | SRemoveFilteredGroupingPolicy i vs => s_RemoveFilteredGroupingPolicy i vs
    | SRemoveNamedGroupingPolicy pt r => s_RemoveNamedGroupingPolicy pt r
    | SRemoveNamedGroupingPolicies pt rs => s_RemoveNamedGroupingPolicies pt rs
    | SUpdateGroupingPolicy a b => locked Exclusive (s_UpdateNamedGroupingPolicy "g" a b) (* :500-503 over :307-309 *)
    | SUpdateNamedGroupingPolicy pt a b => s_UpdateNamedGroupingPolicy pt a b
    | SRemoveFilteredNamedGroupingPolicy pt i vs => s_RemoveFilteredNamedGroupingPolicy pt i vs
    | SGetAllActions => under Exclusive c                                                 (* :517-520 *)
    | SGetFilteredPolicy i vs => locked Exclusive (s_base_GetFilteredPolicy i vs)         (* :523-526 over :72-74 *)
    | SSyncedEnforceExWithMatcher _ _ | SSyncedEnforceExWithMatcherMap _ _ | SSyncedEnforceEx _
    | SSyncedEnforceWithMatcher _ _ | SSyncedEnforceWithMatcherMap _ _ => under Exclusive c (* :529-589 *)
    (* inherited *)
    | SGetRolesForUser _ _ | SGetUsersForRole _ _ | SHasRoleForUser _ _ | SGetImplicitRolesForUser _ _
    | SEnforceWithMatcher _ _ | SEnforceEx _ => act (plain c)                             (* no lock *)
    | SAddRoleForUser u r => s_AddGroupingPolicy [u; r]                                   (* rbac_api.cpp:58-61 *)
    | SAddRolesForUser u rs => s_add_roles u rs false
    | SDeleteRoleForUser u r => s_RemoveGroupingPolicy [u; r]                             (* :77-80 *)
    | SDeleteRolesForUser u => s_RemoveFilteredGroupingPolicy 0 [u]                       (* :84-87 *)
    | SDeleteUser u => s_delete 0 u
    | SDeleteRole r => s_delete 1 r
    | SDeletePermission p => s_RemoveFilteredPolicy 1 p                                   (* :115-118 *)
    | SAddPermissionForUser u p => s_AddPolicy (JoinSlice u p)                            (* :122-124 *)
    | SDeletePermissionForUser u p => s_RemovePolicy (JoinSlice u p)                      (* :128-130 *)
    | SDeletePermissionsForUser u => s_RemoveFilteredPolicy 0 [u]                         (* :134-137 *)
    | SGetPermissionsForUser u => s_base_GetFilteredPolicy 0 [u]                          (* :140-143 *)
    | SHasPermissionForUser u p => s_HasPolicy (JoinSlice u p)                            (* :146-148 *)
    | SGetImplicitPermissionsForUser u d => s_implicit_perms u d
    | SGetImplicitUsersForPermission p => s_implicit_users p
    | SGetPermissionsForUserInDomain u d => s_base_GetFilteredPolicy 0 [u; d]             (* rbac_api_with_domains.cpp:41-44 *)
    | SAddRoleForUserInDomain u r d => s_AddGroupingPolicy [u; r; d]                      (* :48-51 *)
    | SDeleteRoleForUserInDomain u r d => s_RemoveGroupingPolicy [u; r; d]                (* :55-58 *)
    end.
End Synced.

(** ** One thread alone *)

(** The end of a call: it returned or threw, or it tried to lock the mutex while holding
    it, which is undefined for std::shared_mutex in either mode. *)
Inductive ending := Finished (e : enforcer) (out : res value) | LocksItself.
Fixpoint exec (held : bool) (p : prog) (e : enforcer) : ending :=
  match p with
  | Done out => Finished e out
  | Act x k => let (e', out) := x e in exec held (k out) e'
  | Acquire _ q => if held then LocksItself else exec true q e
  | Release _ q => exec false q e
  end.

(** ** Several threads *)

(** A piece of plain code is not atomic: it is any sequence of steps, each of which reads
    and writes the shared state. *)
Inductive steps := Fin (out : res value) | Step (f : enforcer -> enforcer * steps).
Fixpoint undisturbed (s : steps) (e : enforcer) : enforcer * res value :=
  match s with
  | Fin out => (e, out)
  | Step f => match f e with (e', s') => undisturbed s' e' end
  end.

(** Where a thread is: between two calls, before the next statement of a call, or inside
    a piece of plain code. *)
Inductive control :=
| Idle
| At (c : scall) (p : prog)
| Inside (c : scall) (s : steps) (k : res value -> prog).
Record thread := mkT { t_todo : list scall; t_at : control }.
(** The shared state: the enforcer, the threads holding policyMutex. *)
Record world := mkW { w_e : enforcer; w_writer : option nat; w_readers : list nat; w_threads : list thread }.

Inductive event := Call (t : nat) (c : scall) | Return (t : nat) (c : scall) (out : res value).

Definition set_thread (i : nat) (t : thread) (ts : list thread) : list thread := upd i t ts.
Fixpoint remove_one (i : nat) (l : list nat) : list nat :=
  match l with [] => [] | j :: l' => if Nat.eqb i j then l' else j :: remove_one i l' end.

(** One step of thread [i]; [split] says of which steps a piece of code consists. *)
Inductive moves (o : oracle) (split : M value -> steps) : world -> option event -> world -> Prop :=
| m_call : forall e w rs ts i c todo, nth_error ts i = Some (mkT (c :: todo) Idle) ->
    moves o split (mkW e w rs ts) (Some (Call i c)) (mkW e w rs (set_thread i (mkT todo (At c (code o c))) ts))
| m_return : forall e w rs ts i todo c out, nth_error ts i = Some (mkT todo (At c (Done out))) ->
    moves o split (mkW e w rs ts) (Some (Return i c out)) (mkW e w rs (set_thread i (mkT todo Idle) ts))
| m_enter : forall e w rs ts i todo c x k, nth_error ts i = Some (mkT todo (At c (Act x k))) ->
    moves o split (mkW e w rs ts) None (mkW e w rs (set_thread i (mkT todo (Inside c (split x) k)) ts))
| m_step : forall e w rs ts i todo c f k e' s', nth_error ts i = Some (mkT todo (Inside c (Step f) k)) -> f e = (e', s') ->
    moves o split (mkW e w rs ts) None (mkW e' w rs (set_thread i (mkT todo (Inside c s' k)) ts))
| m_leave : forall e w rs ts i todo c out k, nth_error ts i = Some (mkT todo (Inside c (Fin out) k)) ->
    moves o split (mkW e w rs ts) None (mkW e w rs (set_thread i (mkT todo (At c (k out))) ts))
| m_lock : forall e ts i todo c q, nth_error ts i = Some (mkT todo (At c (Acquire Exclusive q))) ->
    moves o split (mkW e None [] ts) None (mkW e (Some i) [] (set_thread i (mkT todo (At c q)) ts))
| m_lock_shared : forall e rs ts i todo c q, nth_error ts i = Some (mkT todo (At c (Acquire Shared q))) ->
    moves o split (mkW e None rs ts) None (mkW e None (i :: rs) (set_thread i (mkT todo (At c q)) ts))
| m_unlock : forall e w rs ts i todo c q, nth_error ts i = Some (mkT todo (At c (Release Exclusive q))) ->
    moves o split (mkW e w rs ts) None (mkW e None rs (set_thread i (mkT todo (At c q)) ts))
| m_unlock_shared : forall e w rs ts i todo c q, nth_error ts i = Some (mkT todo (At c (Release Shared q))) ->
    moves o split (mkW e w rs ts) None (mkW e w (remove_one i rs) (set_thread i (mkT todo (At c q)) ts)).

(** A schedule: any sequence of steps, with the calls and returns seen. *)
Inductive schedule (o : oracle) (split : M value -> steps) : world -> list event -> world -> Prop :=
| sch_nil : forall w, schedule o split w [] w
| sch_step : forall w ev w1 evs w2, moves o split w ev w1 -> schedule o split w1 evs w2 ->
    schedule o split w (match ev with Some x => x :: evs | None => evs end) w2.

(** Threads with their programs, before anything happened. *)
Definition start (e : enforcer) (programs : list (list scall)) : world :=
  mkW e None [] (map (fun p => mkT p Idle) programs).
