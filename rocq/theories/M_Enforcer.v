(** Model of casbin/enforcer.cpp, casbin/selected_policies.cpp,
    casbin/internal_api.cpp, casbin/management_api.cpp, casbin/rbac_api.cpp and
    casbin/rbac_api_with_domains.cpp. *)
From Verif Require Import Base M_Util M_RoleManager M_Effector M_Model M_Persist M_Eval M_Evaluator.

(** ** Adapters and watchers as seen by the enforcer *)

(** Calls the enforcer makes on an adapter when it saves changes automatically. *)
Inductive acall :=
| CAdd (sec pt : string) (r : rule)
| CRemove (sec pt : string) (r : rule)
| CRemoveFiltered (sec pt : string) (i : nat) (vals : list string)
| CAddMany (sec pt : string) (rs : list rule)
| CRemoveMany (sec pt : string) (rs : list rule).

Definition is_batch_call (c : acall) : bool :=
  match c with CAddMany _ _ _ | CRemoveMany _ _ _ => true | _ => false end.

(** An adapter written by the user: arbitrary behaviour depending on the calls it
    has received so far.  [ua_resp] is the exception a call throws, if any.
    [ua_load] gives the lines it passes to LoadPolicyLine and the exception it
    then throws, if any.  [ua_save] is the exception SavePolicy throws. *)
Record user_adapter := mkUA {
  ua_batch : bool;                       (* implements BatchAdapter *)
  ua_filtered : bool;                    (* IsFiltered() *)
  ua_valid : bool;                       (* IsValid() *)
  ua_resp : list acall -> acall -> option exn;
  ua_load : list acall -> list string * option exn;
  ua_save : list acall -> option exn;
  ua_log : list acall }.                 (* calls received, oldest first *)

Inductive adapter :=
| AFile (batch : bool) (path : string)      (* FileAdapter / BatchFileAdapter *)
| AString (line : string)                   (* StringAdapter *)
| AFiltered (path : string) (filtered : bool) (* FilteredFileAdapter *)
| AUser (u : user_adapter).

(** The single and batch modification functions of the adapters:
    file_adapter.cpp:97-109, batch_file_adapter.cpp:20-26, string_adapter.cpp:65-77.
    A batch call on an adapter that is not a BatchAdapter dereferences the null
    result of dynamic_pointer_cast (internal_api.cpp:70, 120). *)
Definition adapter_call (a : adapter) (c : acall) : adapter * res unit :=
  match a with
  | AFile batch path =>
      (a, if is_batch_call c && negb batch then UB NullDeref else Throw UnsupportedOperation)
  | AString line =>
      match c with
      | CRemove _ _ _ => (AString "", Ok tt)
      | CAdd _ _ _ | CRemoveFiltered _ _ _ _ => (a, Throw UnsupportedOperation)
      | CAddMany _ _ _ | CRemoveMany _ _ _ => (a, UB NullDeref)
      end
  | AFiltered _ _ =>
      (a, if is_batch_call c then UB NullDeref else Throw UnsupportedOperation)
  | AUser u =>
      if is_batch_call c && negb (ua_batch u) then (a, UB NullDeref)
      else
        (AUser (mkUA (ua_batch u) (ua_filtered u) (ua_valid u) (ua_resp u) (ua_load u) (ua_save u)
                     (ua_log u ++ [c])),
         match ua_resp u (ua_log u) c with None => Ok tt | Some e => Throw e end)
  end.

(** IsFiltered: file_adapter.cpp:112, string_adapter.cpp:80, filtered_file_adapter.cpp:96. *)
Definition adapter_filtered (a : adapter) : bool :=
  match a with
  | AFile _ _ | AString _ => false
  | AFiltered _ f => f
  | AUser u => ua_filtered u
  end.

(** IsValid: file_adapter.cpp:117, string_adapter.cpp:85. *)
Definition adapter_valid (a : adapter) : bool :=
  match a with
  | AFile _ p | AFiltered p _ => negb (String.eqb p "")
  | AString l => negb (String.eqb l "")
  | AUser u => ua_valid u
  end.

(** ** The enforcer object: include/casbin/enforcer.h

    [e_heap] holds the role managers, [e_rm] is the address of Enforcer::rm.
    [e_watcher] is the number of Update() calls the current watcher has received,
    [None] when there is no watcher.  The effector is always the default one. *)
Record enforcer := mkE {
  e_model : model;
  e_heap : heap;
  e_rm : nat;
  e_adapter : option adapter;
  e_watcher : option nat;
  e_fs : fs;
  e_ev : option evaluator;
  e_enabled : bool;
  e_auto_save : bool;
  e_auto_build : bool;
  e_notify : bool }.

Definition set_model m e := mkE m (e_heap e) (e_rm e) (e_adapter e) (e_watcher e) (e_fs e) (e_ev e) (e_enabled e) (e_auto_save e) (e_auto_build e) (e_notify e).
Definition set_heap h e := mkE (e_model e) h (e_rm e) (e_adapter e) (e_watcher e) (e_fs e) (e_ev e) (e_enabled e) (e_auto_save e) (e_auto_build e) (e_notify e).
Definition set_rm r e := mkE (e_model e) (e_heap e) r (e_adapter e) (e_watcher e) (e_fs e) (e_ev e) (e_enabled e) (e_auto_save e) (e_auto_build e) (e_notify e).
Definition set_adapter a e := mkE (e_model e) (e_heap e) (e_rm e) a (e_watcher e) (e_fs e) (e_ev e) (e_enabled e) (e_auto_save e) (e_auto_build e) (e_notify e).
Definition set_watcher w e := mkE (e_model e) (e_heap e) (e_rm e) (e_adapter e) w (e_fs e) (e_ev e) (e_enabled e) (e_auto_save e) (e_auto_build e) (e_notify e).
Definition set_fs f e := mkE (e_model e) (e_heap e) (e_rm e) (e_adapter e) (e_watcher e) f (e_ev e) (e_enabled e) (e_auto_save e) (e_auto_build e) (e_notify e).
Definition set_ev v e := mkE (e_model e) (e_heap e) (e_rm e) (e_adapter e) (e_watcher e) (e_fs e) v (e_enabled e) (e_auto_save e) (e_auto_build e) (e_notify e).
Definition set_enabled b e := mkE (e_model e) (e_heap e) (e_rm e) (e_adapter e) (e_watcher e) (e_fs e) (e_ev e) b (e_auto_save e) (e_auto_build e) (e_notify e).
Definition set_auto_save b e := mkE (e_model e) (e_heap e) (e_rm e) (e_adapter e) (e_watcher e) (e_fs e) (e_ev e) (e_enabled e) b (e_auto_build e) (e_notify e).
Definition set_auto_build b e := mkE (e_model e) (e_heap e) (e_rm e) (e_adapter e) (e_watcher e) (e_fs e) (e_ev e) (e_enabled e) (e_auto_save e) b (e_notify e).
Definition set_notify b e := mkE (e_model e) (e_heap e) (e_rm e) (e_adapter e) (e_watcher e) (e_fs e) (e_ev e) (e_enabled e) (e_auto_save e) (e_auto_build e) b.

(** A method of the enforcer: new state and outcome. *)
Definition M (A : Type) := enforcer -> enforcer * res A.
Definition ret {A} (a : A) : M A := fun e => (e, Ok a).
Definition fail {A} (x : exn) : M A := fun e => (e, Throw x).
Definition undef {A} (u : ub) : M A := fun e => (e, UB u).
Definition mbind {A B} (x : M A) (f : A -> M B) : M B :=
  fun e => match x e with
           | (e', Ok a) => f a e'
           | (e', Throw t) => (e', Throw t)
           | (e', UB u) => (e', UB u)
           end.
Notation "x <- c ;; k" := (mbind c (fun x => k)) (at level 61, c at next level, right associativity).
Notation "c1 ;;; c2" := (mbind c1 (fun _ => c2)) (at level 61, right associativity).
Definition modify (f : enforcer -> enforcer) : M unit := fun e => (f e, Ok tt).
Definition lift {A} (r : res A) : M A := fun e => (e, r).

(** Run a function of the model on m_model. *)
Definition on_model {A} (f : model -> res (model * A)) : M A :=
  fun e => match f (e_model e) with
           | Ok (m, a) => (set_model m e, Ok a)
           | Throw t => (e, Throw t)
           | UB u => (e, UB u)
           end.
Definition read_model {A} (f : model -> res A) : M A := fun e => (e, f (e_model e)).

(** ** Role links *)

(** enforcer.cpp:512-514 [BuildIncrementalRoleLinks]. *)
Definition e_BuildIncrementalRoleLinks (op : policy_op) (pt : string) (rs : list rule) : M unit :=
  fun e => let '(m, h, out) := BuildIncrementalRoleLinks (e_model e) (e_heap e) (e_rm e) op "g" pt rs in
           (set_heap h (set_model m e), out).

(** enforcer.cpp:505-509 [BuildRoleLinks]: rm->Clear(), then the model's function. *)
Definition e_BuildRoleLinks : M unit :=
  fun e => match hget (e_heap e) (e_rm e) with
           | Ok r =>
               let h := hset (e_heap e) (e_rm e) (Clear r) in
               let '(m, h', out) := BuildRoleLinks (e_model e) h (e_rm e) in
               (set_heap h' (set_model m e), out)
           | Throw t => (e, Throw t)
           | UB u => (e, UB u)
           end.

(** ** casbin/internal_api.cpp *)

(** internal_api.cpp:42-47 and the like: forward to the adapter when there is one and
    auto-save is on; UnsupportedOperationException is swallowed. *)
Definition autosave (c : acall) : M unit :=
  fun e => match e_adapter e with
           | Some a =>
               if e_auto_save e then
                 let (a', out) := adapter_call a c in
                 let e' := set_adapter (Some a') e in
                 match out with
                 | Throw UnsupportedOperation => (e', Ok tt)
                 | _ => (e', out)
                 end
               else (e, Ok tt)
           | None => (e, Ok tt)
           end.

(** internal_api.cpp:49-54 and the like: IsInstanceOf (util/is_instance_of.cpp:28-34) is
    false for every watcher, so the notification is always Update(). *)
Definition notify : M unit :=
  fun e => match e_watcher e with
           | Some n => if e_notify e then (set_watcher (Some (S n)) e, Ok tt) else (e, Ok tt)
           | None => (e, Ok tt)
           end.

Definition when_g (sec : string) (c : M unit) : M unit :=
  if String.eqb sec "g" then c else ret tt.

(** internal_api.cpp:32-57 [addPolicy]. *)
Definition i_addPolicy (sec pt : string) (r : rule) : M bool :=
  added <- on_model (fun m => AddPolicy m sec pt r) ;;
  if negb added then ret false
  else when_g sec (e_BuildIncrementalRoleLinks policy_add pt [r]) ;;;
       autosave (CAdd sec pt r) ;;;
       notify ;;;
       ret true.

(** internal_api.cpp:60-79 [addPolicies]. *)
Definition i_addPolicies (sec pt : string) (rs : list rule) : M bool :=
  added <- on_model (fun m => AddPolicies m sec pt rs) ;;
  if negb added then ret false
  else when_g sec (e_BuildIncrementalRoleLinks policy_add pt rs) ;;;
       autosave (CAddMany sec pt rs) ;;;
       notify ;;;
       ret true.

(** internal_api.cpp:82-107 [removePolicy]; line 89 passes policy_add. *)
Definition i_removePolicy (sec pt : string) (r : rule) : M bool :=
  removed <- on_model (fun m => RemovePolicy m sec pt r) ;;
  if negb removed then ret false
  else when_g sec (e_BuildIncrementalRoleLinks policy_add pt [r]) ;;;
       autosave (CRemove sec pt r) ;;;
       notify ;;;
       ret true.

(** internal_api.cpp:110-129 [removePolicies]; line 111 calls AddPolicies and line 116
    passes policy_add. *)
Definition i_removePolicies (sec pt : string) (rs : list rule) : M bool :=
  removed <- on_model (fun m => AddPolicies m sec pt rs) ;;
  if negb removed then ret false
  else when_g sec (e_BuildIncrementalRoleLinks policy_add pt rs) ;;;
       autosave (CRemoveMany sec pt rs) ;;;
       notify ;;;
       ret true.

(** internal_api.cpp:132-158 [removeFilteredPolicy]. *)
Definition i_removeFilteredPolicy (sec pt : string) (i : nat) (vals : list string) : M bool :=
  p <- on_model (fun m => RemoveFilteredPolicy m sec pt i vals) ;;
  let (removed, effects) := p : bool * list rule in
  if negb removed then ret false
  else when_g sec (e_BuildIncrementalRoleLinks policy_remove pt effects) ;;;
       autosave (CRemoveFiltered sec pt i vals) ;;;
       notify ;;;
       ret true.

(** internal_api.cpp:160-177 [updatePolicy]; no call of the adapter. *)
Definition i_updatePolicy (sec pt : string) (old new : rule) : M bool :=
  updated <- on_model (fun m => UpdatePolicy m sec pt old new) ;;
  if negb updated then ret false
  else when_g sec (e_BuildIncrementalRoleLinks policy_remove pt [old] ;;;
                   e_BuildIncrementalRoleLinks policy_add pt [new]) ;;;
       notify ;;;
       ret true.

(** internal_api.cpp:179-198 [updatePolicies]; no call of the adapter. *)
Definition i_updatePolicies (sec pt : string) (olds news : list rule) : M bool :=
  updated <- on_model (fun m => UpdatePolicies m sec pt olds news) ;;
  if negb updated then ret false
  else when_g sec (e_BuildIncrementalRoleLinks policy_remove pt olds ;;;
                   e_BuildIncrementalRoleLinks policy_add pt news) ;;;
       notify ;;;
       ret true.

(** ** casbin/management_api.cpp *)

(** Queries of all types create the section when it is missing (model.cpp:445). *)
Definition all_types (sec : string) (i : nat) : M (list string) :=
  fun e => let (m, out) := GetValuesForFieldInPolicyAllTypes (e_model e) sec i in
           (set_model m e, out).

Definition GetAllSubjects : M (list string) := all_types "p" 0.            (* management_api.cpp:27-29 *)
Definition GetAllNamedSubjects (pt : string) := read_model (fun m => GetValuesForFieldInPolicy m "p" pt 0). (* :32-34 *)
Definition GetAllObjects : M (list string) := all_types "p" 1.             (* :37-39 *)
Definition GetAllNamedObjects (pt : string) := read_model (fun m => GetValuesForFieldInPolicy m "p" pt 1).  (* :42-44 *)
Definition GetAllActions : M (list string) := all_types "p" 2.             (* :47-49 *)
Definition GetAllNamedActions (pt : string) := read_model (fun m => GetValuesForFieldInPolicy m "p" pt 2).  (* :52-54 *)
Definition GetAllRoles : M (list string) := all_types "g" 1.               (* :57-59 *)
Definition GetAllNamedRoles (pt : string) := read_model (fun m => GetValuesForFieldInPolicy m "g" pt 1).    (* :62-64 *)

Definition read_policy (sec pt : string) : M (list rule) :=
  read_model (fun m => let! s := GetPolicy m sec pt in Ok (rules_of s)).
Definition GetNamedPolicy (pt : string) : M (list rule) := read_policy "p" pt.          (* management_api.cpp:77-79 *)
Definition e_GetPolicy : M (list rule) := GetNamedPolicy "p".                            (* :67-69 *)
Definition GetFilteredNamedPolicy (pt : string) (i : nat) (vals : list string) : M (list rule) :=
  read_model (fun m => GetFilteredPolicy m "p" pt i vals).                               (* :82-84 *)
Definition e_GetFilteredPolicy (i : nat) (vals : list string) := GetFilteredNamedPolicy "p" i vals. (* :72-74 *)
Definition GetNamedGroupingPolicy (pt : string) : M (list rule) := read_policy "g" pt.   (* :97-99 *)
Definition GetGroupingPolicy : M (list rule) := GetNamedGroupingPolicy "g".              (* :87-89 *)
Definition GetFilteredNamedGroupingPolicy (pt : string) (i : nat) (vals : list string) : M (list rule) :=
  read_model (fun m => GetFilteredPolicy m "g" pt i vals).                               (* :102-104 *)
Definition GetFilteredGroupingPolicy (i : nat) (vals : list string) := GetFilteredNamedGroupingPolicy "g" i vals. (* :92-94 *)

(** management_api.cpp:112-122 and 201-211: both branches pass a copy of params. *)
Definition HasNamedPolicy (pt : string) (params : rule) : M bool :=
  read_model (fun m => HasPolicy m "p" pt params).
Definition e_HasPolicy (params : rule) : M bool := HasNamedPolicy "p" params.            (* :107-109 *)
Definition HasNamedGroupingPolicy (pt : string) (params : rule) : M bool :=
  read_model (fun m => HasPolicy m "g" pt params).
Definition HasGroupingPolicy (params : rule) : M bool := HasNamedGroupingPolicy "g" params. (* :196-198 *)

Definition AddNamedPolicy (pt : string) (params : rule) : M bool := i_addPolicy "p" pt params.      (* :141-148 *)
Definition e_AddPolicy (params : rule) : M bool := AddNamedPolicy "p" params.                        (* :127-129 *)
Definition AddNamedPolicies (pt : string) (rs : list rule) : M bool := i_addPolicies "p" pt rs.      (* :153-155 *)
Definition e_AddPolicies (rs : list rule) : M bool := AddNamedPolicies "p" rs.                        (* :134-136 *)
Definition RemoveNamedPolicy (pt : string) (params : rule) : M bool := i_removePolicy "p" pt params. (* :173-183 *)
Definition e_RemovePolicy (params : rule) : M bool := RemoveNamedPolicy "p" params.                  (* :158-160 *)
Definition RemoveNamedPolicies (pt : string) (rs : list rule) : M bool := i_removePolicies "p" pt rs. (* :186-188 *)
Definition e_RemovePolicies (rs : list rule) : M bool := RemoveNamedPolicies "p" rs.                  (* :163-165 *)
Definition RemoveFilteredNamedPolicy (pt : string) (i : nat) (vals : list string) : M bool :=
  i_removeFilteredPolicy "p" pt i vals.                                                               (* :191-193 *)
Definition e_RemoveFilteredPolicy (i : nat) (vals : list string) : M bool :=
  RemoveFilteredNamedPolicy "p" i vals.                                                               (* :168-170 *)

(** management_api.cpp:230-248 [AddNamedGroupingPolicy]: the links are built whether or
    not the rule was added. *)
Definition AddNamedGroupingPolicy (pt : string) (params : rule) : M bool :=
  added <- i_addPolicy "g" pt params ;;
  (fun e => if e_auto_build e
            then e_BuildIncrementalRoleLinks policy_add pt [params] e
            else (e, Ok tt)) ;;;
  ret added.
Definition AddGroupingPolicy (params : rule) : M bool := AddNamedGroupingPolicy "g" params.           (* :216-218 *)
Definition AddNamedGroupingPolicies (pt : string) (rs : list rule) : M bool := i_addPolicies "g" pt rs. (* :253-255 *)
Definition AddGroupingPolicies (rs : list rule) : M bool := AddNamedGroupingPolicies "g" rs.           (* :223-225 *)

Definition rebuild_if_auto : M unit :=
  fun e => if e_auto_build e then e_BuildRoleLinks e else (e, Ok tt).

(** management_api.cpp:273-290 [RemoveNamedGroupingPolicy]. *)
Definition RemoveNamedGroupingPolicy (pt : string) (params : rule) : M bool :=
  removed <- i_removePolicy "g" pt params ;;
  rebuild_if_auto ;;;
  ret removed.
Definition RemoveGroupingPolicy (params : rule) : M bool := RemoveNamedGroupingPolicy "g" params.     (* :258-260 *)
Definition RemoveNamedGroupingPolicies (pt : string) (rs : list rule) : M bool := i_removePolicies "g" pt rs. (* :293-295 *)
Definition RemoveGroupingPolicies (rs : list rule) : M bool := RemoveNamedGroupingPolicies "g" rs.     (* :263-265 *)

(** management_api.cpp:298-305 [RemoveFilteredNamedGroupingPolicy]. *)
Definition RemoveFilteredNamedGroupingPolicy (pt : string) (i : nat) (vals : list string) : M bool :=
  removed <- i_removeFilteredPolicy "g" pt i vals ;;
  rebuild_if_auto ;;;
  ret removed.
Definition RemoveFilteredGroupingPolicy (i : nat) (vals : list string) : M bool :=
  RemoveFilteredNamedGroupingPolicy "g" i vals.                                                        (* :268-270 *)

Definition UpdateNamedGroupingPolicy (pt : string) (old new : rule) : M bool := i_updatePolicy "g" pt old new. (* :311-313 *)
Definition UpdateGroupingPolicy (old new : rule) : M bool := UpdateNamedGroupingPolicy "g" old new.    (* :307-309 *)
Definition UpdateNamedPolicy (pt : string) (old new : rule) : M bool := i_updatePolicy "p" pt old new. (* :320-322 *)
Definition e_UpdatePolicy (old new : rule) : M bool := UpdateNamedPolicy "p" old new.                  (* :316-318 *)
Definition UpdateNamedPolicies (pt : string) (olds news : list rule) : M bool := i_updatePolicies "p" pt olds news. (* :329-331 *)
Definition e_UpdatePolicies (olds news : list rule) : M bool := UpdateNamedPolicies "p" olds news.     (* :325-327 *)

(** management_api.cpp:334-339 [AddNamedMatchingFunc]; the policy type is ignored. *)
Definition AddNamedMatchingFunc (fn : string -> string -> bool) : M bool :=
  fun e => match hget (e_heap e) (e_rm e) with
           | Ok r => (set_heap (hset (e_heap e) (e_rm e) (AddMatchingFunc fn r)) e, Ok true)
           | Throw t => (e, Throw t)
           | UB u => (e, UB u)
           end.

(** ** Loading, saving, switches: casbin/enforcer.cpp *)

(** enforcer.cpp:422-424 [ClearPolicy]. *)
Definition e_ClearPolicy : M unit := modify (fun e => set_model (ClearPolicy (e_model e)) e).

(** m_adapter->LoadPolicy(m_model) for each kind of adapter. *)
Definition adapter_load : M unit :=
  fun e => match e_adapter e with
           | None => (e, UB NullDeref)
           | Some (AFile b path) =>
               let (m, out) := FileAdapter_LoadPolicy (e_fs e) path (e_model e) in (set_model m e, out)
           | Some (AString line) =>
               let (m, out) := StringAdapter_LoadPolicy line (e_model e) in (set_model m e, out)
           | Some (AFiltered path fd) =>
               let '(fd', m, out) := Filtered_LoadPolicy (e_fs e) path (e_model e) in
               (set_adapter (Some (AFiltered path fd')) (set_model m e), out)
           | Some (AUser u) =>
               let (lines, ex) := ua_load u (ua_log u) in
               match load_lines lines (e_model e) with
               | (m, Ok _) => (set_model m e, match ex with None => Ok tt | Some t => Throw t end)
               | (m, out) => (set_model m e, out)
               end
           end.

(** enforcer.cpp:427-436 [LoadPolicy]. *)
Definition LoadPolicy : M unit := e_ClearPolicy ;;; adapter_load ;;; rebuild_if_auto.

(** enforcer.cpp:458-460 [IsFiltered]. *)
Definition IsFiltered : M bool :=
  fun e => match e_adapter e with
           | None => (e, UB NullDeref)
           | Some a => (e, Ok (adapter_filtered a))
           end.

(** enforcer.cpp:439-455 [LoadFilteredPolicy]: the policy is cleared before the adapter
    is asked whether it is filtered.  A user's own filtered adapter is not modelled.
    Simplification: the function is a template that only enforcer.cpp can see and nothing
    instantiates, and FilteredAdapter::LoadFilteredPolicy (persist/filtered_adapter.h:36)
    is neither virtual nor defined, so a program that calls it cannot be linked as the code
    stands; the model is what the text says, with the adapter's own function called.
    FilteredFileAdapter::LoadFilteredPolicy can be called on the adapter itself. *)
Definition e_LoadFilteredPolicy (flt : option filter) : M unit :=
  e_ClearPolicy ;;;
  (fun e => match e_adapter e with
            | None => (e, UB NullDeref)
            | Some a =>
                if negb (adapter_filtered a) then (e, Throw CasbinAdapter)
                else match a with
                     | AFiltered path fd =>
                         let '(fd', m, out) := LoadFilteredPolicy (e_fs e) path fd flt (e_model e) in
                         (set_adapter (Some (AFiltered path fd')) (set_model m e), out)
                     | _ => (e, UB Unmodelled)
                     end
            end) ;;;
  rebuild_if_auto.

(** m_adapter->SavePolicy(m_model) for each kind of adapter. *)
Definition adapter_save : M unit :=
  fun e => match e_adapter e with
           | None => (e, UB NullDeref)
           | Some (AFile b path) =>
               let '(m, f, out) := FileAdapter_SavePolicy (e_fs e) path (e_model e) in
               (set_fs f (set_model m e), out)
           | Some (AString line) =>
               let '(m, l, out) := StringAdapter_SavePolicy line (e_model e) in
               (set_adapter (Some (AString l)) (set_model m e), out)
           | Some (AFiltered path fd) => (e, Filtered_SavePolicy fd)
           | Some (AUser u) =>
               (e, match ua_save u (ua_log u) with None => Ok tt | Some t => Throw t end)
           end.

(** enforcer.cpp:469-475: the watcher is told whatever m_auto_notify_watcher says. *)
Definition notify_always : M unit :=
  fun e => match e_watcher e with
           | Some n => (set_watcher (Some (S n)) e, Ok tt)
           | None => (e, Ok tt)
           end.

(** enforcer.cpp:463-476 [SavePolicy]. *)
Definition SavePolicy : M unit :=
  filtered <- IsFiltered ;;
  if filtered then fail CasbinEnforcer else adapter_save ;;; notify_always.

(** enforcer.cpp:480-502, the switches. *)
Definition EnableEnforce (b : bool) : M unit := modify (set_enabled b).
Definition EnableAutoNotifyWatcher (b : bool) : M unit := modify (set_notify b).
Definition EnableAutoSave (b : bool) : M unit := modify (set_auto_save b).
Definition EnableAutoBuildRoleLinks (b : bool) : M unit := modify (set_auto_build b).

(** enforcer.cpp:340-350 [Initialize]: a fresh role manager, no watcher, no
    evaluator, all switches on. *)
Definition Initialize (e : enforcer) : enforcer :=
  mkE (e_model e) (e_heap e ++ [new_rm 10]) (List.length (e_heap e)) (e_adapter e) None (e_fs e) None
      true true true true.

(** enforcer.cpp:376-380 [SetModel] and, with the model read from the file,
    enforcer.cpp:362-368 [LoadModel]. *)
Definition SetModel (m : model) : M unit := modify (fun e => Initialize (set_model m e)).
Definition SetAdapter (a : option adapter) : M unit := modify (set_adapter a).       (* enforcer.cpp:388-390 *)
(** enforcer.cpp:393-399 [SetWatcher] with a fresh watcher. *)
Definition SetWatcher : M unit := modify (set_watcher (Some 0)).
(** enforcer.cpp:412-414 [SetRoleManager] with a fresh role manager. *)
Definition SetRoleManager (r : role_manager) : M unit :=
  modify (fun e => set_rm (List.length (e_heap e)) (set_heap (e_heap e ++ [r]) e)).
(** enforcer.cpp:402-404 [SetEvaluator] with a fresh evaluator. *)
Definition SetEvaluator : M unit := modify (set_ev (Some new_evaluator)).

(** enforcer.cpp:271-279, the constructor all others delegate to. *)
Definition new_enforcer (f : fs) (m : model) (a : option adapter) : enforcer * res unit :=
  let e0 := Initialize (mkE m [] 0 a None f None true true true true) in
  match a with
  | Some ad => if adapter_valid ad then LoadPolicy e0 else (e0, Ok tt)
  | None => (e0, Ok tt)
  end.

(** enforcer.cpp:327-338 [InitWithModelAndAdapter] on an existing enforcer. *)
Definition InitWithModelAndAdapter (m : model) (a : option adapter) : M unit :=
  fun e => let e0 := Initialize (set_adapter a (set_model m e)) in
           match a with
           | Some ad => if adapter_filtered ad then (e0, Ok tt) else LoadPolicy e0
           | None => (e0, Ok tt)
           end.

(** ** Enforcement *)

(** include/casbin/data_types.h: a request value is a string or a JSON object. *)
Inductive data := DStr (s : string) | DJson.

Section Enforce.
  Variable o : oracle.

  (** enforcer.cpp:56-63: register the role functions. *)
  Definition load_g_functions (m : model) (ev : evaluator) : evaluator :=
    fold_left (fun ev kv => LoadGFunction ev (a_rm (snd kv)) (fst kv) (scount "_" (a_value (snd kv))))
              (sec_of m "g") ev.

  (** enforcer.cpp:80-86 with :126-128, :160-161: the index of a token in p_int_tokens
      (of the last one, if a name occurs twice). *)
  Fixpoint token_index_from (i : nat) (name : string) (toks : list string) (acc : option nat) : option nat :=
    match toks with
    | [] => acc
    | t :: ts => token_index_from (S i) name ts (if String.eqb t name then Some i else acc)
    end.
  Definition token_index (name : string) (toks : list string) : option nat :=
    token_index_from 0 name toks None.

  (** p_tokens[j].substr(p_tokens[j].find('_') + 1), enforcer.cpp:115-116, 198-199. *)
  Definition p_token_name (t : string) : string :=
    match sfind "_" t with Some i => sdrop (S i) t | None => t end.

  (** enforcer.cpp:114-118: push the fields of a rule. *)
  Fixpoint push_p (ev : evaluator) (toks : list string) (vals : rule) : evaluator * res unit :=
    match toks, vals with
    | t :: ts, v :: vs =>
        match PushObjectString ev "p" (p_token_name t) v with
        | Ok ev' => push_p ev' ts vs
        | Throw x => (ev, Throw x)
        | UB u => (ev, UB u)
        end
    | _, _ => (ev, Ok tt)
    end.

  (** enforcer.cpp:121-134: the values substituted for eval(...). *)
  Fixpoint eval_replacements (toks : list string) (vals : rule) (names : list string)
    : res (list (string * string)) :=
    match names with
    | [] => Ok []
    | n :: ns =>
        match token_index (EscapeAssertion n) toks with
        | None => Throw CasbinEnforcer
        | Some idx =>
            let! v := vget vals idx in
            let! rest := eval_replacements toks vals ns in
            Ok ((n, v) :: rest)
        end
    end.

  (** enforcer.cpp:120-141: the text evaluated for a rule. *)
  Definition rule_expression (has_eval : bool) (expr : string) (toks : list string) (vals : rule)
    : res string :=
    if has_eval then
      let! repl := eval_replacements toks vals (GetEvalValue expr) in
      Ok (ReplaceEvalWithMap expr repl)
    else Ok expr.

  (** enforcer.cpp:160-172: the effect of a rule. *)
  Definition rule_effect (toks : list string) (vals : rule) : res effect :=
    match token_index "p_eft" toks with
    | None => Ok Allow
    | Some j =>
        let! eft := vget vals j in
        Ok (if String.eqb eft "allow" then Allow
            else if String.eqb eft "deny" then Deny else Indeterminate)
    end.

  (** Assignment to an element of a vector. *)
  Fixpoint upd {A} (i : nat) (x : A) (l : list A) : list A :=
    match l, i with
    | [], _ => []
    | _ :: t, 0 => x :: t
    | y :: t, S j => y :: upd j x t
    end.

  (** The part of one iteration before the effect is merged, enforcer.cpp:105-172:
      does the rule match, and what is its effect. *)
  Definition eval_rule (h : heap) (has_eval : bool) (expr : string) (toks : list string)
             (ev : evaluator) (vals : rule) : evaluator * res (bool * effect) :=
    if negb (Nat.eqb (List.length toks) (List.length vals)) then (ev, Throw CasbinEnforcer)
    else
      match push_p ev toks vals with
      | (ev1, Ok _) =>
          match rule_expression has_eval expr toks vals with
          | Ok ex =>
              let (ev2, _) := Eval o ev1 ex in
              match checked_value o h ev2 with
              | Ok b => (ev2, let! eft := rule_effect toks vals in Ok (b, eft))
              | Throw x => (ev2, Throw x)
              | UB u => (ev2, UB u)
              end
          | Throw x => (ev1, Throw x)
          | UB u => (ev1, UB u)
          end
      | (ev1, Throw x) => (ev1, Throw x)
      | (ev1, UB u) => (ev1, UB u)
      end.

  (** enforcer.cpp:104-181, the loop over the rules.  [last] is the current value of
      (effect, explainIndex), uninitialised at first. *)
  Fixpoint rule_loop (h : heap) (has_eval : bool) (expr eft_expr : string) (toks : list string)
           (len : nat) (todo : list rule) (idx : nat) (effects : list effect) (matches : list bool)
           (last : res (effect * option nat)) (ev : evaluator)
    : evaluator * res (effect * option nat) :=
    match todo with
    | [] => (ev, last)
    | vals :: rest =>
        match eval_rule h has_eval expr toks ev vals with
        | (ev', Ok (b, eft)) =>
            let effects' := upd idx eft effects in
            let matches' := upd idx b matches in
            match MergeEffects eft_expr effects' matches' idx len with
            | Ok (Indeterminate, x) =>
                rule_loop h has_eval expr eft_expr toks len rest (S idx) effects' matches'
                          (Ok (Indeterminate, x)) ev'
            | Ok r => (ev', Ok r)
            | Throw t => (ev', Throw t)
            | UB u => (ev', UB u)
            end
        | (ev', Throw t) => (ev', Throw t)
        | (ev', UB u) => (ev', UB u)
        end
    end.

  (** casbin/selected_policies.cpp:20-38 [requestedPolicy]; p.substr(2, ...) of a token
      r_x is x. *)
  Fixpoint requested_policy (vals : list (string * string)) (toks : list string) : res rule :=
    match toks with
    | [] => Ok []
    | t :: ts =>
        match aget (sdrop 2 t) vals with
        | Some v => let! rest := requested_policy vals ts in Ok (v :: rest)
        | None => Throw StdLogicError
        end
    end.

  (** casbin/selected_policies.cpp:45-54: all rules of a vector, or the rule equal to
      the request of a hash set. *)
  Definition selected_policies (m : model) (ev : evaluator) : res (list rule) :=
    let! p := get_ast m "p" "p" in
    match a_policy p with
    | Vec l => Ok l
    | Hash l =>
        let! r := get_ast m "r" "r" in
        let! req := requested_policy (requestValues ev) (a_tokens r) in
        Ok (match store_find (a_policy p) req with Some x => [x] | None => [] end)
    end.

  (** enforcer.cpp:221-235: decision and explanation. *)
  Definition decide (rules : list rule) (r : effect * option nat) : bool * list string :=
    (effect_eqb (fst r) Allow,
     match snd r with
     | Some i => match nth_error rules i with Some x => x | None => [] end
     | None => []
     end).

  (** enforcer.cpp:42-236 [m_enforce] with evaluator [ev]: new evaluator and outcome,
      which is the decision and the explanation. *)
  Definition m_enforce (e : enforcer) (ev : evaluator) (matcher : string)
    : evaluator * res (bool * list string) :=
    if negb (e_enabled e) then (ev, Ok (true, []))
    else
      let m := e_model e in
      let ev1 := load_g_functions m (LoadFunctions ev) in
      let ready :=
        let! expr := (if String.eqb matcher "" then let! a := get_ast m "m" "m" in Ok (a_value a)
                      else Ok matcher) in
        let! r := get_ast m "r" "r" in
        let! p := get_ast m "p" "p" in
        let! rules := selected_policies m ev1 in
        Ok (expr, a_tokens p, rules) in
      match ready with
      | Throw t => (ev1, Throw t)
      | UB u => (ev1, UB u)
      | Ok (expr, toks, rules) =>
          let has_eval := HasEval expr in
          match rules with
          | _ :: _ =>
              match get_ast m "e" "e" with
              | Ok ea =>
                  let len := List.length rules in
                  let (ev2, out) :=
                    rule_loop (e_heap e) has_eval expr (a_value ea) toks len rules 0
                              (repeat Indeterminate len) (repeat false len) (UB Uninitialised) ev1 in
                  (ev2, let! r := out in Ok (decide rules r))
              | Throw t => (ev1, Throw t)
              | UB u => (ev1, UB u)
              end
          | [] =>
              if has_eval then (ev1, Throw CasbinEnforcer)
              else
                match push_p ev1 toks (map (fun _ => "") toks) with
                | (ev2, Ok _) =>
                    let (ev3, valid) := Eval o ev2 expr in
                    if negb valid then (ev3, Ok (false, []))
                    else
                      match value o (e_heap e) ev3 with
                      | Ok b =>
                          (ev3, let! ea := get_ast m "e" "e" in
                                let! r := MergeEffects (a_value ea)
                                                       [if b then Allow else Indeterminate] [true] 0 1 in
                                Ok (decide rules r))
                      | Throw t => (ev3, Throw t)
                      | UB u => (ev3, UB u)
                      end
                | (ev2, Throw t) => (ev2, Throw t)
                | (ev2, UB u) => (ev2, UB u)
                end
          end
      end.

  (** enforcer.cpp:595-597: the evaluator kept by the enforcer, created on demand. *)
  Definition own_evaluator (e : enforcer) : evaluator :=
    match e_ev e with Some v => v | None => new_evaluator end.

  (** enforcer.cpp:603-612, 636-647: push the values of a positional request; JSON
      values are dropped (evaluator.cpp:62-65). *)
  Fixpoint push_r (ev : evaluator) (toks : list string) (params : list data) : evaluator * res unit :=
    match toks, params with
    | t :: ts, DStr s :: ps =>
        match PushObjectString ev "r" (sdrop 2 t) s with
        | Ok ev' => push_r ev' ts ps
        | Throw x => (ev, Throw x)
        | UB u => (ev, UB u)
        end
    | _ :: ts, DJson :: ps => push_r ev ts ps
    | _, _ => (ev, Ok tt)
    end.

  (** enforcer.cpp:660-667: push the values of a request given as a map. *)
  Fixpoint push_map (ev : evaluator) (params : list (string * data)) : evaluator * res unit :=
    match params with
    | [] => (ev, Ok tt)
    | (n, DStr s) :: ps =>
        match PushObjectString ev "r" n s with
        | Ok ev' => push_map ev' ps
        | Throw x => (ev, Throw x)
        | UB u => (ev, UB u)
        end
    | (_, DJson) :: ps => push_map ev ps
    end.

  (** enforcer.cpp:586-617 and 619-652 [EnforceExWithMatcher] for a list or vector of
      values: (decision, explanation); a request of the wrong length gives false. *)
  Definition EnforceExWithMatcher (matcher : string) (params : list data) : M (bool * list string) :=
    fun e =>
      match get_ast (e_model e) "r" "r" with
      | Throw t => (e, Throw t)
      | UB u => (e, UB u)
      | Ok r =>
          if negb (Nat.eqb (List.length params) (List.length (a_tokens r))) then (e, Ok (false, []))
          else
            match push_r (own_evaluator e) (a_tokens r) params with
            | (ev1, Ok _) =>
                let (ev2, out) := m_enforce e ev1 matcher in (set_ev (Some ev2) e, out)
            | (ev1, Throw t) => (set_ev (Some ev1) e, Throw t)
            | (ev1, UB u) => (set_ev (Some ev1) e, UB u)
            end
      end.

  (** enforcer.cpp:653-672 [EnforceExWithMatcher] for a map: the names are not checked. *)
  Definition EnforceExWithMatcherMap (matcher : string) (params : list (string * data))
    : M (bool * list string) :=
    fun e =>
      match push_map (own_evaluator e) params with
      | (ev1, Ok _) => let (ev2, out) := m_enforce e ev1 matcher in (set_ev (Some ev2) e, out)
      | (ev1, Throw t) => (set_ev (Some ev1) e, Throw t)
      | (ev1, UB u) => (set_ev (Some ev1) e, UB u)
      end.

  (** enforcer.cpp:537-564 [EnforceWithMatcher]. *)
  Definition EnforceWithMatcher (matcher : string) (params : list data) : M bool :=
    r <- EnforceExWithMatcher matcher params ;; ret (fst r).
  Definition EnforceWithMatcherMap (matcher : string) (params : list (string * data)) : M bool :=
    r <- EnforceExWithMatcherMap matcher params ;; ret (fst r).

  (** enforcer.cpp:523-534 [Enforce]; enforcer.cpp:570-580 [EnforceEx]. *)
  Definition Enforce (params : list data) : M bool := EnforceWithMatcher "" params.
  Definition EnforceMap (params : list (string * data)) : M bool := EnforceWithMatcherMap "" params.
  Definition EnforceEx (params : list data) : M (bool * list string) := EnforceExWithMatcher "" params.

  (** enforcer.cpp:686-693 [BatchEnforceWithMatcher]. *)
  Fixpoint BatchEnforceWithMatcher (matcher : string) (reqs : list (list data)) : M (list bool) :=
    match reqs with
    | [] => ret []
    | q :: qs => b <- EnforceWithMatcher matcher q ;;
                 bs <- BatchEnforceWithMatcher matcher qs ;;
                 ret (b :: bs)
    end.
  (** enforcer.cpp:675-683 [BatchEnforce]. *)
  Fixpoint BatchEnforce (reqs : list (list data)) : M (list bool) :=
    match reqs with
    | [] => ret []
    | q :: qs => b <- Enforce q ;; bs <- BatchEnforce qs ;; ret (b :: bs)
    end.

  (** ** casbin/rbac_api.cpp *)

  (** m_model->m["g"].assertion_map["g"]->rm (rbac_api.cpp:30, 36). *)
  Definition g_rm (e : enforcer) : res nat :=
    let! a := get_ast (e_model e) "g" "g" in
    match a_rm a with Some i => Ok i | None => UB NullDeref end.

  (** GetRoles on the role manager at address [i] (it may create roles). *)
  Definition rm_GetRoles (i : nat) (name : string) (domain : list string) : M (list string) :=
    fun e => match hget (e_heap e) i with
             | Ok r => let (r', out) := GetRoles r name domain in
                       (set_heap (hset (e_heap e) i r') e, out)
             | Throw t => (e, Throw t)
             | UB u => (e, UB u)
             end.

  (** rbac_api.cpp:29-32 [GetRolesForUser]. *)
  Definition GetRolesForUser (name : string) (domain : list string) : M (list string) :=
    fun e => match g_rm e with
             | Ok i => rm_GetRoles i name domain e
             | Throw t => (e, Throw t)
             | UB u => (e, UB u)
             end.

  (** rbac_api.cpp:35-38 [GetUsersForRole]. *)
  Definition GetUsersForRole (name : string) (domain : list string) : M (list string) :=
    fun e => (e, let! i := g_rm e in let! r := hget (e_heap e) i in GetUsers r name domain).

  (** rbac_api.cpp:41-54 [HasRoleForUser]. *)
  Definition HasRoleForUser (name role : string) : M bool :=
    roles <- GetRolesForUser name [] ;; ret (existsb (fun x => String.eqb x role) roles).

  Definition AddRoleForUser (user role : string) : M bool := AddGroupingPolicy [user; role].  (* rbac_api.cpp:58-61 *)

  (** rbac_api.cpp:65-73 [AddRolesForUser]. *)
  Fixpoint add_roles (user : string) (roles : list string) (f : bool) : M bool :=
    match roles with
    | [] => ret f
    | r :: rs => b <- AddGroupingPolicy [user; r] ;; add_roles user rs (if b : bool then true else f)
    end.
  Definition AddRolesForUser (user : string) (roles : list string) : M bool := add_roles user roles false.

  Definition DeleteRoleForUser (user role : string) : M bool := RemoveGroupingPolicy [user; role]. (* rbac_api.cpp:77-80 *)
  Definition DeleteRolesForUser (user : string) : M bool := RemoveFilteredGroupingPolicy 0 [user]. (* :84-87 *)

  (** rbac_api.cpp:91-99 [DeleteUser]. *)
  Definition DeleteUser (user : string) : M bool :=
    r1 <- RemoveFilteredGroupingPolicy 0 [user] ;;
    r2 <- e_RemoveFilteredPolicy 0 [user] ;;
    ret (r1 || r2).

  (** rbac_api.cpp:103-111 [DeleteRole]. *)
  Definition DeleteRole (role : string) : M bool :=
    r1 <- RemoveFilteredGroupingPolicy 1 [role] ;;
    r2 <- e_RemoveFilteredPolicy 0 [role] ;;
    ret (r1 || r2).

  Definition DeletePermission (perm : list string) : M bool := e_RemoveFilteredPolicy 1 perm.      (* :115-118 *)
  Definition AddPermissionForUser (user : string) (perm : list string) : M bool := e_AddPolicy (JoinSlice user perm). (* :122-124 *)
  Definition DeletePermissionForUser (user : string) (perm : list string) : M bool := e_RemovePolicy (JoinSlice user perm). (* :128-130 *)
  Definition DeletePermissionsForUser (user : string) : M bool := e_RemoveFilteredPolicy 0 [user]. (* :134-137 *)
  Definition GetPermissionsForUser (user : string) : M (list rule) := e_GetFilteredPolicy 0 [user]. (* :140-143 *)
  Definition HasPermissionForUser (user : string) (perm : list string) : M bool := e_HasPolicy (JoinSlice user perm). (* :146-148 *)

  (** rbac_api.cpp:172-178: the new roles among [roles], given the names seen so far. *)
  Fixpoint new_roles (seen roles : list string) : list string :=
    match roles with
    | [] => []
    | r :: rs => if inb r seen then new_roles seen rs else r :: new_roles (r :: seen) rs
    end.

  (** rbac_api.cpp:166-179, the work-list loop.  Every name enters the list at most
      once; [fuel] bounds the number of iterations (proved sufficient for every role
      manager, P_Safe.implicit_loop_ends), running out of it is [Unmodelled]. *)
  Fixpoint implicit_loop (fuel : nat) (domain : list string) (q seen acc : list string) : M (list string) :=
    match q with
    | [] => ret acc
    | name :: q' =>
        match fuel with
        | 0 => undef Unmodelled
        | S n =>
            roles <- (fun e => rm_GetRoles (e_rm e) name domain e) ;;
            let fresh := new_roles seen roles in
            implicit_loop n domain (q' ++ fresh) (rev fresh ++ seen) (acc ++ fresh)
        end
    end.

  (** The number of direct links of a role manager. *)
  Definition edge_count (r : role_manager) : nat :=
    fold_right (fun kv n => List.length (snd kv) + n) 0 (all_roles r).

  (** rbac_api.cpp:158-182 [GetImplicitRolesForUser]. *)
  Definition GetImplicitRolesForUser (name : string) (domain : list string) : M (list string) :=
    fun e => match hget (e_heap e) (e_rm e) with
             | Ok r => implicit_loop (S (List.length (all_roles r) + edge_count r)) domain [name] [name] [] e
             | Throw t => (e, Throw t)
             | UB u => (e, UB u)
             end.

  (** rbac_api_with_domains.cpp:41-44 [GetPermissionsForUserInDomain]. *)
  Definition GetPermissionsForUserInDomain (user domain : string) : M (list rule) :=
    e_GetFilteredPolicy 0 [user; domain].

  (** rbac_api.cpp:206-214: the permissions of a list of names. *)
  Fixpoint perms_of (domain : list string) (roles : list string) : M (list rule) :=
    match roles with
    | [] => ret []
    | r :: rs =>
        ps <- match domain with
              | d :: _ => GetPermissionsForUserInDomain r d
              | [] => GetPermissionsForUser r
              end ;;
        rest <- perms_of domain rs ;;
        ret (ps ++ rest)
    end.

  (** rbac_api.cpp:193-217 [GetImplicitPermissionsForUser]. *)
  Definition GetImplicitPermissionsForUser (user : string) (domain : list string) : M (list rule) :=
    roles <- GetImplicitRolesForUser user domain ;;
    if Nat.ltb 1 (List.length domain) then fail CasbinEnforcer
    else perms_of domain (user :: roles).

  (** rbac_api.cpp:237-243: the subjects whose request is allowed. *)
  Fixpoint allowed_subjects (perm : list string) (subjects : list string) : M (list string) :=
    match subjects with
    | [] => ret []
    | s :: ss =>
        p0 <- lift (vget perm 0) ;;
        p1 <- lift (vget perm 1) ;;
        ok <- Enforce [DStr s; DStr p0; DStr p1] ;;
        rest <- allowed_subjects perm ss ;;
        ret (if ok : bool then s :: rest else rest)
    end.

  (** rbac_api.cpp:227-247 [GetImplicitUsersForPermission]. *)
  Definition GetImplicitUsersForPermission (perm : list string) : M (list string) :=
    p_subjects <- GetAllSubjects ;;
    g_inherit <- all_types "g" 1 ;;
    g_subjects <- all_types "g" 0 ;;
    let subjects := ArrayRemoveDuplicates (p_subjects ++ g_subjects) in
    res <- allowed_subjects perm subjects ;;
    ret (SetSubtract res g_inherit).

  (** ** casbin/rbac_api_with_domains.cpp *)
  Definition GetUsersForRoleInDomain (name domain : string) : M (list string) :=      (* :27-31 *)
    GetUsersForRole name [domain].
  Definition GetRolesForUserInDomain (name domain : string) : M (list string) :=      (* :34-38 *)
    GetRolesForUser name [domain].
  Definition AddRoleForUserInDomain (user role domain : string) : M bool :=           (* :48-51 *)
    AddGroupingPolicy [user; role; domain].
  Definition DeleteRoleForUserInDomain (user role domain : string) : M bool :=        (* :55-58 *)
    RemoveGroupingPolicy [user; role; domain].
End Enforce.
