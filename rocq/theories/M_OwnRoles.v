(** Model of the management calls of an enforcer that has a role manager of the caller
    (enforcer.cpp:406-409 [SetRoleManager]; include/casbin/rbac/role_manager.h:28-44).

    Such a manager has a state of its own, of any type [St], and answers each of Clear,
    AddLink and DeleteLink by a new state and possibly an exception.  [o_heard] lists the
    calls it has received, oldest first.  The address of the manager is [e_rm]; the
    default managers in [e_heap] play no part.
    Simplification: a manager cannot call the enforcer, its queries (HasLink, GetRoles,
    GetUsers) are in M_OwnQueries.v, and AddNamedMatchingFunc, which only works on a default
    manager (management_api.cpp:334-339), is not modelled. *)
From Verif Require Import Base M_Util M_RoleManager M_Model M_Persist M_Evaluator M_Enforcer.

(** A call the manager receives: include/casbin/rbac/role_manager.h:30-34. *)
Inductive heard :=
| HClear
| HAdd (name1 name2 : string) (domain : list string)
| HDelete (name1 name2 : string) (domain : list string).

Section Own.
  Variable St : Type.
  Variable mg : St -> heard -> St * res unit.

  Record own := mkOwn { o_e : enforcer; o_st : St; o_heard : list heard }.

  (** A method of the enforcer together with its manager. *)
  Definition OM (A : Type) := own -> own * res A.
  Definition oret {A} (a : A) : OM A := fun s => (s, Ok a).
  Definition obind {A B} (x : OM A) (f : A -> OM B) : OM B :=
    fun s => match x s with
             | (s', Ok a) => f a s'
             | (s', Throw t) => (s', Throw t)
             | (s', UB u) => (s', UB u)
             end.
  (** The parts of a method that do not reach the manager. *)
  Definition inside {A} (x : M A) : OM A :=
    fun s => let (e, out) := x (o_e s) in (mkOwn e (o_st s) (o_heard s), out).
  (** A call of the manager. *)
  Definition tell (c : heard) : OM unit :=
    fun s => let (st, out) := mg (o_st s) c in (mkOwn (o_e s) st (o_heard s ++ [c]), out).

  (** One iteration of assertion.cpp:36-52 / 62-70. *)
  Definition own_link_rule (op : policy_op) (n : nat) (ru : rule) : OM unit :=
    if Nat.ltb (List.length ru) n then fun s => (s, Throw IllegalArgument)
    else match firstn n ru with
         | a :: b :: dom =>
             match op with
             | policy_add => tell (HAdd a b dom)
             | policy_remove => tell (HDelete a b dom)
             end
         | _ => fun s => (s, UB OutOfBounds)
         end.

  (** The loops assertion.cpp:36-52 and 62-70. *)
  Fixpoint own_link_rules (op : policy_op) (n : nat) (rs : list rule) : OM unit :=
    match rs with
    | [] => oret tt
    | x :: xs => obind (own_link_rule op n x) (fun _ => own_link_rules op n xs)
    end.

  (** assertion.cpp:29-53 [BuildIncrementalRoleLinks] after this->rm = rm. *)
  Definition own_ast_links (op : policy_op) (value : string) (rs : list rule) : OM unit :=
    let n := scount "_" value in
    if Nat.ltb n 2 then fun s => (s, Throw IllegalArgument) else own_link_rules op n rs.

  (** enforcer.cpp:512-514 and model.cpp:195-198 [BuildIncrementalRoleLinks], section "g". *)
  Definition own_BuildIncrementalRoleLinks (op : policy_op) (pt : string) (rs : list rule) : OM unit :=
    obind (inside (fun e => match get_ast (e_model e) "g" pt with
                            | Ok a => (set_model (put_ast (e_model e) "g" pt (with_rm a (Some (e_rm e)))) e, Ok (a_value a))
                            | Throw t => (e, Throw t)
                            | UB u => (e, UB u)
                            end))
          (fun value => own_ast_links op value rs).

  (** model.cpp:201-204 with assertion.cpp:55-81: every assertion of section g in turn. *)
  Fixpoint own_build_asts (rm : nat) (todo : assertion_map) (s : own) : assertion_map * (own * res unit) :=
    match todo with
    | [] => ([], (s, Ok tt))
    | (k, a) :: rest =>
        let a' := with_rm a (Some rm) in
        match own_ast_links policy_add (a_value a) (rules_of (a_policy a)) s with
        | (s', Ok _) => let (am, r) := own_build_asts rm rest s' in ((k, a') :: am, r)
        | (s', out) => ((k, a') :: rest, (s', out))
        end
    end.
  (** enforcer.cpp:505-509 [BuildRoleLinks]: rm->Clear(), then the model's function. *)
  Definition own_BuildRoleLinks : OM unit :=
    obind (tell HClear) (fun _ s =>
      let e := o_e s in
      let m1 := touch (e_model e) "g" in
      let '(am, (s', out)) := own_build_asts (e_rm e) (sec_of m1 "g") s in
      (mkOwn (set_model (aset "g" am m1) e) (o_st s') (o_heard s'), out)).
  Definition own_rebuild_if_auto : OM unit :=
    fun s => if e_auto_build (o_e s) then own_BuildRoleLinks s else (s, Ok tt).

  (** internal_api.cpp:42-56 and the like: the end of every change. *)
  Definition own_tail (c : acall) : OM bool :=
    obind (inside (autosave c)) (fun _ => obind (inside notify) (fun _ => oret true)).

  (** internal_api.cpp:32-57 [addPolicy], section "g". *)
  Definition own_addPolicy (pt : string) (r : rule) : OM bool :=
    obind (inside (on_model (fun m => AddPolicy m "g" pt r))) (fun added =>
    if negb added then oret false
    else obind (own_BuildIncrementalRoleLinks policy_add pt [r]) (fun _ => own_tail (CAdd "g" pt r))).
  (** internal_api.cpp:60-79 [addPolicies], section "g". *)
  Definition own_addPolicies (pt : string) (rs : list rule) : OM bool :=
    obind (inside (on_model (fun m => AddPolicies m "g" pt rs))) (fun added =>
    if negb added then oret false
    else obind (own_BuildIncrementalRoleLinks policy_add pt rs) (fun _ => own_tail (CAddMany "g" pt rs))).
  (** internal_api.cpp:82-107 [removePolicy], section "g"; line 89 passes policy_add. *)
  Definition own_removePolicy (pt : string) (r : rule) : OM bool :=
    obind (inside (on_model (fun m => RemovePolicy m "g" pt r))) (fun removed =>
    if negb removed then oret false
    else obind (own_BuildIncrementalRoleLinks policy_add pt [r]) (fun _ => own_tail (CRemove "g" pt r))).
  (** internal_api.cpp:110-129 [removePolicies], section "g"; it adds the rules. *)
  Definition own_removePolicies (pt : string) (rs : list rule) : OM bool :=
    obind (inside (on_model (fun m => AddPolicies m "g" pt rs))) (fun removed =>
    if negb removed then oret false
    else obind (own_BuildIncrementalRoleLinks policy_add pt rs) (fun _ => own_tail (CRemoveMany "g" pt rs))).
  (** internal_api.cpp:132-158 [removeFilteredPolicy], section "g". *)
  Definition own_removeFilteredPolicy (pt : string) (i : nat) (vals : list string) : OM bool :=
    obind (inside (on_model (fun m => RemoveFilteredPolicy m "g" pt i vals))) (fun p =>
    if negb (fst p) then oret false
    else obind (own_BuildIncrementalRoleLinks policy_remove pt (snd p))
               (fun _ => own_tail (CRemoveFiltered "g" pt i vals))).
  (** internal_api.cpp:160-177 [updatePolicy], section "g"; no call of the adapter. *)
  Definition own_updatePolicy (pt : string) (old new : rule) : OM bool :=
    obind (inside (on_model (fun m => UpdatePolicy m "g" pt old new))) (fun updated =>
    if negb updated then oret false
    else obind (own_BuildIncrementalRoleLinks policy_remove pt [old]) (fun _ =>
         obind (own_BuildIncrementalRoleLinks policy_add pt [new]) (fun _ =>
         obind (inside notify) (fun _ => oret true)))).

  (** management_api.cpp:230-248 [AddNamedGroupingPolicy]. *)
  Definition own_AddNamedGroupingPolicy (pt : string) (params : rule) : OM bool :=
    obind (own_addPolicy pt params) (fun added =>
    obind (fun s => if e_auto_build (o_e s) then own_BuildIncrementalRoleLinks policy_add pt [params] s else (s, Ok tt)) (fun _ =>
    oret added)).
  (** management_api.cpp:253-255, 293-295 and 311-313. *)
  Definition own_AddNamedGroupingPolicies (pt : string) (rs : list rule) : OM bool := own_addPolicies pt rs.
  Definition own_RemoveNamedGroupingPolicies (pt : string) (rs : list rule) : OM bool := own_removePolicies pt rs.
  Definition own_UpdateNamedGroupingPolicy (pt : string) (old new : rule) : OM bool := own_updatePolicy pt old new.
  (** management_api.cpp:273-290 [RemoveNamedGroupingPolicy]. *)
  Definition own_RemoveNamedGroupingPolicy (pt : string) (params : rule) : OM bool :=
    obind (own_removePolicy pt params) (fun removed =>
    obind own_rebuild_if_auto (fun _ => oret removed)).
  (** management_api.cpp:298-305 [RemoveFilteredNamedGroupingPolicy]. *)
  Definition own_RemoveFilteredNamedGroupingPolicy (pt : string) (i : nat) (vals : list string) : OM bool :=
    obind (own_removeFilteredPolicy pt i vals) (fun removed =>
    obind own_rebuild_if_auto (fun _ => oret removed)).

  (** enforcer.cpp:427-436 [LoadPolicy]. *)
  Definition own_LoadPolicy : OM unit :=
    obind (inside (e_ClearPolicy ;;; adapter_load)) (fun _ => own_rebuild_if_auto).
End Own.
Arguments o_e {St}.
Arguments o_st {St}.
Arguments o_heard {St}.
Arguments mkOwn {St}.
