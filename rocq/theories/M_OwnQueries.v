(** Model of the decisions and of the role queries of an enforcer that has a role manager of
    the caller (enforcer.cpp:406-409 [SetRoleManager]); M_OwnRoles.v models what such a
    manager is told.

    A manager is what it answers to HasLink, GetRoles and GetUsers
    (include/casbin/rbac/role_manager.h:36-44); [managers] gives the manager at each address,
    so that different role definitions may have different managers.
    Simplification: a manager gives the same answer to the same question as long as one
    method of the enforcer runs, and does not call the enforcer. *)
From Verif Require Import Base M_Util M_RoleManager M_Effector M_Model M_Persist M_Eval M_Evaluator M_Enforcer M_OwnEvaluator.

Record answers := mkAnswers {
  q_HasLink : string -> string -> list string -> res bool;
  q_GetRoles : string -> list string -> res (list string);
  q_GetUsers : string -> list string -> res (list string) }.
Definition managers := nat -> answers.

Section Queries.
  Variable ms : managers.

  (** exprtk_config.h:58-94, as [call_g]. *)
  Definition own_call_g (rm : option nat) (args : list string) : res bool :=
    match args with
    | [n1; n2] =>
        match rm with None => Ok (String.eqb n1 n2) | Some i => q_HasLink (ms i) n1 n2 [] end
    | [n1; n2; d] =>
        match rm with None => Ok (String.eqb n1 n2) | Some i => q_HasLink (ms i) n1 n2 [d] end
    | _ => Ok false
    end.

  Definition own_funs (ev : evaluator) : fun_env :=
    fun f args => match aget f (ev_funs ev) with
                  | Some (FG rm _) => Some (own_call_g rm args)
                  | _ => None
                  end.

  (** evaluator.cpp:97-109, as [value] and [checked_value]. *)
  Definition own_value (o : oracle) (ev : evaluator) : res bool :=
    match ev_prog ev with
    | None => Ok true
    | Some p => o_value o p (vars_of ev) (own_funs ev)
    end.
  Definition own_checked (o : oracle) (ev : evaluator) : res bool :=
    if ev_bad ev then Throw ThrownString else own_value o ev.

  (** The ExprtkEvaluator (evaluator.cpp:23-164), as [exprtk]: only the values of expressions
      depend on the managers. *)
  Definition own_exprtk (o : oracle) (float : evaluator -> bool) : ievaluator evaluator :=
    fun h A c => match c in ecall A return evaluator -> evaluator * res A with
    | CCheckType => fun ev => (ev, let! b := own_checked o ev in Ok (if float ev then TyFloat else TyBool))
    | CGetBoolean => fun ev => (ev, own_value o ev)
    | CGetFloat => fun ev => (ev, own_value o ev)
    | c => exprtk o float h _ c
    end.

  (** enforcer.cpp:586-617 [EnforceExWithMatcher], and :518-543 [Enforce]. *)
  Definition own_EnforceExWithMatcher (o : oracle) (float : evaluator -> bool) (matcher : string) (params : list odata)
    : M (bool * list string) :=
    fun e => match get_ast (e_model e) "r" "r" with
             | Ok r =>
                 if negb (Nat.eqb (List.length params) (List.length (a_tokens r))) then (e, Ok (false, []))
                 else let (ev, out) := EnforceExWithMatcher_ev (own_exprtk o float) e matcher params (own_evaluator e) in
                      (set_ev (Some ev) e, out)
             | Throw t => (e, Throw t)
             | UB u => (e, UB u)
             end.
  Definition own_Enforce (o : oracle) (float : evaluator -> bool) (params : list odata) : M bool :=
    r <- own_EnforceExWithMatcher o float "" params ;; ret (fst r).

  (** rbac_api.cpp:29-32 [GetRolesForUser], :35-38 [GetUsersForRole], :41-54 [HasRoleForUser]. *)
  Definition own_GetRolesForUser (name : string) (domain : list string) : M (list string) :=
    fun e => (e, let! i := g_rm e in q_GetRoles (ms i) name domain).
  Definition own_GetUsersForRole (name : string) (domain : list string) : M (list string) :=
    fun e => (e, let! i := g_rm e in q_GetUsers (ms i) name domain).
  Definition own_HasRoleForUser (name role : string) : M bool :=
    roles <- own_GetRolesForUser name [] ;; ret (existsb (fun x => String.eqb x role) roles).
  (** rbac_api_with_domains.cpp:27-38. *)
  Definition own_GetUsersForRoleInDomain (name domain : string) : M (list string) := own_GetUsersForRole name [domain].
  Definition own_GetRolesForUserInDomain (name domain : string) : M (list string) := own_GetRolesForUser name [domain].

  (** rbac_api.cpp:166-179, the work-list loop; [None]: it has not ended after [steps]
      iterations. *)
  Fixpoint own_implicit_loop (steps : nat) (mg : answers) (domain q seen acc : list string) : option (res (list string)) :=
    match q with
    | [] => Some (Ok acc)
    | name :: q' =>
        match steps with
        | 0 => None
        | S n =>
            match q_GetRoles mg name domain with
            | Ok roles =>
                let fresh := new_roles seen roles in
                own_implicit_loop n mg domain (q' ++ fresh) (rev fresh ++ seen) (acc ++ fresh)
            | Throw t => Some (Throw t)
            | UB u => Some (UB u)
            end
        end
    end.
  (** rbac_api.cpp:158-182 [GetImplicitRolesForUser]: the manager of the enforcer is asked. *)
  Definition own_GetImplicitRolesForUser (steps : nat) (name : string) (domain : list string) (e : enforcer)
    : option (res (list string)) :=
    own_implicit_loop steps (ms (e_rm e)) domain [name] [name] [].

  (** rbac_api.cpp:193-217 [GetImplicitPermissionsForUser]. *)
  Definition own_GetImplicitPermissionsForUser (steps : nat) (user : string) (domain : list string) (e : enforcer)
    : option (enforcer * res (list rule)) :=
    match own_GetImplicitRolesForUser steps user domain e with
    | None => None
    | Some (Ok roles) =>
        Some (if Nat.ltb 1 (List.length domain) then (e, Throw CasbinEnforcer) else perms_of domain (user :: roles) e)
    | Some (Throw t) => Some (e, Throw t)
    | Some (UB u) => Some (e, UB u)
    end.

  (** rbac_api.cpp:237-243 and 227-247 [GetImplicitUsersForPermission]. *)
  Fixpoint own_allowed (o : oracle) (float : evaluator -> bool) (perm : list string) (subjects : list string) : M (list string) :=
    match subjects with
    | [] => ret []
    | s :: ss =>
        p0 <- lift (vget perm 0) ;;
        p1 <- lift (vget perm 1) ;;
        ok <- own_Enforce o float [OStr s; OStr p0; OStr p1] ;;
        rest <- own_allowed o float perm ss ;;
        ret (if ok : bool then s :: rest else rest)
    end.
  Definition own_GetImplicitUsersForPermission (o : oracle) (float : evaluator -> bool) (perm : list string) : M (list string) :=
    p_subjects <- GetAllSubjects ;;
    g_inherit <- all_types "g" 1 ;;
    g_subjects <- all_types "g" 0 ;;
    let subjects := ArrayRemoveDuplicates (p_subjects ++ g_subjects) in
    res <- own_allowed o float perm subjects ;;
    ret (SetSubtract res g_inherit).
End Queries.

(** The default managers seen as managers of the caller: default_role_manager.cpp. *)
Definition default_answers (h : heap) : managers := fun i =>
  mkAnswers (fun n1 n2 d => let! r := hget h i in snd (HasLink r n1 n2 d))
            (fun n d => let! r := hget h i in snd (GetRoles r n d))
            (fun n d => let! r := hget h i in GetUsers r n d).

(** enforcer.cpp:406-409 [SetRoleManager], the manager being at address [i]. *)
Definition own_SetRoleManager (i : nat) : M unit := modify (set_rm i).
