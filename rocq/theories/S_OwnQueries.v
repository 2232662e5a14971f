(** Specification of decisions and role queries with a role manager of the caller. *)
From Verif Require Import Base M_Util M_RoleManager M_Effector M_Model M_Persist M_Eval M_Evaluator M_Enforcer M_OwnEvaluator M_OwnQueries S_Effect S_Enforce.

Section Spec.
  Variables (o : oracle) (ms : managers).

  (** g(a, b) or g(a, b, domain) in a matcher is what HasLink of the manager of that role
      definition answers; without a manager, whether the names are equal. *)
  Definition role_answer (m : model) : fun_env :=
    fun f args =>
      match aget f (sec_of m "g") with
      | None => None
      | Some a =>
          Some (match a_rm a, args with
                | None, [x; y] | None, [x; y; _] => Ok (String.eqb x y)
                | Some i, [x; y] => q_HasLink (ms i) x y []
                | Some i, [x; y; d] => q_HasLink (ms i) x y [d]
                | _, _ => Ok false
                end)
      end.

  (** Does the matcher hold for request [req] and rule [vals]? *)
  Definition own_verdict (m : model) (rf pf : list string) (expr : string) (req vals : list string) : res bool :=
    if negb (Nat.eqb (List.length pf) (List.length vals)) then Throw CasbinEnforcer
    else let! text := matcher_text expr pf vals in
         if o_compiles o text (known_vars rf pf) (role_arity m)
         then o_value o text (env rf req pf vals) (role_answer m)
         else Throw ThrownString.

  (** What the rules say: whether the matcher holds, and the effect. *)
  Definition own_outcomes (m : model) (rf pf : list string) (expr : string) (req : list string) (rules : list rule) (os : list outcome) : Prop :=
    Forall2 (fun r oc => own_verdict m rf pf expr req r = Ok (fst oc) /\ snd oc = effect_of pf r) rules os.
End Spec.

(** The names a manager reaches from [a] in one or more steps of GetRoles. *)
Inductive reaches_role (mg : answers) (domain : list string) (a : string) : string -> Prop :=
| reaches_one : forall b l, q_GetRoles mg a domain = Ok l -> In b l -> reaches_role mg domain a b
| reaches_more : forall b c l, reaches_role mg domain a b -> q_GetRoles mg b domain = Ok l -> In c l -> reaches_role mg domain a c.
