(** Specification of enforcement with an evaluator of the caller: which calls it gets, in
    which order, and what its answers decide. *)
From Verif Require Import Base M_Util M_RoleManager M_Effector M_Model M_Persist M_Eval M_Evaluator M_Enforcer M_OwnEvaluator S_Effect S_Enforce.

(** The model has request fields [rf], policy fields [pf], effect text [eft] and matcher
    [mat].  (Any names will do: they need not suit the expression library.) *)
Record outline (m : model) (rf pf : list string) (eft mat : string) : Prop := mkOutline {
  l_r : exists a, get_ast m "r" "r" = Ok a /\ a_tokens a = map (fun f => ("r_" ++ f)%string) rf;
  l_p : exists a, get_ast m "p" "p" = Ok a /\ a_tokens a = map (fun f => ("p_" ++ f)%string) pf;
  l_e : exists a, get_ast m "e" "e" = Ok a /\ a_value a = eft;
  l_m : exists a, get_ast m "m" "m" = Ok a /\ a_value a = mat;
  l_pf : NoDup pf }.

Section Spec.
  Context {St : Type}.
  Variables (iv : ievaluator St) (h : heap).

  (** Before the rules: the built-in functions, then one role function for each role
      definition with the number of its underscores. *)
  Fixpoint role_functions (g : list (string * assertion)) : V St unit :=
    match g with
    | [] => vret tt
    | (name, a) :: rest => iv h unit (CLoadGFunction (a_rm a) name (scount "_" (a_value a))) ;~ role_functions rest
    end.
  Definition introduced (m : model) : V St unit :=
    iv h unit CClearList ;~ iv h unit CLoadFunctions ;~ role_functions (sec_of m "g").

  (** Values handed over, each under the name of its field. *)
  Fixpoint hand_over (target : string) (fields : list (string * string)) : V St unit :=
    match fields with
    | [] => vret tt
    | (f, v) :: rest => iv h unit (CPushString target f v) ;~ hand_over target rest
    end.
  Fixpoint hand_over_request (fields : list (string * odata)) : V St unit :=
    match fields with
    | [] => vret tt
    | (f, OStr v) :: rest => iv h unit (CPushString "r" f v) ;~ hand_over_request rest
    | (f, OJson j) :: rest => iv h unit (CPushJson "r" f j) ;~ hand_over_request rest
    end.

  (** The question about one rule: its values, the text, the type of the result, the result. *)
  Definition question (text : string) (pf vals : list string) : V St bool :=
    iv h unit (CClean false) ;~ iv h unit (CInitialObject "p") ;~ hand_over "p" (combine pf vals) ;~
    iv h bool (CEval text) ;~
    t <~ iv h etype CCheckType ;;
    match t with
    | TyBool => iv h bool CGetBoolean
    | _ => t' <~ iv h etype CCheckType ;;
           match t' with
           | TyFloat => iv h bool CGetFloat
           | _ => fun st => (st, Throw CasbinEnforcer)
           end
    end.

  (** [consulted expr pf rules st st' os]: asked about each of [rules] in turn, the evaluator
      goes from state [st] to [st'] and answers each time; [os] are its answers and the effects
      of the rules. *)
  Inductive consulted (expr : string) (pf : list string) : list rule -> St -> St -> list outcome -> Prop :=
  | consulted_none : forall st, consulted expr pf [] st st []
  | consulted_rule : forall vals rest text st st1 st2 b os,
      List.length vals = List.length pf -> matcher_text expr pf vals = Ok text ->
      question text pf vals st = (st1, Ok b) -> consulted expr pf rest st1 st2 os ->
      consulted expr pf (vals :: rest) st st2 ((b, effect_of pf vals) :: os).

  (** The rules it is asked about: all of them; with the hash index, the evaluator is asked for
      the values of the request, and the only rule is the one equal to them. *)
  Definition consults (m : model) (rf : list string) (st st' : St) (rules : list rule) : Prop :=
    if p_indexed m then
      exists vals req, iv h (list (string * string)) CRequestValues st = (st', Ok vals) /\
        Forall2 (fun f v => aget f vals = Some v) rf req /\
        rules = (if existsb (rule_eqb req) (p_rules m) then [req] else [])
    else st' = st /\ rules = p_rules m.
End Spec.

(** No answer so far settles the matter. *)
Definition undecided (pe : policy_effect) (os : list outcome) : Prop :=
  match pe with
  | AllowOverride => ~ In (true, Allow) os
  | DenyOverride | AllowAndDeny => ~ In (true, Deny) os
  | Priority => Forall (fun o => ~ decisive o) os
  end.

(** The call by which an evaluator is told that an enforcement is over. *)
Definition is_final_clean {A} (c : ecall A) : bool :=
  match c with CClean b => b | _ => false end.
