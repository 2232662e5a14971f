(** What an enforcer keeps in memory from one request to the next: the members of its
    ExprtkEvaluator (include/casbin/model/evaluator.h:68-84).  The variables and the
    registered functions are part of [evaluator]; the vector Functions, which owns the
    function objects, is added here. *)
From Verif Require Export Base M_Util M_RoleManager M_Model M_Evaluator M_Enforcer M_Cached M_Pool.

(** An enforcer and the vector Functions of its evaluator; without an evaluator the second
    part means nothing. *)
Record holder := mkHolder { h_e : enforcer; h_functions : list fobj }.

(** evaluator.cpp:123-128 [AddFunction] for all functions of one enforcement: each is
    appended to Functions, whether or not its name is free in the symbol table
    (GetExprtkFunction makes a new object every time, C98_alone).  Nothing is taken away:
    Clean is called with after_enforce = false only (enforcer.cpp:112, 195;
    evaluator.cpp:111-114). *)
Definition loaded (m : model) (functions : list fobj) : list fobj := functions ++ map made (map snd (loads m)).
(** enforcer.cpp:595-597, 629-631, 655-657: a new evaluator holds none. *)
Definition own_functions (h : holder) : list fobj := match e_ev (h_e h) with Some _ => h_functions h | None => [] end.
(** enforcer.cpp:45-51: a disabled enforcer returns before it loads the functions. *)
Definition after_enforce (h : holder) : list fobj :=
  if e_enabled (h_e h) then loaded (e_model (h_e h)) (own_functions h) else own_functions h.

Section Memory.
  Variable o : oracle.

  (** enforcer.cpp:586-652 [EnforceExWithMatcher] for a positional request. *)
  Definition h_EnforceExWithMatcher (matcher : string) (params : list data) (h : holder) : holder * res (bool * list string) :=
    let (e', out) := EnforceExWithMatcher o matcher params (h_e h) in
    (mkHolder e'
       (match get_ast (e_model (h_e h)) "r" "r" with
        | Ok r =>
            if negb (Nat.eqb (List.length params) (List.length (a_tokens r))) then h_functions h
            else match push_r (own_evaluator (h_e h)) (a_tokens r) params with
                 | (_, Ok _) => after_enforce h
                 | _ => own_functions h
                 end
        | _ => h_functions h
        end), out).
  (** enforcer.cpp:653-672, for a map. *)
  Definition h_EnforceExWithMatcherMap (matcher : string) (params : list (string * data)) (h : holder) : holder * res (bool * list string) :=
    let (e', out) := EnforceExWithMatcherMap o matcher params (h_e h) in
    (mkHolder e'
       (match push_map (own_evaluator (h_e h)) params with
        | (_, Ok _) => after_enforce h
        | _ => own_functions h
        end), out).
End Memory.
