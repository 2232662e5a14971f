(** Model of enforcement with an effector of the caller (enforcer.cpp:416-419 [SetEffector]).

    An effector has a state of its own (of any type [St]) and is otherwise a function of the
    arguments of MergeEffects (include/casbin/effect/effector.h:46): the effect text, the
    effects, the matches, the index and the number of rules, and the explain index, which it
    may read and set.  The explain index is [None] while the variable is uninitialised.
    Simplification: an effector cannot call the enforcer. *)
From Coq Require Import ZArith.
From Verif Require Import Base M_Util M_RoleManager M_Effector M_Model M_Persist M_Eval M_Evaluator M_Enforcer.

Definition effector (St : Type) : Type :=
  St -> string -> list effect -> list bool -> nat -> nat -> option Z -> St * res (effect * option Z).

(** The default effector (default_effector.cpp:30-110), which has no state and sets the
    explain index in every call. *)
Definition default_effector : effector unit :=
  fun st expr effects matches idx len _ =>
    (st, let! r := MergeEffects expr effects matches idx len in
         Ok (fst r, Some (match snd r with Some i => Z.of_nat i | None => (-1)%Z end))).

Section Own.
  Variables (o : oracle) (St : Type) (eff : effector St).

  (** enforcer.cpp:104-181, the loop over the rules. *)
  Fixpoint rule_loop_own (h : heap) (has_eval : bool) (expr eft_expr : string) (toks : list string)
           (len : nat) (todo : list rule) (idx : nat) (effects : list effect) (matches : list bool)
           (st : St) (last : res effect) (x : option Z) (ev : evaluator)
    : evaluator * St * res (effect * option Z) :=
    match todo with
    | [] => (ev, st, let! r := last in Ok (r, x))
    | vals :: rest =>
        match eval_rule o h has_eval expr toks ev vals with
        | (ev', Ok (b, eft)) =>
            let effects' := upd idx eft effects in
            let matches' := upd idx b matches in
            match eff st eft_expr effects' matches' idx len x with
            | (st', Ok (Indeterminate, x')) =>
                rule_loop_own h has_eval expr eft_expr toks len rest (S idx) effects' matches'
                              st' (Ok Indeterminate) x' ev'
            | (st', Ok r) => (ev', st', Ok r)
            | (st', Throw t) => (ev', st', Throw t)
            | (st', UB u) => (ev', st', UB u)
            end
        | (ev', Throw t) => (ev', st, Throw t)
        | (ev', UB u) => (ev', st, UB u)
        end
    end.

  (** enforcer.cpp:221-235: decision and explanation.  The explain index is read in any
      case; a negative index is converted to a large unsigned one, so it selects no rule. *)
  Definition decide_own (rules : list rule) (r : effect * option Z) : res (bool * list string) :=
    match snd r with
    | None => UB Uninitialised
    | Some i => Ok (effect_eqb (fst r) Allow,
                    if Z.ltb i 0 then [] else match nth_error rules (Z.to_nat i) with Some x => x | None => [] end)
    end.

  (** enforcer.cpp:42-236 [m_enforce]. *)
  Definition m_enforce_own (e : enforcer) (ev : evaluator) (st : St) (matcher : string)
    : evaluator * St * res (bool * list string) :=
    if negb (e_enabled e) then (ev, st, Ok (true, []))
    else
      let m := e_model e in
      let ev1 := load_g_functions m (LoadFunctions ev) in
      let ready :=
        let! expr := (if String.eqb matcher "" then let! a := get_ast m "m" "m" in Ok (a_value a)
                      else Ok matcher) in
        let! r := get_ast m "r" "r" in
        let! p := get_ast m "p" "p" in
        let! rules := selected_policies m ev1 in
        Ok (expr, a_tokens p, rules) in
      match ready with
      | Throw t => (ev1, st, Throw t)
      | UB u => (ev1, st, UB u)
      | Ok (expr, toks, rules) =>
          let has_eval := HasEval expr in
          match rules with
          | _ :: _ =>
              match get_ast m "e" "e" with
              | Ok ea =>
                  let len := List.length rules in
                  let '(ev2, st', out) :=
                    rule_loop_own (e_heap e) has_eval expr (a_value ea) toks len rules 0
                                  (repeat Indeterminate len) (repeat false len) st (UB Uninitialised) None ev1 in
                  (ev2, st', let! r := out in decide_own rules r)
              | Throw t => (ev1, st, Throw t)
              | UB u => (ev1, st, UB u)
              end
          | [] =>
              if has_eval then (ev1, st, Throw CasbinEnforcer)
              else
                match push_p ev1 toks (map (fun _ => "") toks) with
                | (ev2, Ok _) =>
                    let (ev3, valid) := Eval o ev2 expr in
                    if negb valid then (ev3, st, Ok (false, []))
                    else
                      match value o (e_heap e) ev3 with
                      | Ok b =>
                          match get_ast m "e" "e" with
                          | Ok ea =>
                              let (st', out) := eff st (a_value ea) [if b then Allow else Indeterminate] [true] 0 1 None in
                              (ev3, st', let! r := out in decide_own rules r)
                          | Throw t => (ev3, st, Throw t)
                          | UB u => (ev3, st, UB u)
                          end
                      | Throw t => (ev3, st, Throw t)
                      | UB u => (ev3, st, UB u)
                      end
                | (ev2, Throw t) => (ev2, st, Throw t)
                | (ev2, UB u) => (ev2, st, UB u)
                end
          end
      end.

  (** enforcer.cpp:586-617 and 619-652 [EnforceExWithMatcher]: the enforcer, the state of the
      effector, and the outcome. *)
  Definition EnforceExWithMatcher_own (matcher : string) (params : list data) (e : enforcer) (st : St)
    : enforcer * St * res (bool * list string) :=
    match get_ast (e_model e) "r" "r" with
    | Throw t => (e, st, Throw t)
    | UB u => (e, st, UB u)
    | Ok r =>
        if negb (Nat.eqb (List.length params) (List.length (a_tokens r))) then (e, st, Ok (false, []))
        else
          match push_r (own_evaluator e) (a_tokens r) params with
          | (ev1, Ok _) =>
              let '(ev2, st', out) := m_enforce_own e ev1 st matcher in (set_ev (Some ev2) e, st', out)
          | (ev1, Throw t) => (set_ev (Some ev1) e, st, Throw t)
          | (ev1, UB u) => (set_ev (Some ev1) e, st, UB u)
          end
    end.
End Own.
