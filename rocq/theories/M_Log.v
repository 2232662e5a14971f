(** Model of logging: include/casbin/log, casbin/logger.cpp, Enforcer::EnableLog and the
    calls of LogPrint in m_enforce.  The other calls of the log in the code are commented out.

    The program has one logger, the static LogUtil::s_logger (logger.cpp:36), of which only
    the flag m_enable matters.  It is initially false (static storage). *)
From Verif Require Import Base M_Util M_RoleManager M_Effector M_Model M_Persist M_Eval M_Evaluator M_Enforcer S_History.

Definition logger := bool.

(** default_logger.h:14-19 [DefaultLogger::Print]: while enabled it calls itself with the same
    arguments; log_util.h:20-23 [LogPrint] calls it.  [depth] is how many calls the stack
    has room for. *)
Fixpoint LogPrint (depth : nat) (lg : logger) : res unit :=
  if lg then match depth with 0 => UB InfiniteRecursion | S d => LogPrint d lg end else Ok tt.

(** log_util.h:17 [GetLogger] returns a copy; log_util.h:14 [SetLogger]; default_logger.h:10
    [EnableLog] sets the flag of the logger it is called on. *)
Definition logger_enabled (lg : logger) (b : bool) : logger := b.

Section Log.
  Variables (o : oracle) (depth : nat) (lg : logger).

  (** enforcer.cpp:104-181: the rule is logged before anything else is done with it. *)
  Fixpoint rule_loop_log (h : heap) (has_eval : bool) (expr eft_expr : string) (toks : list string)
           (len : nat) (todo : list rule) (idx : nat) (effects : list effect) (matches : list bool)
           (last : res (effect * option nat)) (ev : evaluator)
    : evaluator * res (effect * option nat) :=
    match todo with
    | [] => (ev, last)
    | vals :: rest =>
        match LogPrint depth lg with
        | Ok _ =>
            match eval_rule o h has_eval expr toks ev vals with
            | (ev', Ok (b, eft)) =>
                let effects' := upd idx eft effects in
                let matches' := upd idx b matches in
                match MergeEffects eft_expr effects' matches' idx len with
                | Ok (Indeterminate, x) =>
                    rule_loop_log h has_eval expr eft_expr toks len rest (S idx) effects' matches'
                                  (Ok (Indeterminate, x)) ev'
                | Ok r => (ev', Ok r)
                | Throw t => (ev', Throw t)
                | UB u => (ev', UB u)
                end
            | (ev', Throw t) => (ev', Throw t)
            | (ev', UB u) => (ev', UB u)
            end
        | Throw t => (ev, Throw t)
        | UB u => (ev, UB u)
        end
    end.

  (** enforcer.cpp:42-236 [m_enforce], with the log of the results (183 and 218). *)
  Definition m_enforce_log (e : enforcer) (ev : evaluator) (matcher : string)
    : evaluator * res (bool * list string) :=
    if negb (e_enabled e) then (ev, Ok (true, []))
    else
      let m := e_model e in
      let ev1 := load_g_functions m (LoadFunctions ev) in
      let ready :=
        let! expr := (if String.eqb matcher "" then let! a := get_ast m "m" "m" in Ok (a_value a)
                      else Ok matcher) in
        let! r := get_ast m "r" "r" in
        let! p := get_ast m "p" "p" in
        let! rules := selected_policies m ev1 in
        Ok (expr, a_tokens p, rules) in
      match ready with
      | Throw t => (ev1, Throw t)
      | UB u => (ev1, UB u)
      | Ok (expr, toks, rules) =>
          let has_eval := HasEval expr in
          match rules with
          | _ :: _ =>
              match get_ast m "e" "e" with
              | Ok ea =>
                  let len := List.length rules in
                  let (ev2, out) :=
                    rule_loop_log (e_heap e) has_eval expr (a_value ea) toks len rules 0
                                  (repeat Indeterminate len) (repeat false len) (UB Uninitialised) ev1 in
                  (ev2, let! r := out in let! _ := LogPrint depth lg in Ok (decide rules r))
              | Throw t => (ev1, Throw t)
              | UB u => (ev1, UB u)
              end
          | [] =>
              if has_eval then (ev1, Throw CasbinEnforcer)
              else
                match push_p ev1 toks (map (fun _ => "") toks) with
                | (ev2, Ok _) =>
                    let (ev3, valid) := Eval o ev2 expr in
                    if negb valid then (ev3, Ok (false, []))
                    else
                      match value o (e_heap e) ev3 with
                      | Ok b =>
                          (ev3, let! ea := get_ast m "e" "e" in
                                let! r := MergeEffects (a_value ea)
                                                       [if b then Allow else Indeterminate] [true] 0 1 in
                                let! _ := LogPrint depth lg in
                                Ok (decide rules r))
                      | Throw t => (ev3, Throw t)
                      | UB u => (ev3, UB u)
                      end
                | (ev2, Throw t) => (ev2, Throw t)
                | (ev2, UB u) => (ev2, UB u)
                end
          end
      end.

  (** enforcer.cpp:586-652 [EnforceExWithMatcher] for a list or vector, 653-672 for a map,
      537-564 [EnforceWithMatcher], 686-693 [BatchEnforceWithMatcher]. *)
  Definition EnforceExWithMatcher_log (matcher : string) (params : list data) : M (bool * list string) :=
    fun e =>
      match get_ast (e_model e) "r" "r" with
      | Throw t => (e, Throw t)
      | UB u => (e, UB u)
      | Ok r =>
          if negb (Nat.eqb (List.length params) (List.length (a_tokens r))) then (e, Ok (false, []))
          else
            match push_r (own_evaluator e) (a_tokens r) params with
            | (ev1, Ok _) =>
                let (ev2, out) := m_enforce_log e ev1 matcher in (set_ev (Some ev2) e, out)
            | (ev1, Throw t) => (set_ev (Some ev1) e, Throw t)
            | (ev1, UB u) => (set_ev (Some ev1) e, UB u)
            end
      end.
  Definition EnforceExWithMatcherMap_log (matcher : string) (params : list (string * data))
    : M (bool * list string) :=
    fun e =>
      match push_map (own_evaluator e) params with
      | (ev1, Ok _) => let (ev2, out) := m_enforce_log e ev1 matcher in (set_ev (Some ev2) e, out)
      | (ev1, Throw t) => (set_ev (Some ev1) e, Throw t)
      | (ev1, UB u) => (set_ev (Some ev1) e, UB u)
      end.
  Definition EnforceWithMatcher_log (matcher : string) (params : list data) : M bool :=
    r <- EnforceExWithMatcher_log matcher params ;; ret (fst r).
  Definition EnforceWithMatcherMap_log (matcher : string) (params : list (string * data)) : M bool :=
    r <- EnforceExWithMatcherMap_log matcher params ;; ret (fst r).
  Fixpoint BatchEnforceWithMatcher_log (matcher : string) (reqs : list (list data)) : M (list bool) :=
    match reqs with
    | [] => ret []
    | q :: qs => b <- EnforceWithMatcher_log matcher q ;;
                 bs <- BatchEnforceWithMatcher_log matcher qs ;;
                 ret (b :: bs)
    end.

  (** rbac_api.cpp:227-247 [GetImplicitUsersForPermission]. *)
  Fixpoint allowed_subjects_log (perm : list string) (subjects : list string) : M (list string) :=
    match subjects with
    | [] => ret []
    | s :: ss =>
        p0 <- lift (vget perm 0) ;;
        p1 <- lift (vget perm 1) ;;
        ok <- EnforceWithMatcher_log "" [DStr s; DStr p0; DStr p1] ;;
        rest <- allowed_subjects_log perm ss ;;
        ret (if ok : bool then s :: rest else rest)
    end.
  Definition GetImplicitUsersForPermission_log (perm : list string) : M (list string) :=
    p_subjects <- GetAllSubjects ;;
    g_inherit <- all_types "g" 1 ;;
    g_subjects <- all_types "g" 0 ;;
    let subjects := ArrayRemoveDuplicates (p_subjects ++ g_subjects) in
    res <- allowed_subjects_log perm subjects ;;
    ret (SetSubtract res g_inherit).

  (** The calls of S_History.v; those that do not enforce do not log. *)
  Definition run_log (c : call) : M unit :=
    match c with
    | KGetImplicitUsers perm => drop_value (GetImplicitUsersForPermission_log perm)
    | KEnforce matcher params => drop_value (EnforceWithMatcher_log matcher params)
    | KEnforceMap matcher params => drop_value (EnforceWithMatcherMap_log matcher params)
    | KBatchEnforce matcher reqs => drop_value (BatchEnforceWithMatcher_log matcher reqs)
    | c => run o c
    end.
End Log.

(** An enforcer and the logger of the program. *)
Record world := mkWorld { w_enforcer : enforcer; w_logger : logger }.
Inductive lcall :=
| LCall (c : call)
| LEnableLog (b : bool)       (* Enforcer::EnableLog, also from the constructor (enforcer.cpp:308) *)
| LSetLogger (b : bool).      (* LogUtil::SetLogger with a logger on which EnableLog(b) was called *)

Definition lrun (o : oracle) (depth : nat) (c : lcall) (w : world) : world * res unit :=
  match c with
  | LCall c => let (e, out) := run_log o depth (w_logger w) c (w_enforcer w) in (mkWorld e (w_logger w), out)
  (* enforcer.cpp:485-487: m_log.GetLogger().EnableLog(enable), on the copy *)
  | LEnableLog b => let copy := logger_enabled (w_logger w) b in (w, Ok tt)
  | LSetLogger b => (mkWorld (w_enforcer w) b, Ok tt)
  end.

(** casbin/rbac/default_role_manager.cpp:277-290 [PrintRoles]: the text of the first role,
    also when there is none; the text is not printed. *)
Definition PrintRoles (r : role_manager) : res unit :=
  match all_roles r with [] => UB InvalidIterator | _ :: _ => Ok tt end.
