(** Model of enforcement with an evaluator of the caller: the forms of Enforce that take an
    evaluator, and the others after SetEvaluator (enforcer.cpp:411-413).

    The calls the enforcer makes on an evaluator are those of [ecall], each with the type of
    its result (include/casbin/model/evaluator.h:33-62).  An evaluator has a state of its own
    (of any type [St]); a call gives a new state and a result, or throws.  It may look at the
    role managers, whose pointers it is given.
    Simplifications: an evaluator cannot call the enforcer and does not change the role
    managers; a JSON value is represented by a text; the float result is represented by
    whether it differs from 0, which is all the enforcer asks (enforcer.cpp:151-153); the
    section given to Clean is dropped. *)
From Verif Require Import Base M_Util M_RoleManager M_Effector M_Model M_Persist M_Eval M_Evaluator M_Enforcer.

(** include/casbin/model/evaluator.h:31: Bool, Float, and any other value of the enumeration. *)
Inductive etype := TyBool | TyFloat | TyOther.

Inductive ecall : Type -> Type :=
| CClearList : ecall unit                                   (* func_list.clear() *)
| CLoadFunctions : ecall unit
| CLoadGFunction (rm : option nat) (name : string) (narg : nat) : ecall unit
| CInitialObject (target : string) : ecall unit
| CPushString (target prop var : string) : ecall unit
| CPushJson (target prop json : string) : ecall unit
| CClean (after_enforce : bool) : ecall unit
| CEval (text : string) : ecall bool
| CCheckType : ecall etype
| CGetBoolean : ecall bool
| CGetFloat : ecall bool                                    (* GetFloat() != 0.0 *)
| CRequestValues : ecall (list (string * string)).

Definition ievaluator (St : Type) : Type := heap -> forall A, ecall A -> St -> St * res A.

(** The ExprtkEvaluator (evaluator.cpp:23-164).  [float] says when the value of the expression
    is neither 0 nor 1 (evaluator.cpp:91-95); the theorems are for any [float]. *)
Definition exprtk (o : oracle) (float : evaluator -> bool) : ievaluator evaluator :=
  fun h A c => match c in ecall A return evaluator -> evaluator * res A with
  | CClearList => fun ev => (ev, Ok tt)
  | CLoadFunctions => fun ev => (LoadFunctions ev, Ok tt)
  | CLoadGFunction rm name narg => fun ev => (LoadGFunction ev rm name narg, Ok tt)
  | CInitialObject _ => fun ev => (ev, Ok tt)
  | CPushString t p v => fun ev => match PushObjectString ev t p v with
                                   | Ok ev' => (ev', Ok tt)
                                   | Throw x => (ev, Throw x)
                                   | UB u => (ev, UB u)
                                   end
  | CPushJson _ _ _ => fun ev => (ev, Ok tt)
  | CClean _ => fun ev => (ev, Ok tt)        (* the enforcer passes false only *)
  | CEval t => fun ev => (fst (Eval o ev t), Ok (snd (Eval o ev t)))
  | CCheckType => fun ev => (ev, let! b := checked_value o h ev in Ok (if float ev then TyFloat else TyBool))
  | CGetBoolean => fun ev => (ev, value o h ev)
  | CGetFloat => fun ev => (ev, value o h ev)
  | CRequestValues => fun ev => (ev, Ok (requestValues ev))
  end.

(** One call after the other. *)
Definition V (St A : Type) : Type := St -> St * res A.
Definition vret {St A} (a : A) : V St A := fun st => (st, Ok a).
Definition vlift {St A} (r : res A) : V St A := fun st => (st, r).
Definition vbind {St A B} (x : V St A) (f : A -> V St B) : V St B :=
  fun st => match x st with
            | (st', Ok a) => f a st'
            | (st', Throw t) => (st', Throw t)
            | (st', UB u) => (st', UB u)
            end.
Notation "x <~ c ;; k" := (vbind c (fun x => k)) (at level 61, c at next level, right associativity).
Notation "c1 ;~ c2" := (vbind c1 (fun _ => c2)) (at level 61, right associativity).

Section Own.
  Context {St : Type}.
  Variables (iv : ievaluator St) (h : heap).
  Notation call c := (iv h _ c).

  (** enforcer.cpp:56-63. *)
  Fixpoint load_g_ev (g : assertion_map) : V St unit :=
    match g with
    | [] => vret tt
    | (name, a) :: rest => call (CLoadGFunction (a_rm a) name (scount "_" (a_value a))) ;~ load_g_ev rest
    end.

  (** enforcer.cpp:114-118. *)
  Fixpoint push_p_ev (toks : list string) (vals : rule) : V St unit :=
    match toks, vals with
    | t :: ts, v :: vs => call (CPushString "p" (p_token_name t) v) ;~ push_p_ev ts vs
    | _, _ => vret tt
    end.

  (** enforcer.cpp:105-172.  CheckType is called a second time when its first answer is not
      Bool (:145, :150). *)
  Definition eval_rule_ev (has_eval : bool) (expr : string) (toks : list string) (vals : rule) : V St (bool * effect) :=
    if negb (Nat.eqb (List.length toks) (List.length vals)) then vlift (Throw CasbinEnforcer)
    else
      call (CClean false) ;~ call (CInitialObject "p") ;~ push_p_ev toks vals ;~
      text <~ vlift (rule_expression has_eval expr toks vals) ;;
      call (CEval text) ;~
      t <~ call CCheckType ;;
      b <~ (match t with
            | TyBool => call CGetBoolean
            | _ => t' <~ call CCheckType ;;
                   match t' with TyFloat => call CGetFloat | _ => vlift (Throw CasbinEnforcer) end
            end) ;;
      eft <~ vlift (rule_effect toks vals) ;;
      vret (b, eft).

  (** enforcer.cpp:104-181. *)
  Fixpoint rule_loop_ev (has_eval : bool) (expr eft_expr : string) (toks : list string)
           (len : nat) (todo : list rule) (idx : nat) (effects : list effect) (matches : list bool)
           (last : res (effect * option nat)) : V St (effect * option nat) :=
    match todo with
    | [] => vlift last
    | vals :: rest =>
        r <~ eval_rule_ev has_eval expr toks vals ;;
        let effects' := upd idx (snd r) effects in
        let matches' := upd idx (fst r) matches in
        m <~ vlift (MergeEffects eft_expr effects' matches' idx len) ;;
        match fst m with
        | Indeterminate => rule_loop_ev has_eval expr eft_expr toks len rest (S idx) effects' matches' (Ok m)
        | _ => vret m
        end
    end.

  (** casbin/selected_policies.cpp:45-54. *)
  Definition selected_policies_ev (m : model) : V St (list rule) :=
    p <~ vlift (get_ast m "p" "p") ;;
    match a_policy p with
    | Vec l => vret l
    | Hash l =>
        r <~ vlift (get_ast m "r" "r") ;;
        vals <~ call CRequestValues ;;
        req <~ vlift (requested_policy vals (a_tokens r)) ;;
        vret (match store_find (a_policy p) req with Some x => [x] | None => [] end)
    end.
End Own.

Section Enforce.
  Context {St : Type}.
  Variable iv : ievaluator St.

  (** enforcer.cpp:42-236 [m_enforce]; enforcer.cpp:582-584 [EnforceExWithMatcher] for an
      evaluator is this function. *)
  Definition m_enforce_ev (e : enforcer) (matcher : string) : V St (bool * list string) :=
    if negb (e_enabled e) then vret (true, [])
    else
      let m := e_model e in
      let h := e_heap e in
      iv h _ CClearList ;~ iv h _ CLoadFunctions ;~ load_g_ev iv h (sec_of m "g") ;~
      expr <~ vlift (if String.eqb matcher "" then let! a := get_ast m "m" "m" in Ok (a_value a) else Ok matcher) ;;
      r <~ vlift (get_ast m "r" "r") ;;
      p <~ vlift (get_ast m "p" "p") ;;
      rules <~ selected_policies_ev iv h m ;;
      let toks := a_tokens p in
      let has_eval := HasEval expr in
      match rules with
      | _ :: _ =>
          ea <~ vlift (get_ast m "e" "e") ;;
          let len := List.length rules in
          d <~ rule_loop_ev iv h has_eval expr (a_value ea) toks len rules 0
                            (repeat Indeterminate len) (repeat false len) (UB Uninitialised) ;;
          vret (decide rules d)
      | [] =>
          if has_eval then vlift (Throw CasbinEnforcer)
          else
            iv h _ (CClean false) ;~ iv h _ (CInitialObject "p") ;~
            push_p_ev iv h toks (map (fun _ => "") toks) ;~
            valid <~ iv h _ (CEval expr) ;;
            if negb valid then vret (false, [])
            else
              b <~ iv h _ CGetBoolean ;;
              ea <~ vlift (get_ast m "e" "e") ;;
              d <~ vlift (MergeEffects (a_value ea) [if b then Allow else Indeterminate] [true] 0 1) ;;
              vret (decide rules d)
      end.

  (** enforcer.cpp:518-520, 539-543 [Enforce], [EnforceWithMatcher] for an evaluator. *)
  Definition EnforceWithMatcher_ev (e : enforcer) (matcher : string) : V St bool :=
    r <~ m_enforce_ev e matcher ;; vret (fst r).
  Definition Enforce_ev (e : enforcer) : V St bool := EnforceWithMatcher_ev e "".

  (** A request value, a JSON object being represented by its text. *)
  Inductive odata := OStr (s : string) | OJson (s : string).

  (** enforcer.cpp:603-612, 636-647. *)
  Fixpoint push_r_ev (h : heap) (toks : list string) (params : list odata) : V St unit :=
    match toks, params with
    | t :: ts, OStr s :: ps => iv h _ (CPushString "r" (sdrop 2 t) s) ;~ push_r_ev h ts ps
    | t :: ts, OJson j :: ps => iv h _ (CPushJson "r" (sdrop 2 t) j) ;~ push_r_ev h ts ps
    | _, _ => vret tt
    end.

  (** enforcer.cpp:660-667. *)
  Fixpoint push_map_ev (h : heap) (params : list (string * odata)) : V St unit :=
    match params with
    | [] => vret tt
    | (n, OStr s) :: ps => iv h _ (CPushString "r" n s) ;~ push_map_ev h ps
    | (n, OJson j) :: ps => iv h _ (CPushJson "r" n j) ;~ push_map_ev h ps
    end.

  (** enforcer.cpp:586-617 and 619-652 [EnforceExWithMatcher], the evaluator of the enforcer
      being the caller's. *)
  Definition EnforceExWithMatcher_ev (e : enforcer) (matcher : string) (params : list odata)
    : V St (bool * list string) :=
    r <~ vlift (get_ast (e_model e) "r" "r") ;;
    if negb (Nat.eqb (List.length params) (List.length (a_tokens r))) then vret (false, [])
    else
      iv (e_heap e) _ (CInitialObject "r") ;~ push_r_ev (e_heap e) (a_tokens r) params ;~
      m_enforce_ev e matcher.

  (** enforcer.cpp:653-672 [EnforceExWithMatcher] for a map. *)
  Definition EnforceExWithMatcherMap_ev (e : enforcer) (matcher : string) (params : list (string * odata))
    : V St (bool * list string) :=
    iv (e_heap e) _ (CInitialObject "r") ;~ push_map_ev (e_heap e) params ;~ m_enforce_ev e matcher.
End Enforce.

(** The default evaluator drops JSON values. *)
Definition plain (d : odata) : data := match d with OStr s => DStr s | OJson _ => DJson end.
