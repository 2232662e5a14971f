(** Model of the symbol table of the default evaluator as it is: names are compared without
    regard to case.

    exprtk keeps its symbols in a std::map ordered by ilesscompare (exprtk.hpp:211-232, 19963),
    so that two names that differ only in case are one symbol, whose spelling is the one it was
    first added under.  (exprtk_disable_caseinsensitivity is defined nowhere in /repo.)  M_Evaluator
    keeps names apart that differ in case; [exprtk_ci] below is the same evaluator with the
    comparison of exprtk.  std::tolower is that of the "C" locale. *)
From Verif Require Import Base M_Util M_RoleManager M_Effector M_Model M_Persist M_Eval M_Evaluator M_Enforcer M_OwnEvaluator.

(** exprtk.hpp:182-188, 195-209: a name in lower case; are two names the same? *)
Fixpoint lower (s : string) : string :=
  match s with
  | EmptyString => EmptyString
  | String c s' => String (to_lower c) (lower s')
  end.
Definition same_name (x y : string) : bool := String.eqb (lower x) (lower y).

(** std::map with ilesscompare: lookup, assignment to the value of a key (which keeps the
    spelling it has), insertion of a key that is not there. *)
Section Alist.
  Context {V : Type}.
  Fixpoint i_get (k : string) (l : list (string * V)) : option V :=
    match l with
    | [] => None
    | (k', v) :: l' => if same_name k k' then Some v else i_get k l'
    end.
  Fixpoint i_set (k : string) (v : V) (l : list (string * V)) : list (string * V) :=
    match l with
    | [] => [(k, v)]
    | (k', v') :: l' => if same_name k k' then (k', v) :: l' else (k', v') :: i_set k v l'
    end.
  Definition i_has (k : string) (l : list (string * V)) : bool :=
    match i_get k l with Some _ => true | None => false end.
  Definition i_insert (k : string) (v : V) (l : list (string * V)) : list (string * V) :=
    if i_has k l then l else l ++ [(k, v)].
End Alist.

(** evaluator.cpp:56-60, 157-164: symbol_exists, add_stringvar and get_stringvar
    (exprtk.hpp:20798-20809, 21191-21213). *)
Definition PushObjectString_ci (ev : evaluator) (target prop var : string) : res evaluator :=
  let id := (target ++ "." ++ prop)%string in
  if valid_symbol id
  then Ok (mkEv (i_set id var (ev_vars ev)) (ev_funs ev) (ev_expr ev) (ev_bad ev) (ev_prog ev))
  else UB NullDeref.

(** evaluator.cpp:123-128; exprtk.hpp:20167-20177: a name already there is left as it is. *)
Definition AddFunction_ci (ev : evaluator) (name : string) (f : efun) : evaluator :=
  mkEv (ev_vars ev) (i_insert name f (ev_funs ev)) (ev_expr ev) (ev_bad ev) (ev_prog ev).

(** evaluator.cpp:67-77. *)
Definition LoadFunctions_ci (ev : evaluator) : evaluator :=
  fold_left (fun e n => AddFunction_ci e n FBuiltin) builtin_names ev.

(** What the compiler and the compiled expression find under a name. *)
Definition vars_of_ci (ev : evaluator) : var_env := fun x => i_get x (ev_vars ev).
Definition funs_of_ci (h : heap) (ev : evaluator) : fun_env :=
  fun f args => match i_get f (ev_funs ev) with
                | Some (FG rm _) => Some (call_g h rm args)
                | _ => None
                end.
Definition sig_vars_ci (ev : evaluator) : string -> bool := fun x => i_has x (ev_vars ev).
Definition sig_funs_ci (ev : evaluator) : string -> option nat :=
  fun f => match i_get f (ev_funs ev) with Some (FG _ n) => Some n | _ => None end.

(** evaluator.cpp:23-41. *)
Definition Eval_ci (o : oracle) (ev : evaluator) (expr : string) : evaluator * bool :=
  if String.eqb (ev_expr ev) expr then (ev, negb (ev_bad ev))
  else
    let ok := o_compiles o expr (sig_vars_ci ev) (sig_funs_ci ev) in
    (mkEv (ev_vars ev) (ev_funs ev) expr (negb ok) (if ok then Some expr else ev_prog ev), ok).
Definition value_ci (o : oracle) (h : heap) (ev : evaluator) : res bool :=
  match ev_prog ev with
  | None => Ok true
  | Some p => o_value o p (vars_of_ci ev) (funs_of_ci h ev)
  end.
Definition checked_value_ci (o : oracle) (h : heap) (ev : evaluator) : res bool :=
  if ev_bad ev then Throw ThrownString else value_ci o h ev.

(** evaluator.cpp:143-155: the names as they are spelled in the table (get_stringvar_list,
    exprtk.hpp:20312-20331), each with the value found under it. *)
Definition requestValues_ci (ev : evaluator) : list (string * string) :=
  flat_map (fun kv => match fst kv with
                      | String "r" (String _ tok) =>
                          [(tok, c_str (match i_get ("r." ++ tok)%string (ev_vars ev) with
                                        | Some v => v | None => "" end))]
                      | _ => []
                      end) (ev_vars ev).

(** The default evaluator (evaluator.cpp:23-164), as [exprtk] (M_OwnEvaluator). *)
Definition exprtk_ci (o : oracle) (float : evaluator -> bool) : ievaluator evaluator :=
  fun h A c => match c in ecall A return evaluator -> evaluator * res A with
  | CClearList => fun ev => (ev, Ok tt)
  | CLoadFunctions => fun ev => (LoadFunctions_ci ev, Ok tt)
  | CLoadGFunction rm name narg => fun ev => (AddFunction_ci ev name (FG rm narg), Ok tt)
  | CInitialObject _ => fun ev => (ev, Ok tt)
  | CPushString t p v => fun ev => match PushObjectString_ci ev t p v with
                                   | Ok ev' => (ev', Ok tt)
                                   | Throw x => (ev, Throw x)
                                   | UB u => (ev, UB u)
                                   end
  | CPushJson _ _ _ => fun ev => (ev, Ok tt)
  | CClean _ => fun ev => (ev, Ok tt)
  | CEval t => fun ev => (fst (Eval_ci o ev t), Ok (snd (Eval_ci o ev t)))
  | CCheckType => fun ev => (ev, let! b := checked_value_ci o h ev in Ok (if float ev then TyFloat else TyBool))
  | CGetBoolean => fun ev => (ev, value_ci o h ev)
  | CGetFloat => fun ev => (ev, value_ci o h ev)
  | CRequestValues => fun ev => (ev, Ok (requestValues_ci ev))
  end.

(** One call of EnforceEx with values in order or by name, and a sequence of them on the
    evaluator the enforcer keeps (enforcer.cpp:586-672). *)
Inductive request := InOrder (params : list odata) | ByName (params : list (string * odata)).
Definition enforce_once {St} (iv : ievaluator St) (e : enforcer) (q : string * request) : V St (bool * list string) :=
  match snd q with
  | InOrder ps => EnforceExWithMatcher_ev iv e (fst q) ps
  | ByName ps => EnforceExWithMatcherMap_ev iv e (fst q) ps
  end.
Fixpoint enforce_all {St} (iv : ievaluator St) (qs : list (enforcer * (string * request))) (st : St)
  : St * list (res (bool * list string)) :=
  match qs with
  | [] => (st, [])
  | (e, q) :: rest =>
      let (st1, a) := enforce_once iv e q st in
      let (st2, l) := enforce_all iv rest st1 in (st2, a :: l)
  end.
