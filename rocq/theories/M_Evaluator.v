(** Model of casbin/model/evaluator.cpp and include/casbin/model/exprtk_config.h.

    The exprtk library itself is external.  Its compiler and its interpreter are
    the two functions of [oracle] below, about which the theorems assume nothing
    unless they say so. *)
From Verif Require Import Base M_Util M_RoleManager M_Model M_Eval.

(** A registered function: one of the built-in ones, or a role function with its
    role manager (an address, [None] for a null pointer) and its number of
    arguments (exprtk_config.h:35-60, evaluator.cpp:67-82). *)
Inductive efun := FBuiltin | FG (rm : option nat) (narg : nat).

(** The state of an ExprtkEvaluator object (include/casbin/model/evaluator.h):
    string variables and functions of symbol_table, expression_string_,
    parser.error_count() <> 0, and the text whose compilation [expression] holds
    ([None] is the initial null expression). *)
Record evaluator := mkEv {
  ev_vars : list (string * string);
  ev_funs : list (string * efun);
  ev_expr : string;
  ev_bad : bool;
  ev_prog : option string }.

Definition new_evaluator : evaluator := mkEv [] [] "" false None.

(** exprtk.hpp:21413-21440 [valid_symbol]: a letter followed by letters, digits,
    underscores and dots, the last character not being a dot.  (No reserved word
    contains a dot, and every identifier used has the form r.x or p.x.) *)
Fixpoint symbol_rest (s : string) : bool :=
  match s with
  | EmptyString => true
  | String c s' =>
      (is_word c || (Ascii.eqb c "." && negb (String.eqb s' ""))) && symbol_rest s'
  end.
Definition valid_symbol (s : string) : bool :=
  match s with
  | EmptyString => false
  | String c s' => (is_lower c || is_upper c) && symbol_rest s'
  end.

(** evaluator.cpp:158-164 [AddIdentifier] (through evaluator.cpp:56-60
    [PushObjectString]).  add_stringvar refuses an invalid name, then get_stringvar
    returns a null pointer that is dereferenced.  Simplification: exprtk compares
    symbol names without regard to case and this model exactly.  M_Case.v has the comparison of
    exprtk; C109_same_partial (T_Case.v) shows that nothing changes when no two names differ in
    case only, and the other theorems there what happens when they do. *)
Definition PushObjectString (ev : evaluator) (target prop var : string) : res evaluator :=
  let id := (target ++ "." ++ prop)%string in
  if valid_symbol id
  then Ok (mkEv (aset id var (ev_vars ev)) (ev_funs ev) (ev_expr ev) (ev_bad ev) (ev_prog ev))
  else UB NullDeref.

(** evaluator.cpp:123-128 [AddFunction]; exprtk.hpp:20798-20860: add_function refuses
    a name that is already registered, so the first registration stays. *)
Definition AddFunction (ev : evaluator) (name : string) (f : efun) : evaluator :=
  mkEv (ev_vars ev) (ainsert name f (ev_funs ev)) (ev_expr ev) (ev_bad ev) (ev_prog ev).

(** evaluator.cpp:67-77 [LoadFunctions]. *)
Definition builtin_names : list string :=
  ["keyMatch"; "keyMatch2"; "keyMatch3"; "keyMatch4"; "regexMatch"; "ipMatch";
   "keyGet"; "keyGet2"; "keyGet3"].
Definition LoadFunctions (ev : evaluator) : evaluator :=
  fold_left (fun e n => AddFunction e n FBuiltin) builtin_names ev.

(** evaluator.cpp:79-82 [LoadGFunction]. *)
Definition LoadGFunction (ev : evaluator) (rm : option nat) (name : string) (narg : nat) : evaluator :=
  AddFunction ev name (FG rm narg).

(** exprtk_config.h:58-94, a call of a role function with string arguments.
    Simplification: HasLink's only effect on the manager (creating roles for a
    matching function) is dropped; C81_questions_leave_no_trace (T_Pattern.v) shows when
    this changes no answer.  See DESIGN.md. *)
Definition call_g (h : heap) (rm : option nat) (args : list string) : res bool :=
  match args with
  | [n1; n2] =>
      match rm with
      | None => Ok (String.eqb n1 n2)
      | Some i => let! r := hget h i in snd (HasLink r n1 n2 [])
      end
  | [n1; n2; d] =>
      match rm with
      | None => Ok (String.eqb n1 n2)
      | Some i => let! r := hget h i in snd (HasLink r n1 n2 [d])
      end
  | _ => Ok false
  end.

(** What a compiled expression can see when it is evaluated: variables and role
    functions. *)
Definition var_env := string -> option string.
Definition fun_env := string -> list string -> option (res bool).

Definition vars_of (ev : evaluator) : var_env := fun x => aget x (ev_vars ev).
Definition funs_of (h : heap) (ev : evaluator) : fun_env :=
  fun f args => match aget f (ev_funs ev) with
                | Some (FG rm _) => Some (call_g h rm args)
                | _ => None
                end.

(** What the compiler can see: which variables exist, and the arity of the role
    functions. *)
Definition sig_vars (ev : evaluator) : string -> bool := fun x => ahas x (ev_vars ev).
Definition sig_funs (ev : evaluator) : string -> option nat :=
  fun f => match aget f (ev_funs ev) with Some (FG _ n) => Some n | _ => None end.

(** The external library: does a text compile, and is the value of a compiled text
    different from 0 (or does its evaluation throw). *)
Record oracle := mkOracle {
  o_compiles : string -> (string -> bool) -> (string -> option nat) -> bool;
  o_value : string -> var_env -> fun_env -> res bool }.

(** evaluator.cpp:23-41 [Eval]: compiles only when the text differs from the previous
    one; otherwise reports whether the last compilation had errors.  The replacements in the
    text (lines 30-35) are part of the [oracle] here; M_Rewrite.v models them (C111). *)
Definition Eval (o : oracle) (ev : evaluator) (expr : string) : evaluator * bool :=
  if String.eqb (ev_expr ev) expr then (ev, negb (ev_bad ev))
  else
    let ok := o_compiles o expr (sig_vars ev) (sig_funs ev) in
    (mkEv (ev_vars ev) (ev_funs ev) expr (negb ok) (if ok then Some expr else ev_prog ev), ok).

(** The value of [expression] (different from 0?).  The initial expression has the
    value NaN, which differs from 0 (exprtk.hpp:6595-6602, 21635). *)
Definition value (o : oracle) (h : heap) (ev : evaluator) : res bool :=
  match ev_prog ev with
  | None => Ok true
  | Some p => o_value o p (vars_of ev) (funs_of h ev)
  end.

(** evaluator.cpp:87-109 as used by enforcer.cpp:145-158: CheckType throws
    parser.error() (a std::string) after a failed compilation; otherwise the rule
    matches when the value, bool or float, is not 0. *)
Definition checked_value (o : oracle) (h : heap) (ev : evaluator) : res bool :=
  if ev_bad ev then Throw ThrownString else value o h ev.

(** A C string ends at the first NUL. *)
Fixpoint c_str (s : string) : string :=
  match s with
  | EmptyString => EmptyString
  | String c s' => if Ascii.eqb c "000" then EmptyString else String c (c_str s')
  end.

(** evaluator.cpp:143-155 [requestValues]: the variables whose name starts with r. *)
Definition requestValues (ev : evaluator) : list (string * string) :=
  flat_map (fun kv => match fst kv with
                      | String "r" (String _ tok) =>
                          [(tok, c_str (match aget ("r." ++ tok)%string (ev_vars ev) with
                                        | Some v => v | None => "" end))]
                      | _ => []
                      end) (ev_vars ev).
