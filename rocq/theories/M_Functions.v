(** Model of the functions that matchers can call by name: evaluator.cpp:67-77
    [LoadFunctions], the function objects of include/casbin/model/exprtk_config.h and the
    functions of casbin/util/built_in_functions.cpp behind them.

    [M_Evaluator.v] hands role functions to the expression library; here the library is
    wrapped so that it sees the built-in functions as well.  keyGet, keyGet2 and keyGet3
    return texts, not truth values: what a matcher does with them stays with the library. *)
From Verif Require Import Base M_Util M_RoleManager M_Model M_Eval M_Evaluator M_BuiltIn M_Ip M_Regex.
Close Scope N_scope.

Section Functions.
  (** std::regex outside the modelled expressions; plain char signed or not. *)
  Variable other_match : string -> string -> res (option (list string)).
  Variable signed : bool.

  (** built_in_functions.cpp:208-211 [RegexMatch] on a text as it is written (in M_BuiltIn.v
      the text always comes with "^" and "$" around it). *)
  Definition regexMatch (key pattern : string) : res bool :=
    match regex_member key pattern with
    | Some b => Ok b
    | None => let! g := other_match key pattern in Ok (match g with Some _ => true | None => false end)
    end.

  (** evaluator.cpp:68-73 and exprtk_config.h:267-284: which function answers to which name. *)
  Definition match_function (name : string) : option (string -> string -> res bool) :=
    if String.eqb name "keyMatch" then Some (fun a b => Ok (KeyMatch a b))
    else if String.eqb name "keyMatch2" then Some (KeyMatch2 other_match)
    else if String.eqb name "keyMatch3" then Some (KeyMatch3 other_match)
    else if String.eqb name "keyMatch4" then Some (KeyMatch4 other_match)
    else if String.eqb name "regexMatch" then Some regexMatch
    else if String.eqb name "ipMatch" then Some (IPMatch signed)
    else None.

  (** exprtk_config.h:114-143 [ExprtkMatchFunction::operator()]: false unless there are two
      arguments (the arguments are strings: the function is registered with "SS"). *)
  Definition builtin_call (name : string) (args : list string) : option (res bool) :=
    match match_function name with
    | None => None
    | Some f => Some (match args with [a; b] => f a b | _ => Ok false end)
    end.
  (** evaluator.cpp:68-73: they are registered with two arguments. *)
  Definition builtin_arity (name : string) : option nat :=
    match match_function name with None => None | Some _ => Some 2%nat end.

  (** The library with these functions.  They are registered before the role functions
      (enforcer.cpp:53-61), and a name that is taken is refused (exprtk.hpp:20798-20860),
      so they come first. *)
  Definition with_builtins (o : oracle) : oracle :=
    mkOracle
      (fun text vars funs => o_compiles o text vars (fun f => match builtin_arity f with Some n => Some n | None => funs f end))
      (fun text v g => o_value o text v (fun f args => match builtin_call f args with Some r => Some r | None => g f args end)).
End Functions.
