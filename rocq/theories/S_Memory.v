(** Vocabulary of property C99. *)
From Verif Require Import Base M_Memory.

(** A request, with its matcher ("" for the model's own): positional, or a map. *)
Inductive question := ByPosition (matcher : string) (params : list data) | ByName (matcher : string) (params : list (string * data)).
Definition ask1 (o : oracle) (q : question) (h : holder) : holder * res (bool * list string) :=
  match q with ByPosition m ps => h_EnforceExWithMatcher o m ps h | ByName m ps => h_EnforceExWithMatcherMap o m ps h end.

(** Asking a list of questions, whatever the answers are (an exception is one); undefined
    behaviour ends it. *)
Inductive asked (o : oracle) : holder -> list question -> holder -> Prop :=
| asked_nil : forall h, asked o h [] h
| asked_step : forall h q qs h1 out h2, ask1 o q h = (h1, out) -> (forall u, out <> UB u) -> asked o h1 qs h2 -> asked o h (q :: qs) h2.

(** How many variables, registered functions and function objects are kept. *)
Definition variables (h : holder) : nat := match e_ev (h_e h) with Some ev => List.length (ev_vars ev) | None => 0 end.
Definition registrations (h : holder) : nat := match e_ev (h_e h) with Some ev => List.length (ev_funs ev) | None => 0 end.
Definition objects (h : holder) : nat := match e_ev (h_e h) with Some _ => List.length (h_functions h) | None => 0 end.

(** The number of fields of requests and rules, and of role definitions, of a model. *)
Definition tokens_of (m : model) (sec : string) : list string := match get_ast m sec sec with Ok a => a_tokens a | _ => [] end.
Definition role_definitions (m : model) : nat := List.length (sec_of m "g").

(** The questions an enforcer looks at: by name, or by position with the right number of
    values. *)
Definition looked_at (m : model) (q : question) : Prop :=
  match q with ByPosition _ ps => List.length ps = List.length (tokens_of m "r") | ByName _ _ => True end.
Definition positional (q : question) : Prop := match q with ByPosition _ _ => True | ByName _ _ => False end.

Definition fresh (e : enforcer) : holder := mkHolder e [].
