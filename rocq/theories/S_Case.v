(** Specification of what the case of letters in names means to enforcement. *)
From Verif Require Import Base M_Util M_RoleManager M_Effector M_Model M_Persist M_Eval M_Evaluator M_Enforcer M_OwnEvaluator M_Case
  S_Enforce S_OwnEvaluator.

(** The letters in lower case and their capitals; other characters have no other case. *)
Inductive same_letter : ascii -> ascii -> Prop :=
| sl_same : forall c, same_letter c c
| sl_down : forall c d, is_upper c = true -> nat_of_ascii d = nat_of_ascii c + 32 -> same_letter c d
| sl_up : forall c d, is_upper d = true -> nat_of_ascii c = nat_of_ascii d + 32 -> same_letter c d.
Inductive same_but_case : string -> string -> Prop :=
| sbc_nil : same_but_case "" ""
| sbc_cons : forall c d s t, same_letter c d -> same_but_case s t -> same_but_case (String c s) (String d t).

(** No two of the names are the same but for the case of their letters. *)
Definition no_case_twins (names : list string) : Prop :=
  forall x y, In x names -> In y names -> same_but_case x y -> x = y.

(** The names under which expressions know the fields of requests and of rules. *)
Definition field_names (rf pf : list string) : list string :=
  map (fun f => ("r." ++ f)%string) rf ++ map (fun f => ("p." ++ f)%string) pf.

(** The names an enforcer and a request use: the fields of requests are among [rf], those of
    rules among [pf], the role definitions among [funs], the names in the request among [rf]. *)
Definition uses_names (rf pf funs : list string) (e : enforcer) (q : request) : Prop :=
  (forall a, get_ast (e_model e) "r" "r" = Ok a -> exists l, a_tokens a = map (fun f => ("r_" ++ f)%string) l /\ incl l rf) /\
  (forall a, get_ast (e_model e) "p" "p" = Ok a -> exists l, a_tokens a = map (fun f => ("p_" ++ f)%string) l /\ incl l pf) /\
  (forall n a, In (n, a) (sec_of (e_model e) "g") -> In n funs) /\
  match q with
  | InOrder _ => True
  | ByName ps => forall n v, In (n, v) ps -> In n rf
  end.

(** The spelling among [names] of a name, if it is one of them but for case. *)
Definition spelling (names : list string) (x : string) : string :=
  match find (same_name x) names with Some y => y | None => x end.

(** An expression library that reads the names in an expression as if they were written the
    way [vars] and [funs] are, and is otherwise [o]. *)
Definition respelt (vars funs : list string) (o : oracle) : oracle :=
  mkOracle (fun t v f => o_compiles o t (fun x => v (spelling vars x)) (fun x => f (spelling funs x)))
           (fun t v f => o_value o t (fun x => v (spelling vars x)) (fun x => f (spelling funs x))).

(** The evaluator has met no names but those. *)
Definition knows_only (vars funs : list string) (ev : evaluator) : Prop :=
  (forall x v, In (x, v) (ev_vars ev) -> In x vars) /\ (forall f k, In (f, k) (ev_funs ev) -> In f funs).

(** Two requests by name that differ in the case of the names; two requests of either form that
    differ in nothing else. *)
Definition recased (q1 q2 : list (string * odata)) : Prop :=
  Forall2 (fun a b => same_but_case (fst a) (fst b) /\ snd a = snd b) q1 q2.
Definition request_alike (q1 q2 : request) : Prop :=
  match q1, q2 with
  | InOrder a, InOrder b => a = b
  | ByName a, ByName b => recased a b
  | _, _ => False
  end.

(** The evaluator knows fields of requests and rules, and [f] under another spelling only. *)
Definition misled (f : string) (ev : evaluator) : Prop :=
  (forall k v, In (k, v) (ev_vars ev) -> exists n, k = ("r." ++ n)%string \/ k = ("p." ++ n)%string) /\
  (exists k v, In (k, v) (ev_vars ev) /\ same_but_case k ("r." ++ f)) /\
  (forall v, ~ In (("r." ++ f)%string, v) (ev_vars ev)).

(** The evaluator knows fields of requests and rules, none under two spellings. *)
Definition one_spelling (ev : evaluator) : Prop :=
  (forall k v, In (k, v) (ev_vars ev) -> exists n, k = ("r." ++ n)%string \/ k = ("p." ++ n)%string) /\
  (forall k v k' v', In (k, v) (ev_vars ev) -> In (k', v') (ev_vars ev) -> same_but_case k k' -> k = k').
