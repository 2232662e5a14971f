(** Specification of enforcement in terms of the declared fields, the stored rules,
    the role links and the request, without any evaluator state. *)
From Verif Require Import Base M_Util M_RoleManager M_Effector M_Model M_Persist M_Eval M_Evaluator M_Enforcer S_Effect.

(** ** Models

    [declares m rf pf eft mat]: the model has request fields [rf], policy fields
    [pf], effect text [eft] and matcher text [mat]; field names are distinct and
    acceptable to the expression library, and no role definition has the name of a
    built-in function. *)
Record declares (m : model) (rf pf : list string) (eft mat : string) : Prop := mkDecl {
  d_r : exists a, get_ast m "r" "r" = Ok a /\ a_tokens a = map (fun f => ("r_" ++ f)%string) rf;
  d_p : exists a, get_ast m "p" "p" = Ok a /\ a_tokens a = map (fun f => ("p_" ++ f)%string) pf;
  d_e : exists a, get_ast m "e" "e" = Ok a /\ a_value a = eft;
  d_m : exists a, get_ast m "m" "m" = Ok a /\ a_value a = mat;
  d_rf : NoDup rf;
  d_pf : NoDup pf;
  d_sym_r : forall f, In f rf -> valid_symbol ("r." ++ f)%string = true;
  d_sym_p : forall f, In f pf -> valid_symbol ("p." ++ f)%string = true;
  d_g : forall f, In f builtin_names -> aget f (sec_of m "g") = None }.

(** The stored rules of type p, and the rules consulted for a request: all of them,
    or, with the hash index, the rule equal to the request (whose values are read as
    C strings). *)
Definition p_rules (m : model) : list rule :=
  match get_ast m "p" "p" with Ok a => rules_of (a_policy a) | _ => [] end.
Definition p_indexed (m : model) : bool :=
  match get_ast m "p" "p" with Ok a => is_hash (a_policy a) | _ => false end.
Definition candidates (m : model) (req : list string) : list rule :=
  if p_indexed m
  then if existsb (rule_eqb (map c_str req)) (p_rules m) then [map c_str req] else []
  else p_rules m.

(** ** What a matcher can refer to *)

(** Names r.x and p.x. *)
Definition r_names (rf : list string) : list string := map (fun f => ("r." ++ f)%string) rf.
Definition p_names (pf : list string) : list string := map (fun f => ("p." ++ f)%string) pf.

(** The values of r.x and p.x for a request and a rule. *)
Definition env (rf req pf vals : list string) : var_env :=
  fun x => aget x (combine (r_names rf) req ++ combine (p_names pf) vals).

(** The role functions: g(a, b) or g(a, b, domain) asks the role manager. *)
Definition role_fun (m : model) (h : heap) : fun_env :=
  fun f args => match aget f (sec_of m "g") with
                | Some a => Some (call_g h (a_rm a) args)
                | None => None
                end.
Definition role_arity (m : model) : string -> option nat :=
  fun f => match aget f (sec_of m "g") with Some a => Some (scount "_" (a_value a)) | None => None end.
Definition known_vars (rf pf : list string) : string -> bool :=
  fun x => inb x (r_names rf ++ p_names pf).

(** The expression library is a function of what it can look up. *)
Definition oracle_ext (o : oracle) : Prop :=
  (forall t v1 v2 f1 f2, (forall x, v1 x = v2 x) -> (forall f, f1 f = f2 f) ->
     o_compiles o t v1 f1 = o_compiles o t v2 f2) /\
  (forall t v1 v2 g1 g2, (forall x, v1 x = v2 x) -> (forall f args, g1 f args = g2 f args) ->
     o_value o t v1 g1 = o_value o t v2 g2).

(** ** The result of a rule *)

(** The matcher text for a rule (eval(...) replaced by the rule's text). *)
Definition matcher_text (expr : string) (pf vals : list string) : res string :=
  rule_expression (HasEval expr) expr (map (fun f => ("p_" ++ f)%string) pf) vals.

(** Does the matcher hold for request [req] and rule [vals]? *)
Definition verdict (o : oracle) (m : model) (h : heap) (rf pf : list string) (expr : string)
           (req vals : list string) : res bool :=
  if negb (Nat.eqb (List.length pf) (List.length vals)) then Throw CasbinEnforcer
  else let! text := matcher_text expr pf vals in
       if o_compiles o text (known_vars rf pf) (role_arity m)
       then o_value o text (env rf req pf vals) (role_fun m h)
       else Throw ThrownString.

(** The effect of a rule: its column eft, allow when there is no such column. *)
Definition effect_of (pf vals : list string) : effect :=
  match aget "eft" (combine pf vals) with
  | None => Allow
  | Some e => if String.eqb e "allow" then Allow else if String.eqb e "deny" then Deny else Indeterminate
  end.

Definition rule_outcome (o : oracle) (m : model) (h : heap) (rf pf : list string) (expr : string)
           (req vals : list string) : res outcome :=
  let! b := verdict o m h rf pf expr req vals in Ok (b, effect_of pf vals).

(** The matcher used: the argument, or the model's matcher when it is empty. *)
Definition chosen (matcher mat : string) : string := if String.eqb matcher "" then mat else matcher.

(** Every rule has a non-empty matcher text (an empty one is not even compiled). *)
Definition texts_ok (expr : string) (pf : list string) (rules : list rule) : Prop :=
  expr <> "" /\ forall r, In r rules -> matcher_text expr pf r <> Ok "".

(** The evaluator object left behind by earlier calls is in order: it knows only
    fields of this model, its role functions are the current ones, and its
    remembered compilation is one that would succeed or fail today just the same. *)
Record fits (o : oracle) (m : model) (rf pf : list string) (ev : evaluator) : Prop := mkFits {
  f_vars : forall x, ahas x (ev_vars ev) = true -> known_vars rf pf x = true;
  f_funs : forall f k, aget f (ev_funs ev) = Some k ->
      (In f builtin_names /\ k = FBuiltin) \/
      (exists a, aget f (sec_of m "g") = Some a /\ k = FG (a_rm a) (scount "_" (a_value a)));
  f_prog : (ev_expr ev = "" /\ ev_bad ev = false) \/
      (ev_bad ev = negb (o_compiles o (ev_expr ev) (known_vars rf pf) (role_arity m)) /\
       (ev_bad ev = false -> ev_prog ev = Some (ev_expr ev))) }.

Definition ready (o : oracle) (e : enforcer) (rf pf : list string) (eft mat : string) : Prop :=
  declares (e_model e) rf pf eft mat /\
  match e_ev e with None => True | Some ev => fits o (e_model e) rf pf ev end.

(** ** Vocabulary of the theorems *)

(** The matcher holds for the rule. *)
Definition matches (o : oracle) (e : enforcer) (rf pf : list string) (mat matcher : string)
           (req : list string) (r : rule) : Prop :=
  verdict o (e_model e) (e_heap e) rf pf (chosen matcher mat) req r = Ok true.

(** Enforcement is on, the request has the right number of values and there are
    candidate rules with matcher texts. *)
Record asked (o : oracle) (e : enforcer) (rf pf : list string) (eft mat matcher : string)
       (req : list string) : Prop := mkAsked {
  k_ready : ready o e rf pf eft mat;
  k_enabled : e_enabled e = true;
  k_length : List.length req = List.length rf;
  k_some : candidates (e_model e) req <> [];
  k_texts : texts_ok (chosen matcher mat) pf (candidates (e_model e) req) }.

(** ... and the matcher has a truth value for each of them. *)
Definition answerable (o : oracle) (e : enforcer) (rf pf : list string) (eft mat matcher : string)
           (req : list string) : Prop :=
  asked o e rf pf eft mat matcher req /\
  forall r, In r (candidates (e_model e) req) -> exists b,
    verdict o (e_model e) (e_heap e) rf pf (chosen matcher mat) req r = Ok b.
