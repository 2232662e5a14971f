(** Specification of the standard RBAC model of examples/rbac_model.conf. *)
From Verif Require Import Base M_Util M_RoleManager M_Effector M_Model M_Persist M_Eval M_Evaluator M_Enforcer M_Matcher
  S_Effect S_Enforce S_Policy S_History S_Roles S_Sync.

(** What the expression library makes of the matcher
    g(r.sub, p.sub) && r.obj == p.obj && r.act == p.act : it compiles when the six names
    and the function g of two arguments are known, and its value is the conjunction. *)
Definition reads_rbac (o : oracle) : Prop :=
  (forall vars funs, (forall x, In x ["r.sub"; "r.obj"; "r.act"; "p.sub"; "p.obj"; "p.act"] -> vars x = true) ->
     funs "g" = Some 2 -> o_compiles o rbac_matcher vars funs = true) /\
  (forall v g rs ro ra ps po pa b,
     v "r.sub" = Some rs -> v "r.obj" = Some ro -> v "r.act" = Some ra ->
     v "p.sub" = Some ps -> v "p.obj" = Some po -> v "p.act" = Some pa -> g "g" [rs; ps] = Some (Ok b) ->
     o_value o rbac_matcher v g = Ok (b && String.eqb ro po && String.eqb ra pa)).

(** An enforcer in order for a model: its sections are those given, its rules have one
    value per policy field and are kept in a vector, or possibly in a hash set if
    [hashed], enforcement is on and the evaluator
    is in order. *)
Record standard (o : oracle) (hashed : bool) (rf pf : list string) (eft mat : string) (e : enforcer) : Prop := mkStandard {
  st_ready : ready o e rf pf eft mat;
  st_store : p_indexed (e_model e) = true -> hashed = true;
  st_fields : forall r, In r (stored e "p" "p") -> List.length r = List.length pf;
  st_on : e_enabled e = true }.

(** A standard RBAC enforcer: the sections of rbac_model.conf, with rules of three fields
    kept in a vector; its evaluator is in order. *)
Record standard_rbac (o : oracle) (e : enforcer) : Prop := mkRbac {
  sr_ready : ready o e ["sub"; "obj"; "act"] ["sub"; "obj"; "act"] (effect_text AllowOverride) rbac_matcher;
  sr_vector : p_indexed (e_model e) = false;
  sr_fields : forall r, In r (stored e "p" "p") -> List.length r = 3;
  sr_g : declared e "g" "g";
  sr_on : e_enabled e = true }.

(** The model has no role definition. *)
Definition roleless (e : enforcer) : Prop := forall f, ~ declared e "g" f.

(** Calls that keep an enforcer standard: rules of type p have [n] fields; requests are
    lists of strings, with the model's matcher or one without eval(); enforcement stays on. *)
Definition plain_request (matcher : string) (params : list data) : Prop :=
  HasEval matcher = false /\ exists req, params = map DStr req.
Definition shaped_call (n : nat) (c : call) : Prop :=
  match c with
  | KAddPolicy pt r => pt = "p" -> List.length r = n
  | KAddPolicies pt rs | KRemovePolicies pt rs => pt = "p" -> Forall (fun r => List.length r = n) rs
  | KUpdatePolicy pt _ new => pt = "p" -> List.length new = n
  | KUpdatePolicies pt _ news => pt = "p" -> Forall (fun r => List.length r = n) news
  | KEnforce matcher params => plain_request matcher params
  | KBatchEnforce matcher reqs => Forall (plain_request matcher) reqs
  | KEnforceMap _ _ => False
  | KEnableEnforce b => b = true
  | _ => True
  end.
(** ... with rules of three fields. *)
Notation rbac_call := (shaped_call 3).
