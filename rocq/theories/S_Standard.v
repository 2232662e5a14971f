(** Specification of whole models: which requests are allowed, in terms of the stored
    rules, the role links and a reading of the matcher. *)
From Verif Require Import Base M_Util M_RoleManager M_Effector M_Model M_Persist M_Eval M_Evaluator M_Enforcer
  S_Effect S_Enforce S_Policy S_History S_Roles S_Sync S_Rbac.

(** What a matcher says: [sem v g] holds when the matcher holds, [v] giving the values of
    its names and [g f args] telling whether the role function [f] links [args].
    [calls v] are the calls of role functions it makes, and [ok v] holds when everything else
    it calls has an answer. *)
Record reading := mkReading {
  rd_vars : list string;
  rd_funs : list string;
  rd_calls : (string -> string) -> list (string * list string);
  rd_ok : (string -> string) -> Prop;
  rd_sem : (string -> string) -> (string -> list string -> Prop) -> Prop }.

(** The expression library reads the text so: it compiles when the names and the functions
    (of [n] arguments) are known; when the calls have answers, its value is the truth of [rd_sem];
    and [rd_sem] depends on the answers to these calls only. *)
Record reads (o : oracle) (n : nat) (text : string) (d : reading) : Prop := mkReads {
  rs_compiles : forall vars funs, (forall x, In x (rd_vars d) -> vars x = true) ->
      (forall f, In f (rd_funs d) -> funs f = Some n) -> o_compiles o text vars funs = true;
  rs_value : forall v g val, (forall x, In x (rd_vars d) -> v x = Some (val x)) ->
      (forall f args, In (f, args) (rd_calls d val) -> exists b, g f args = Some (Ok b)) -> rd_ok d val ->
      exists b, o_value o text v g = Ok b /\ (b = true <-> rd_sem d val (fun f args => g f args = Some (Ok true)));
  rs_local : forall val R R', (forall f args, In (f, args) (rd_calls d val) -> (R f args <-> R' f args)) ->
      rd_sem d val R -> rd_sem d val R' }.

(** The value of a name for a request and a rule. *)
Definition value_of (rf req pf r : list string) : string -> string :=
  fun x => match env rf req pf r x with Some s => s | None => "" end.

(** The role functions: chains of grouping rules, of every type, within the domain if one
    is given. *)
Definition linked (e : enforcer) (f : string) (args : list string) : Prop :=
  match args with
  | [a; b] => within (assigned e) None (level_of e) a b
  | [a; b; d] => within (assigned e) (Some d) (level_of e) a b
  | _ => False
  end.
(** The arguments of a call are names in use. *)
Definition in_use (names : node -> Prop) (args : list string) : Prop :=
  match args with
  | [a; b] => names (None, a) /\ names (None, b)
  | [a; b; d] => names (Some d, a) /\ names (Some d, b)
  | _ => False
  end.
(** The role functions of the matcher are defined by the model. *)
Definition defines_all (e : enforcer) (d : reading) : Prop := forall f, In f (rd_funs d) -> declared e "g" f.
Definition calls_ok (names : node -> Prop) (d : reading) (val : string -> string) : Prop :=
  rd_ok d val /\ forall f args, In (f, args) (rd_calls d val) -> In f (rd_funs d) /\ in_use names args.

(** The decision for a list of rules, of which those in [M] match. *)
Definition granted (pe : policy_effect) (M : rule -> Prop) (eff : rule -> effect) (rules : list rule) : Prop :=
  let some x := exists r, In r rules /\ M r /\ eff r = x in
  match pe with
  | AllowOverride => some Allow
  | DenyOverride => ~ some Deny
  | AllowAndDeny => some Allow /\ ~ some Deny
  | Priority => exists pre r post, rules = pre ++ r :: post /\ M r /\ eff r = Allow /\
                  forall r', In r' pre -> M r' -> eff r' = Indeterminate
  end.

(** The values used for the policy fields when there is no rule. *)
Definition blank (pf : list string) : rule := map (fun _ => "") pf.

(** ** The matchers of the example models *)
Definition domain_text := "g(r.sub, p.sub, r.dom) && r.dom == p.dom && r.obj == p.obj && r.act == p.act".
Definition resource_text := "g(r.sub, p.sub) && g2(r.obj, p.obj) && r.act == p.act".

(** basic_model.conf: the request is the rule. *)
Definition acl_reading : reading := {|
  rd_vars := ["r.sub"; "p.sub"; "r.obj"; "p.obj"; "r.act"; "p.act"];
  rd_funs := [];
  rd_calls := fun _ => [];
  rd_ok := fun _ => True;
  rd_sem := fun v _ => v "r.sub" = v "p.sub" /\ v "r.obj" = v "p.obj" /\ v "r.act" = v "p.act" |}.
(** rbac_model.conf: the subject has the role of the rule. *)
Definition rbac_reading : reading := {|
  rd_vars := ["r.sub"; "p.sub"; "r.obj"; "p.obj"; "r.act"; "p.act"];
  rd_funs := ["g"];
  rd_calls := fun v => [("g", [v "r.sub"; v "p.sub"])];
  rd_ok := fun _ => True;
  rd_sem := fun v g => g "g" [v "r.sub"; v "p.sub"] /\ v "r.obj" = v "p.obj" /\ v "r.act" = v "p.act" |}.
(** rbac_with_domains_model.conf: the subject has the role within the domain. *)
Definition domain_reading : reading := {|
  rd_vars := ["r.sub"; "p.sub"; "r.dom"; "p.dom"; "r.obj"; "p.obj"; "r.act"; "p.act"];
  rd_funs := ["g"];
  rd_calls := fun v => [("g", [v "r.sub"; v "p.sub"; v "r.dom"])];
  rd_ok := fun _ => True;
  rd_sem := fun v g => g "g" [v "r.sub"; v "p.sub"; v "r.dom"] /\
    v "r.dom" = v "p.dom" /\ v "r.obj" = v "p.obj" /\ v "r.act" = v "p.act" |}.
(** rbac_with_resource_roles_model.conf: the object has the role of the rule, too. *)
Definition resource_reading : reading := {|
  rd_vars := ["r.sub"; "p.sub"; "r.obj"; "p.obj"; "r.act"; "p.act"];
  rd_funs := ["g"; "g2"];
  rd_calls := fun v => [("g", [v "r.sub"; v "p.sub"]); ("g2", [v "r.obj"; v "p.obj"])];
  rd_ok := fun _ => True;
  rd_sem := fun v g => g "g" [v "r.sub"; v "p.sub"] /\ g "g2" [v "r.obj"; v "p.obj"] /\ v "r.act" = v "p.act" |}.
