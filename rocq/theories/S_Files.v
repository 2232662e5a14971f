(** Specification: an enforcer made from a model file and a policy file. *)
From Verif Require Import Base M_Util M_RoleManager M_Effector M_Model M_Persist M_Eval M_Evaluator M_Enforcer M_Config M_Load M_Init
  S_Effect S_Enforce S_Policy S_Persist S_History S_Roles S_Sync S_Rbac S_Standard.

(** A policy file lists pairs of a policy type and a rule.  The links its grouping rules,
    of all types, stand for: *)
Definition listed_links (rs : list (string * rule)) (l : link) : Prop :=
  exists pt r, In (pt, r) rs /\ section_of pt = "g" /\ link_of r = Some l.
(** The role functions of a matcher, by the policy file: chains of at most ten links. *)
Definition by_file (rs : list (string * rule)) (f : string) (args : list string) : Prop :=
  match args with
  | [a; b] => within (listed_links rs) None 10 a b
  | [a; b; d] => within (listed_links rs) (Some d) 10 a b
  | _ => False
  end.

(** A model has these sections, its rules are kept in a vector (or possibly in a hash set,
    if [hashed]), and its role definitions, of different names, have [n] places. *)
Record suits (hashed : bool) (n : nat) (rf pf : list string) (eft mat : string) (m : model) : Prop := mkSuits {
  su_declares : declares m rf pf eft mat;
  su_store : p_indexed m = true -> hashed = true;
  su_types : NoDup (map fst (sec_of m "g"));
  su_places : forall pt a, aget pt (sec_of m "g") = Some a -> scount "_" (a_value a) = n }.

(** A policy fits a model: every type is defined, the rules of type p have [k] fields
    and the grouping rules are among [rules]. *)
Definition fits_model (m : model) (k : nat) (rules : rule -> Prop) (rs : list (string * rule)) : Prop :=
  forall pt r, In (pt, r) rs ->
    (exists a, get_ast m (section_of pt) pt = Ok a) /\ (pt = "p" -> List.length r = k) /\ (section_of pt = "g" -> rules r).

(** What an enforcer decides, by the policy file: [rs] are the rules listed, [d] is the reading
    of the matcher and [pe] the policy effect.  The calls the matcher makes have answers. *)
Definition decides (o : oracle) (names : node -> Prop) (rf pf : list string) (pe : policy_effect) (d : reading)
           (rs : list (string * rule)) (e : enforcer) : Prop :=
  forall req, List.length req = List.length rf ->
    (forall r, In ("p", r) rs -> calls_ok names d (value_of rf req pf r)) ->
    (rules_for "p" rs <> [] \/
     calls_ok names d (value_of rf req pf (blank pf)) /\ ~ rd_sem d (value_of rf req pf (blank pf)) (by_file rs)) ->
    exists b, snd (Enforce o (map DStr req) e) = Ok b /\
      (b = true <-> granted pe (fun r => rd_sem d (value_of rf req pf r) (by_file rs)) (effect_of pf) (rules_for "p" rs)).

(** Made from the model file [mp] and the policy file [pp], by the constructor or by InitWithFile on
    any enforcer: this succeeds and the enforcer has the property [P]. *)
Definition made (odd : string -> string -> res string) (f : fs) (mp pp : string) (P : enforcer -> Prop) : Prop :=
  (exists e, NewEnforcer odd f mp pp = Ok e /\ P e) /\
  (forall e0, e_fs e0 = f -> exists e, InitWithFile odd mp pp e0 = (e, Ok tt) /\ P e).

(** The policy file says [rs]; a file that does not exist says nothing. *)
Definition policy_says (f : fs) (pp : string) (rs : list (string * rule)) : Prop :=
  pp <> "" /\ match aget pp (files f) with Some text => file_means text rs | None => rs = [] end.
(** The files hold the model text given, and the policy file says [rs]. *)
Definition files_hold (f : fs) (mp pp model_text : string) (rs : list (string * rule)) : Prop :=
  aget mp (files f) = Some model_text /\ policy_says f pp rs.

(** ** The example files *)
Definition line_break := String "010" "".
Fixpoint file_of (lines : list string) : string :=
  match lines with [] => "" | [l] => l | l :: ls => (l ++ line_break ++ file_of ls)%string end.
(** examples/basic_model.conf *)
Definition basic_conf := file_of [
  "[request_definition]"; "r = sub, obj, act"; ""; "[policy_definition]"; "p = sub, obj, act"; "";
  "[policy_effect]"; "e = some(where (p.eft == allow))"; ""; "[matchers]"; "m = r.sub == p.sub && r.obj == p.obj && r.act == p.act"].
(** examples/rbac_model.conf *)
Definition rbac_conf := file_of [
  "[request_definition]"; "r = sub, obj, act"; ""; "[policy_definition]"; "p = sub, obj, act"; ""; "[role_definition]"; "g = _, _"; "";
  "[policy_effect]"; "e = some(where (p.eft == allow))"; ""; "[matchers]"; "m = g(r.sub, p.sub) && r.obj == p.obj && r.act == p.act"].
(** examples/rbac_with_domains_model.conf *)
Definition domain_conf := file_of [
  "[request_definition]"; "r = sub, dom, obj, act"; ""; "[policy_definition]"; "p = sub, dom, obj, act"; ""; "[role_definition]"; "g = _, _, _"; "";
  "[policy_effect]"; "e = some(where (p.eft == allow))"; ""; "[matchers]";
  "m = g(r.sub, p.sub, r.dom) && r.dom == p.dom && r.obj == p.obj && r.act == p.act"].
(** examples/rbac_with_resource_roles_model.conf *)
Definition resource_conf := file_of [
  "[request_definition]"; "r = sub, obj, act"; ""; "[policy_definition]"; "p = sub, obj, act"; ""; "[role_definition]"; "g = _, _"; "g2 = _, _"; "";
  "[policy_effect]"; "e = some(where (p.eft == allow))"; ""; "[matchers]"; "m = g(r.sub, p.sub) && g2(r.obj, p.obj) && r.act == p.act"].
(** examples/rbac_with_deny_model.conf, rbac_with_not_deny_model.conf and priority_model.conf,
    which differ in the effect. *)
Definition eft_conf (effect : string) := file_of [
  "[request_definition]"; "r = sub, obj, act"; ""; "[policy_definition]"; "p = sub, obj, act, eft"; ""; "[role_definition]"; "g = _, _"; "";
  "[policy_effect]"; ("e = " ++ effect)%string; ""; "[matchers]"; "m = g(r.sub, p.sub) && r.obj == p.obj && r.act == p.act"].
(** examples/rbac_model_in_multi_line.conf *)
Definition two_line_conf := file_of [
  "[request_definition]"; "r = sub, obj, act"; ""; "[policy_definition]"; "p = sub, obj, act"; ""; "[role_definition]"; "g = _, _"; "";
  "[policy_effect]"; "e = some(where (p.eft == allow))"; ""; "[matchers]"; "m = g(r.sub, p.sub) && r.obj == p.obj \"; " && r.act == p.act"].

(** The policy files for models with one role definition g of [n] places and rules of [k] fields:
    no grouping rule is a rearrangement of another one. *)
Definition rbac_policy (k n : nat) (rs : list (string * rule)) : Prop :=
  (forall pt r, In (pt, r) rs -> pt = "p" /\ List.length r = k \/ pt = "g" /\ List.length r = n) /\
  (forall r r', In ("g", r) rs -> In ("g", r') rs -> Permutation.Permutation r r' -> r = r').
(** The policy file lists a rule for the request with the effect [f]. *)
Definition file_says (rs : list (string * rule)) (sub obj act f : string) : Prop :=
  exists s, In ("p", [s; obj; act; f]) rs /\ within (listed_links rs) None 10 sub s.
(** The policy files for rbac_with_resource_roles_model.conf, with two role definitions. *)
Definition resource_policy (rs : list (string * rule)) : Prop :=
  (forall pt r, In (pt, r) rs -> pt = "p" /\ List.length r = 3 \/ (pt = "g" \/ pt = "g2") /\ List.length r = 2) /\
  (forall pt pt' r r', In (pt, r) rs -> In (pt', r') rs -> section_of pt = "g" -> section_of pt' = "g" ->
     Permutation.Permutation r r' -> r = r').
