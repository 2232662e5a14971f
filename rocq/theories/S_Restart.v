(** Specification for property C112: what decides, and stopping and starting again. *)
From Verif Require Import Base M_Util M_RoleManager M_Model M_Persist M_Eval M_Evaluator M_Enforcer M_Effector
  S_Policy S_Roles S_Sync S_Standard.

(** Two enforcers have the same policy: the same rules of type p, in the same order, the same role
    links by their grouping rules, and role managers of the same depth. *)
Record same_policy (e e' : enforcer) : Prop := mkSamePolicy {
  sp_rules : stored e' "p" "p" = stored e "p" "p";
  sp_links : forall l, assigned e' l <-> assigned e l;
  sp_depth : level_of e' = level_of e }.
(** The same, in any order. *)
Record same_set (e e' : enforcer) : Prop := mkSameSet {
  ss_rules : forall r, In r (stored e' "p" "p") <-> In r (stored e "p" "p");
  ss_links : forall l, assigned e' l <-> assigned e l;
  ss_depth : level_of e' = level_of e }.

(** A request the enforcer has an answer for: the calls the matcher makes are about names in use, and
    if there is no rule the matcher does not hold of empty values. *)
Definition askable (names : node -> Prop) (rf pf : list string) (d : reading) (e : enforcer) (req : list string) : Prop :=
  List.length req = List.length rf /\
  (forall r, In r (stored e "p" "p") -> calls_ok names d (value_of rf req pf r)) /\
  (stored e "p" "p" <> [] \/
   calls_ok names d (value_of rf req pf (blank pf)) /\ ~ rd_sem d (value_of rf req pf (blank pf)) (linked e)).

(** They answer alike. *)
Definition answer_alike (o : oracle) (names : node -> Prop) (rf pf : list string) (d : reading) (e e' : enforcer) : Prop :=
  forall req, askable names rf pf d e req ->
    exists b, snd (Enforce o (map DStr req) e) = Ok b /\ snd (Enforce o (map DStr req) e') = Ok b.
