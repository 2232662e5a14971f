(** Vocabulary of property C97: what enforcers that share a storage (S_Cluster.v) answer. *)
From Verif Require Import Base M_Util M_RoleManager M_Effector M_Model M_Persist M_Eval M_Evaluator M_Enforcer
  S_Effect S_Enforce S_Policy S_History S_Roles S_Sync S_Rbac S_Standard S_Notify S_Cluster.

(** The links a table of rules lists, and the role functions by that table: chains of at
    most [lvl] links. *)
Definition table_links (T : table) (l : link) : Prop := exists pt r, T "g" pt r /\ link_of r = Some l.
Definition table_linked (T : table) (lvl : nat) (f : string) (args : list string) : Prop :=
  match args with
  | [a; b] => within (table_links T) None lvl a b
  | [a; b; d] => within (table_links T) (Some d) lvl a b
  | _ => False
  end.

(** The decision for a set of rules, of which those in [M] match.  For the effect Priority a
    set does not determine it. *)
Definition decided (pe : policy_effect) (M : rule -> Prop) (eff : rule -> effect) (rules : rule -> Prop) : Prop :=
  let some x := exists r, rules r /\ M r /\ eff r = x in
  match pe with
  | AllowOverride => some Allow
  | DenyOverride => ~ some Deny
  | AllowAndDeny => some Allow /\ ~ some Deny
  | Priority => False
  end.

(** An enforcer of the model with these sections that is in order, keeps its rules in a
    vector, and whose links are kept by the library, within chains of [lvl]. *)
Record prepared (o : oracle) (names : S_Roles.node -> Prop) (n : nat) (grules : rule -> Prop) (rf pf : list string) (pe : policy_effect) (mat : string)
       (d : reading) (lvl : nat) (e : enforcer) : Prop := mkPrepared {
  pr_managed : managed o names n grules e;
  pr_standard : standard o false rf pf (effect_text pe) mat e;
  pr_defines : defines_all e d;
  pr_level : level_of e = lvl }.
(** The calls that are made: those of C93 that also keep an enforcer in order. *)
Definition orderly (rules grules : rule -> Prop) (k : nat) (c : call) : Prop :=
  cluster_call rules c /\ safe_call grules c /\ shaped_call k c.
