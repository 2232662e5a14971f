(** Specification of role managers with a matching function, when the names of
    links (patterns, groups) are told apart from the concrete names asked about. *)
From Verif Require Import Base M_Util M_RoleManager M_Model M_Persist M_Evaluator M_Enforcer S_Policy S_History S_Roles S_Sync.

(** The names that links are added to or deleted from. *)
Definition link_call (c : rcall) (n : node) : Prop :=
  match c with
  | RAdd d a b | RDel d a b => n = (d, a) \/ n = (d, b)
  | _ => False
  end.
Definition link_name (cs : list rcall) (n : node) : Prop := exists c, In c cs /\ link_call c n.
Definition named_in (cs : list rcall) (n : node) : Prop := exists c, In c cs /\ mentions c n.

(** Matching goes from a concrete name to a name of a link: every name matches
    itself, and otherwise only names of no link match, and only names of links. *)
Definition patterns_apart (f : string -> string -> bool) (cs : list rcall) : Prop :=
  forall n1 n2, named_in cs n1 -> named_in cs n2 ->
    f (spell n1) (spell n1) = true /\
    (f (spell n1) (spell n2) = true -> n1 = n2 \/ ~ link_name cs n1 /\ link_name cs n2).
(** No name matches a name of another domain. *)
Definition within_domain (f : string -> string -> bool) (cs : list rcall) : Prop :=
  forall n1 n2, named_in cs n1 -> named_in cs n2 -> f (spell n1) (spell n2) = true -> fst n1 = fst n2.

(** The names given to AddLink since the role manager was made or last cleared. *)
Definition introduced_step (K : node -> Prop) (c : rcall) : node -> Prop :=
  match c with
  | RAdd d a b => fun n => n = (d, a) \/ n = (d, b) \/ K n
  | RClear => fun _ => False
  | _ => K
  end.
Definition introduced (cs : list rcall) : node -> Prop := fold_left introduced_step cs (fun _ => False).

(** [a] has the role [b]: by a chain of at most [level] links, or by matching a known
    name (one step) from which a chain of links leads on. *)
Definition inherits_by (f : string -> string -> bool) (known : node -> Prop) (L : link -> Prop)
  (d : option string) (level : nat) (a b : string) : Prop :=
  within L d level a b \/
  exists m y, level = S m /\ known (d, y) /\ f (spell (d, a)) (spell (d, y)) = true /\ within L d m y b.
Definition inherits (f : string -> string -> bool) (cs : list rcall) : option string -> nat -> string -> string -> Prop :=
  inherits_by f (introduced cs) (links cs).

(** ** Enforcers with a matching function *)
(** The names of the grouping rules in use, and of those that are listed. *)
Definition grouped (R : list rule) (x : node) : Prop :=
  exists r d a b, In r R /\ link_of r = Some (d, a, b) /\ (x = (d, a) \/ x = (d, b)).
Definition listed_name (e : enforcer) (x : node) : Prop :=
  exists d a b, assigned e (d, a, b) /\ (x = (d, a) \/ x = (d, b)).
(** Every name matches itself; otherwise only names of no grouping rule match, and only
    names of grouping rules. *)
Definition patterns_ok (f : string -> string -> bool) (names : node -> Prop) (R : list rule) : Prop :=
  forall x y, names x -> names y ->
    f (spell x) (spell x) = true /\ (f (spell x) (spell y) = true -> x = y \/ ~ grouped R x /\ grouped R y).
Definition matching_rm (f : string -> string -> bool) (e : enforcer) : Prop :=
  exists rm, hget (e_heap e) (e_rm e) = Ok rm /\ matching rm = Some f.
(** Calls in order, which ask for the roles of names in use only. *)
Definition asks_names (names : node -> Prop) (c : call) : Prop :=
  match c with
  | KGetRolesForUser a ds => match ds with [] => names (None, a) | [d] => names (Some d, a) | _ => True end
  | KGetImplicitRoles _ _ | KGetImplicitPermissions _ _ => False
  | _ => True
  end.
(** The states of an enforcer with the matching function [f] whose links are kept by the
    library: built by BuildRoleLinks or LoadPolicy with automatic building on, and only
    calls in order since. *)
Inductive matched (o : oracle) (f : string -> string -> bool) (names : node -> Prop) (n : nat) (R : list rule) : enforcer -> Prop :=
| matched_built : forall e e', matching_rm f e -> e_auto_build e = true -> calm_adapter (e_adapter e) ->
    grouping_ok n (fun r => In r R) e -> e_BuildRoleLinks e = (e', Ok tt) -> matched o f names n R e'
| matched_loaded : forall e e', matching_rm f e -> e_auto_build e = true -> calm_adapter (e_adapter e) ->
    LoadPolicy e = (e', Ok tt) -> grouping_ok n (fun r => In r R) e' -> matched o f names n R e'
| matched_call : forall e c e' out, matched o f names n R e -> safe_call (fun r => In r R) c -> asks_names names c ->
    run o c e = (e', out) -> (forall u, out <> UB u) -> matched o f names n R e'.
(** The role functions of such an enforcer. *)
Definition linked_matching (f : string -> string -> bool) (e : enforcer) (g : string) (args : list string) : Prop :=
  match args with
  | [a; b] => inherits_by f (listed_name e) (assigned e) None (level_of e) a b
  | [a; b; d] => inherits_by f (listed_name e) (assigned e) (Some d) (level_of e) a b
  | _ => False
  end.
