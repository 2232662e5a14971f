(** Specification: the role links an enforcer should have are those its grouping
    rules list. *)
From Coq Require Import Permutation.
From Verif Require Import Base M_Util M_RoleManager M_Model M_Persist M_Evaluator M_Enforcer S_Policy S_History S_Roles.

(** The link a grouping rule stands for: user, role and possibly a domain. *)
Definition link_of (r : rule) : option link :=
  match r with
  | [a; b] => Some (None, a, b)
  | [a; b; d] => Some (Some d, a, b)
  | _ => None
  end.
(** The links listed by the grouping policy, of all types g, g2, ... *)
Definition assigned (e : enforcer) (l : link) : Prop :=
  exists pt r, In r (stored e "g" pt) /\ link_of r = Some l.

(** The names and grouping rules in use: every rule has [n] fields (2, or 3 with a
    domain), no two names are spelled alike with their domains, and no rule is a
    rearrangement of another one. *)
Record tidy (names : node -> Prop) (n : nat) (rules : rule -> Prop) : Prop := mkTidy {
  t_size : 2 <= n;
  t_names : forall x y, names x -> names y -> spell x = spell y -> x = y;
  t_rule : forall r, rules r -> List.length r = n /\
    exists d a b, link_of r = Some (d, a, b) /\ names (d, a) /\ names (d, b);
  t_perm : forall r r', rules r -> rules r' -> Permutation r r' -> r = r' }.

(** The enforcer's role manager answers as the grouping policy says; [level_of] is its
    limit on the length of chains. *)
Definition level_of (e : enforcer) : nat :=
  match hget (e_heap e) (e_rm e) with Ok rm => max_level rm | _ => 0 end.
Definition in_sync (names : node -> Prop) (e : enforcer) : Prop :=
  exists rm, hget (e_heap e) (e_rm e) = Ok rm /\
  forall d a, names (d, a) ->
    (exists l, snd (GetRoles rm a (dom_arg d)) = Ok l /\ NoDup l /\ forall b, In b l <-> assigned e (d, a, b)) /\
    (forall b, names (d, b) -> exists v, snd (HasLink rm a b (dom_arg d)) = Ok v /\
       (v = true <-> within (assigned e) d (level_of e) a b)).

(** Every grouping definition asks for [n] fields and lists rules in use only. *)
Definition grouping_ok (n : nat) (rules : rule -> Prop) (e : enforcer) : Prop :=
  NoDup (map fst (sec_of (e_model e) "g")) /\
  forall pt a, aget pt (sec_of (e_model e) "g") = Some a ->
    scount "_" (a_value a) = n /\ Forall rules (rules_of (a_policy a)).

(** The role manager has no matching function, and the adapter raises no exception
    when it is told of a change, except that it does not support it. *)
Definition plain_rm (e : enforcer) : Prop :=
  exists rm, hget (e_heap e) (e_rm e) = Ok rm /\ matching rm = None.
Definition calm_adapter (a : option adapter) : Prop :=
  match a with
  | Some (AUser u) => forall log c, ua_resp u log c = None \/ ua_resp u log c = Some UnsupportedOperation
  | _ => True
  end.

(** The calls whose effect on the links is in order, with arguments among the rules
    in use. *)
Definition safe_call (rules : rule -> Prop) (c : call) : Prop :=
  match c with
  | KAddGrouping _ r | KRemoveGrouping _ r => rules r
  | KAddGroupings _ rs | KRemoveGroupings _ rs => Forall rules rs
  | KAddRolesForUser u roles => Forall (fun r => rules [u; r]) roles
  | KSetAdapter a => calm_adapter a
  | KEnableAutoBuild b => b = true
  | KUpdateGrouping _ _ _ | KClearPolicy | KLoadPolicy | KLoadFilteredPolicy _
  | KSetModel _ | KSetRoleManager _ | KAddMatchingFunc _ => False
  | _ => True
  end.

(** The states of an enforcer whose links are kept by the library: the links were built
    by BuildRoleLinks, LoadPolicy or LoadFilteredPolicy with automatic building on, and
    only calls in order were made since.  An update of a grouping rule is in order when
    the new rule is not there yet and no other rule gives the link of the old one. *)
Inductive managed (o : oracle) (names : node -> Prop) (n : nat) (rules : rule -> Prop) : enforcer -> Prop :=
| managed_built : forall e e', plain_rm e -> e_auto_build e = true -> calm_adapter (e_adapter e) ->
    grouping_ok n rules e -> e_BuildRoleLinks e = (e', Ok tt) -> managed o names n rules e'
| managed_loaded : forall e e', plain_rm e -> e_auto_build e = true -> calm_adapter (e_adapter e) ->
    LoadPolicy e = (e', Ok tt) -> grouping_ok n rules e' -> managed o names n rules e'
| managed_loaded_filtered : forall e e' flt, plain_rm e -> e_auto_build e = true -> calm_adapter (e_adapter e) ->
    e_LoadFilteredPolicy flt e = (e', Ok tt) -> grouping_ok n rules e' -> managed o names n rules e'
| managed_call : forall e c e' out, managed o names n rules e -> safe_call rules c ->
    run o c e = (e', out) -> (forall u, out <> UB u) -> managed o names n rules e'
| managed_update : forall e pt old new e' out, managed o names n rules e -> rules old -> rules new ->
    NoDup (stored e "g" pt) -> (In new (stored e "g" pt) -> new = old) ->
    (forall q r, In r (stored e "g" q) -> link_of r = link_of old -> q = pt) ->
    UpdateNamedGroupingPolicy pt old new e = (e', out) -> (forall u, out <> UB u) -> managed o names n rules e'.
