(** Specification: what a role manager of the caller is told, and what it should know. *)
From Verif Require Import Base M_Util M_RoleManager M_Model M_Persist M_Evaluator M_Enforcer M_OwnRoles S_Policy S_History.

(** The calls on an enforcer with a role manager of the caller. *)
Inductive ocall :=
| OAdd (pt : string) (r : rule)                            (* AddNamedGroupingPolicy *)
| OAddMany (pt : string) (rs : list rule)                  (* AddNamedGroupingPolicies *)
| ORemove (pt : string) (r : rule)                         (* RemoveNamedGroupingPolicy *)
| ORemoveMany (pt : string) (rs : list rule)               (* RemoveNamedGroupingPolicies *)
| ORemoveFiltered (pt : string) (i : nat) (vals : list string)
| OUpdate (pt : string) (old new : rule)                   (* UpdateNamedGroupingPolicy *)
| OLoad                                                    (* LoadPolicy *)
| OBuild                                                   (* BuildRoleLinks *)
| OOther (c : call).                                       (* any of [elsewhere] *)

(** The calls that have nothing to do with role links. *)
Definition elsewhere (c : call) : bool :=
  match c with
  | KAddPolicy _ _ | KAddPolicies _ _ | KRemovePolicy _ _ | KRemovePolicies _ _
  | KRemoveFiltered _ _ _ | KUpdatePolicy _ _ _ | KUpdatePolicies _ _ _
  | KGetAll _ _ | KSavePolicy | KEnableEnforce _ | KEnableAutoNotify _ | KEnableAutoSave _
  | KEnableAutoBuild _ | KSetAdapter _ | KSetWatcher => true
  | _ => false
  end.

Definition odrop {St A} (c : OM St A) : OM St unit := obind St c (fun _ => oret St tt).
Definition own_run {St} (o : oracle) (mg : St -> heard -> St * res unit) (c : ocall) : OM St unit :=
  match c with
  | OAdd pt r => odrop (own_AddNamedGroupingPolicy St mg pt r)
  | OAddMany pt rs => odrop (own_AddNamedGroupingPolicies St mg pt rs)
  | ORemove pt r => odrop (own_RemoveNamedGroupingPolicy St mg pt r)
  | ORemoveMany pt rs => odrop (own_RemoveNamedGroupingPolicies St mg pt rs)
  | ORemoveFiltered pt i vals => odrop (own_RemoveFilteredNamedGroupingPolicy St mg pt i vals)
  | OUpdate pt old new => odrop (own_UpdateNamedGroupingPolicy St mg pt old new)
  | OLoad => own_LoadPolicy St mg
  | OBuild => own_BuildRoleLinks St mg
  | OOther c => if elsewhere c then inside St (run o c) else fun s => (s, UB Unmodelled)
  end.

(** The same call on an enforcer with the default role manager. *)
Definition as_call (c : ocall) : call :=
  match c with
  | OAdd pt r => KAddGrouping pt r
  | OAddMany pt rs => KAddGroupings pt rs
  | ORemove pt r => KRemoveGrouping pt r
  | ORemoveMany pt rs => KRemoveGroupings pt rs
  | ORemoveFiltered pt i vals => KRemoveFilteredGrouping pt i vals
  | OUpdate pt old new => KUpdateGrouping pt old new
  | OLoad => KLoadPolicy
  | OBuild => KBuildRoleLinks
  | OOther c => c
  end.

(** The default role manager, seen as a manager of the caller. *)
Definition default_manager (r : role_manager) (c : heard) : role_manager * res unit :=
  match c with
  | HClear => (Clear r, Ok tt)
  | HAdd a b d => AddLink r a b d
  | HDelete a b d => DeleteLink r a b d
  end.
(** The enforcer with that manager in its place among the role managers [h]. *)
Definition joined (h : heap) (s : own role_manager) : enforcer :=
  set_heap (hset h (e_rm (o_e s)) (o_st s)) (o_e s).

(** ** What the manager has been told *)

(** A link: the two names and the domain. *)
Definition fact : Type := string * string * list string.
Definition after_hearing (L : fact -> Prop) (c : heard) : fact -> Prop :=
  match c with
  | HClear => fun _ => False
  | HAdd a b d => fun l => l = (a, b, d) \/ L l
  | HDelete a b d => fun l => l <> (a, b, d) /\ L l
  end.
(** The links a manager knows of if it notes down everything it hears. *)
Definition told (hs : list heard) : fact -> Prop := fold_left after_hearing hs (fun _ => False).

(** The link a grouping rule stands for, when its definition has [n] fields. *)
Definition fact_of (n : nat) (r : rule) : option fact :=
  if Nat.ltb (List.length r) n then None
  else match firstn n r with a :: b :: d => Some (a, b, d) | _ => None end.
(** The number of fields of grouping type [pt]. *)
Definition fields_of (e : enforcer) (pt : string) : nat :=
  match aget pt (sec_of (e_model e) "g") with Some a => scount "_" (a_value a) | None => 0 end.
(** The links listed by the grouping policy, of all types g, g2, ... *)
Definition listed_links (e : enforcer) (l : fact) : Prop :=
  exists pt r, In r (stored e "g" pt) /\ fact_of (fields_of e pt) r = Some l.

(** The manager knows exactly the links of the grouping policy. *)
Definition informed {St} (s : own St) : Prop := forall l, told (o_heard s) l <-> listed_links (o_e s) l.

(** Grouping types are keys of a map. *)
Definition types_distinct (e : enforcer) : Prop := NoDup (map fst (sec_of (e_model e) "g")).

(** The calls after which an informed manager is informed, if they return:
    - the rule added is not a rearrangement of another rule, which the library would take
      for it;
    - rules are removed, and the policy is loaded, with automatic building on;
    - the rule an update takes away is the one given and is stored once, and no other rule
      stands for the same link; the new rule is not stored yet. *)
Definition in_order {St} (c : ocall) (s : own St) : Prop :=
  let e := o_e s in
  match c with
  | OAdd pt r => no_anagram r (stored e "g" pt)
  | ORemove _ _ | ORemoveFiltered _ _ _ | OLoad => e_auto_build e = true
  | OUpdate pt old new =>
      NoDup (stored e "g" pt) /\ no_anagram old (stored e "g" pt) /\ no_anagram new (stored e "g" pt) /\
      ~ In new (stored e "g" pt) /\
      forall q r, In r (stored e "g" q) -> fact_of (fields_of e q) r = fact_of (fields_of e pt) old -> q = pt /\ r = old
  | _ => True
  end.
(** A history that ends well: the links were built, and since then every call was in order
    and returned.  Before that, anything may have happened. *)
Inductive tended {St} (o : oracle) (mg : St -> heard -> St * res unit) : own St -> Prop :=
| tended_built : forall s s', types_distinct (o_e s) -> own_run o mg OBuild s = (s', Ok tt) -> tended o mg s'
| tended_call : forall s c s', tended o mg s -> in_order c s -> own_run o mg c s = (s', Ok tt) -> tended o mg s'.
