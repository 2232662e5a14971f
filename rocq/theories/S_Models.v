(** Specification of further example models. *)
From Verif Require Import Base M_Util M_RoleManager M_Effector M_Model M_Persist M_Eval M_Evaluator M_Enforcer
  S_Effect S_Enforce S_Policy S_History S_Roles S_Sync S_Rbac S_Standard.

(** basic_model.conf, basic_without_users_model.conf, basic_without_resources_model.conf and
    every model like them: all fields of the request equal those of the rule. *)
Fixpoint join (sep : string) (l : list string) : string :=
  match l with [] => "" | [x] => x | x :: r => (x ++ sep ++ join sep r)%string end.
Definition same_text (fs : list string) : string := join " && " (map (fun f => ("r." ++ f ++ " == p." ++ f)%string) fs).
Definition same_reading (fs : list string) : reading := {|
  rd_vars := r_names fs ++ p_names fs;
  rd_funs := [];
  rd_calls := fun _ => [];
  rd_ok := fun _ => True;
  rd_sem := fun v _ => forall f, In f fs -> v ("r." ++ f)%string = v ("p." ++ f)%string |}.

(** basic_with_root_model.conf: the subject "root" may do everything. *)
Definition root_text := "r.sub == p.sub && r.obj == p.obj && r.act == p.act || r.sub == ""root""".
Definition root_reading : reading := {|
  rd_vars := ["r.sub"; "p.sub"; "r.obj"; "p.obj"; "r.act"; "p.act"];
  rd_funs := [];
  rd_calls := fun _ => [];
  rd_ok := fun _ => True;
  rd_sem := fun v _ => (v "r.sub" = v "p.sub" /\ v "r.obj" = v "p.obj" /\ v "r.act" = v "p.act") \/ v "r.sub" = "root" |}.

(** rbac_with_all_pattern_model.conf: roles of objects, within domains. *)
Definition object_roles_text := "r.sub == p.sub && g(r.obj, p.obj, r.dom) && r.dom == p.dom && r.act == p.act".
Definition object_roles_reading : reading := {|
  rd_vars := ["r.sub"; "p.sub"; "r.dom"; "p.dom"; "r.obj"; "p.obj"; "r.act"; "p.act"];
  rd_funs := ["g"];
  rd_calls := fun v => [("g", [v "r.obj"; v "p.obj"; v "r.dom"])];
  rd_ok := fun _ => True;
  rd_sem := fun v g => v "r.sub" = v "p.sub" /\ g "g" [v "r.obj"; v "p.obj"; v "r.dom"] /\ v "r.dom" = v "p.dom" /\ v "r.act" = v "p.act" |}.
