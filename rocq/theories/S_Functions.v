(** Specification of the example models whose matchers call the built-in functions. *)
From Coq Require Import NArith.
From Verif Require Import Base M_Util M_RoleManager M_Effector M_Model M_Persist M_Eval M_Evaluator M_Enforcer
  S_Text S_BuiltIn S_Regex S_Ip S_Effect S_Enforce S_Policy S_History S_Roles S_Sync S_Rbac S_Standard.
Close Scope N_scope.

(** keyMatch: the pattern up to its first star starts the key; without a star it is the key. *)
Definition key_covers (pattern key : string) : Prop :=
  (lacks "*" pattern /\ key = pattern) \/ exists a b r, first_occurrence "*" pattern a b /\ key = (a ++ r)%string.
(** A text without characters that have a meaning in regular expressions. *)
Definition plain_text (s : string) : Prop := every (fun c => ~ has_meaning c) s.
(** A regular expression, and the keys it describes. *)
Definition is_regex (pattern : string) : Prop := exists L, expression pattern L.
Definition describes (pattern key : string) : Prop := exists L, expression pattern L /\ L key.
(** The address [a] agrees with [b] on the first [n] bits. *)
Definition in_v4 (a b : list N) (n : N) : Prop := firstn (N.to_nat n) (flat_map bits8 a) = firstn (N.to_nat n) (flat_map bits8 b).

(** ** The matchers *)
(** examples/keymatch_model.conf and keymatch2_model.conf *)
Definition keymatch_text := "r.sub == p.sub && keyMatch(r.obj, p.obj) && regexMatch(r.act, p.act)".
Definition keymatch2_text := "r.sub == p.sub && keyMatch2(r.obj, p.obj) && regexMatch(r.act, p.act)".
Definition pattern_reading (f : string) : reading := {|
  rd_vars := ["r.sub"; "p.sub"; "r.obj"; "p.obj"; "r.act"; "p.act"];
  rd_funs := [f; "regexMatch"];
  rd_calls := fun v => [(f, [v "r.obj"; v "p.obj"]); ("regexMatch", [v "r.act"; v "p.act"])];
  rd_ok := fun _ => True;
  rd_sem := fun v g => v "r.sub" = v "p.sub" /\ g f [v "r.obj"; v "p.obj"] /\ g "regexMatch" [v "r.act"; v "p.act"] |}.
(** examples/ipmatch_model.conf *)
Definition ipmatch_text := "ipMatch(r.sub, p.sub) && r.obj == p.obj && r.act == p.act".
Definition ipmatch_reading : reading := {|
  rd_vars := ["r.sub"; "p.sub"; "r.obj"; "p.obj"; "r.act"; "p.act"];
  rd_funs := ["ipMatch"];
  rd_calls := fun v => [("ipMatch", [v "r.sub"; v "p.sub"])];
  rd_ok := fun _ => True;
  rd_sem := fun v g => g "ipMatch" [v "r.sub"; v "p.sub"] /\ v "r.obj" = v "p.obj" /\ v "r.act" = v "p.act" |}.
(** The library lets errors of the first call through: the text starts with a call of [f]
    with the values of [x] and [y]. *)
Definition calls_first (o : oracle) (text f x y : string) : Prop :=
  forall v g a b err, v x = Some a -> v y = Some b -> g f [a; b] = Some (Throw err) -> o_value o text v g = Throw err.
(** examples/rbac_with_pattern_model.conf *)
Definition rbac_pattern_text := "g(r.sub, p.sub) && g2(r.obj, p.obj) && regexMatch(r.act, p.act)".
Definition rbac_pattern_reading : reading := {|
  rd_vars := ["r.sub"; "p.sub"; "r.obj"; "p.obj"; "r.act"; "p.act"];
  rd_funs := ["g"; "g2"; "regexMatch"];
  rd_calls := fun v => [("g", [v "r.sub"; v "p.sub"]); ("g2", [v "r.obj"; v "p.obj"]); ("regexMatch", [v "r.act"; v "p.act"])];
  rd_ok := fun _ => True;
  rd_sem := fun v g => g "g" [v "r.sub"; v "p.sub"] /\ g "g2" [v "r.obj"; v "p.obj"] /\ g "regexMatch" [v "r.act"; v "p.act"] |}.
