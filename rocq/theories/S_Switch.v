(** The four switches of an enforcer and the calls that set them. *)
From Verif Require Import Base M_Util M_RoleManager M_Model M_Persist M_Evaluator M_Enforcer S_History.

Inductive switch := Enforcing | AutoSave | AutoBuild | AutoNotify.

(** The call that sets a switch. *)
Definition setter (s : switch) (b : bool) : call :=
  match s with
  | Enforcing => KEnableEnforce b
  | AutoSave => KEnableAutoSave b
  | AutoBuild => KEnableAutoBuild b
  | AutoNotify => KEnableAutoNotify b
  end.

(** Its position in a state. *)
Definition position (s : switch) (e : enforcer) : bool :=
  match s with
  | Enforcing => e_enabled e
  | AutoSave => e_auto_save e
  | AutoBuild => e_auto_build e
  | AutoNotify => e_notify e
  end.

(** A history that neither sets the switch nor replaces the model. *)
Definition leaves (s : switch) (cs : list call) : Prop :=
  (forall b, ~ In (setter s b) cs) /\ (forall m, ~ In (KSetModel m) cs).

(** Everything of an enforcer but its switches. *)
Definition rest (e : enforcer) :=
  (e_model e, e_heap e, e_rm e, e_adapter e, e_watcher e, e_fs e, e_ev e).
