(** Concrete models and enforcers, used to show that the hypotheses of the theorems
    are met by non-trivial cases and as witnesses of refuted properties. *)
From Verif Require Import Base P_Base M_Util M_RoleManager M_Effector M_Model M_Persist M_Eval M_Evaluator M_Enforcer S_Effect S_Enforce M_Matcher.

Definition ast (k v : string) (toks : list string) (p : store) : assertion := mkAst k v toks p None.

Definition r3 := ["r_sub"; "r_obj"; "r_act"].
Definition p3 := ["p_sub"; "p_obj"; "p_act"].
Definition p4 := ["p_sub"; "p_obj"; "p_act"; "p_eft"].
Definition f3 := ["sub"; "obj"; "act"].
Definition f4 := ["sub"; "obj"; "act"; "eft"].

(** examples/basic_model.conf with the given rules, stored in a vector. *)
Definition basic_model (rules : list rule) : model :=
  [("r", [("r", ast "r" "sub, obj, act" r3 (Vec []))]);
   ("p", [("p", ast "p" "sub, obj, act" p3 (Vec rules))]);
   ("e", [("e", ast "e" (effect_text AllowOverride) [] (Vec []))]);
   ("m", [("m", ast "m" basic_matcher [] (Vec []))])].

(** The same with the hash index, which is what the loader chooses for this matcher. *)
Definition basic_hash_model (rules : list rule) : model :=
  [("r", [("r", ast "r" "sub, obj, act" r3 (Vec []))]);
   ("p", [("p", ast "p" "sub, obj, act" p3 (Hash rules))]);
   ("e", [("e", ast "e" (effect_text AllowOverride) [] (Vec []))]);
   ("m", [("m", ast "m" basic_matcher [] (Vec []))])].

(** The same with an effect column and any of the four effects. *)
Definition eft_model (eft : string) (rules : list rule) : model :=
  [("r", [("r", ast "r" "sub, obj, act" r3 (Vec []))]);
   ("p", [("p", ast "p" "sub, obj, act, eft" p4 (Vec rules))]);
   ("e", [("e", ast "e" eft [] (Vec []))]);
   ("m", [("m", ast "m" basic_matcher [] (Vec []))])].

(** examples/rbac_model.conf. *)
Definition rbac_model (ps gs : list rule) : model :=
  [("r", [("r", ast "r" "sub, obj, act" r3 (Vec []))]);
   ("p", [("p", ast "p" "sub, obj, act" p3 (Vec ps))]);
   ("g", [("g", ast "g" "_, _" [] (Vec gs))]);
   ("e", [("e", ast "e" (effect_text AllowOverride) [] (Vec []))]);
   ("m", [("m", ast "m" rbac_matcher [] (Vec []))])].

Definition no_files : fs := mkFs [] (fun _ => true).
(** An enforcer built from a model, without adapter. *)
Definition boot (m : model) : enforcer := fst (new_enforcer no_files m None).
(** ... and with its role links built. *)
Definition linked_boot (m : model) : enforcer := fst (e_BuildRoleLinks (boot m)).

Definition reqs (l : list string) : list data := map DStr l.

(** Readiness of concrete enforcers. *)
Ltac in_cases :=
  simpl; intros;
  repeat match goal with H : _ \/ _ |- _ => destruct H | H : False |- _ => destruct H end; subst; try reflexivity.
Ltac prove_declares :=
  constructor; simpl; try (eexists; split; reflexivity);
  try (repeat constructor; simpl; intuition discriminate); in_cases.

Lemma basic_declares : forall l, declares (basic_model l) f3 f3 (effect_text AllowOverride) basic_matcher.
Proof. intros. prove_declares. Qed.
Lemma basic_hash_declares : forall l, declares (basic_hash_model l) f3 f3 (effect_text AllowOverride) basic_matcher.
Proof. intros. prove_declares. Qed.
Lemma eft_declares : forall eft l, declares (eft_model eft l) f3 f4 eft basic_matcher.
Proof. intros. prove_declares. Qed.
Lemma rbac_declares : forall ps gs, declares (rbac_model ps gs) f3 f3 (effect_text AllowOverride) rbac_matcher.
Proof. intros. prove_declares. Qed.

Lemma basic_ready : forall o l, ready o (boot (basic_model l)) f3 f3 (effect_text AllowOverride) basic_matcher.
Proof. split; [apply basic_declares|exact I]. Qed.
Lemma basic_hash_ready : forall o l, ready o (boot (basic_hash_model l)) f3 f3 (effect_text AllowOverride) basic_matcher.
Proof. split; [apply basic_hash_declares|exact I]. Qed.
Lemma eft_ready : forall o eft l, ready o (boot (eft_model eft l)) f3 f4 eft basic_matcher.
Proof. split; [apply eft_declares|exact I]. Qed.
