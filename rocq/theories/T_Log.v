(** Property C85: logging and printing. *)
From Verif Require Import Base P_Base M_Util M_RoleManager M_Effector M_Model M_Persist M_Eval M_Evaluator M_Enforcer M_Matcher M_Log
  S_Effect S_Enforce S_Policy S_History P_Effect P_Enforce P_Decide P_Log E_Examples.

(** The calls of the enforcer in a history, and the histories: the states of an enforcer and
    the logger of the program while no call has undefined behaviour. *)
Fixpoint enforcer_calls (cs : list lcall) : list call :=
  match cs with [] => [] | LCall c :: r => c :: enforcer_calls r | _ :: r => enforcer_calls r end.
Inductive lreaches (o : oracle) (depth : nat) : world -> list lcall -> world -> Prop :=
| lreach_nil : forall w, lreaches o depth w [] w
| lreach_step : forall w c cs w1 out w2,
    lrun o depth c w = (w1, out) -> (forall u, out <> UB u) -> lreaches o depth w1 cs w2 -> lreaches o depth w (c :: cs) w2.

(** Whatever EnableLog is called with, and however often: the enforcer answers every call as
    if it had not been called, and goes through the same states. *)
Theorem C85_enable_log_changes_nothing : forall o depth cs w w',
  w_logger w = false -> ~ In (LSetLogger true) cs -> lreaches o depth w cs w' ->
  w_logger w' = false /\ reaches o (w_enforcer w) (enforcer_calls cs) (w_enforcer w').
Proof.
  intros o depth cs. induction cs as [|c cs IH]; intros w w' Q N H; inversion H as [|w0 c0 cs0 w1 out w2 RUN NU RE]; subst.
  - split; auto. apply reach_nil.
  - assert (N' : ~ In (LSetLogger true) cs) by (intros I; apply N; right; auto).
    destruct w as [e lg]. cbn [w_logger w_enforcer] in *. subst lg. destruct c as [c|b|b]; cbn [lrun w_logger w_enforcer] in RUN.
    + destruct (run_log o depth false c e) as [e1 o1] eqn:R. inversion RUN; subst. rewrite run_off in R.
      destruct (IH (mkWorld e1 false) w' eq_refl N' RE) as [A B]. split; auto. cbn [enforcer_calls]. eapply reach_step; eauto.
    + inversion RUN; subst. apply (IH (mkWorld e false) w'); auto.
    + inversion RUN; subst. destruct b; [elim N; left; auto|]. apply (IH (mkWorld e false) w'); auto.
Qed.
Theorem C85_same_answers : forall o depth matcher params e,
  EnforceExWithMatcher_log o depth false matcher params e = EnforceExWithMatcher o matcher params e.
Proof. intros. apply ex_off. Qed.
(** So it does not switch the log on. *)
Theorem C85_enable_log_refuted : forall o depth w, w_logger w = false -> w_logger (fst (lrun o depth (LEnableLog true) w)) = false.
Proof. intros o depth w H. exact H. Qed.

(** With a logger that is switched on, every request that can be answered recurses without
    end, whatever the size of the stack. *)
Theorem C85_logging_refuted : forall o depth e rf pf pe mat matcher req,
  oracle_ext o -> ready o e rf pf (effect_text pe) mat -> e_enabled e = true -> List.length req = List.length rf ->
  (candidates (e_model e) req <> [] \/
   HasEval (chosen matcher mat) = false /\ chosen matcher mat <> "" /\
   exists b, verdict o (e_model e) (e_heap e) rf pf (chosen matcher mat) req (map (fun _ => "") pf) = Ok b) ->
  snd (lrun o depth (LCall (KEnforce matcher (map DStr req))) (mkWorld e true)) = UB InfiniteRecursion.
Proof.
  intros o depth e rf pf pe mat matcher req X RE EN L H.
  assert (Q : snd (EnforceExWithMatcher_log o depth true matcher (map DStr req) e) = UB InfiniteRecursion).
  { destruct (candidates (e_model e) req) as [|r0 rules] eqn:CN.
    - destruct H as [H|[HE [NE [b V]]]]; [congruence|].
      assert (ME : exists x, MergeEffects (effect_text pe) [if b then Allow else Indeterminate] [true] 0 1 = Ok x).
      { destruct pe, b; vm_compute; eauto. }
      destruct ME as [x ME]. eapply loud_empty; eauto.
    - eapply loud_rules; eauto. rewrite CN. discriminate. }
  cbn [lrun run_log w_logger w_enforcer]. unfold drop_value, EnforceWithMatcher_log, mbind.
  destruct (EnforceExWithMatcher_log o depth true matcher (map DStr req) e) as [e1 [r|t|u]]; cbn [snd fst] in *; try discriminate. inversion Q. reflexivity.
Qed.
(** PrintRoles of a manager without any role reads what is not there; otherwise it does nothing. *)
Theorem C85_print_roles : forall r, (exists u, PrintRoles r = UB u) <-> all_roles r = [].
Proof. intros r. unfold PrintRoles. destruct (all_roles r); split; intros H; try discriminate; eauto. destruct H; discriminate. Qed.

Definition watched : enforcer := boot (basic_model [["alice"; "data1"; "read"]]).
Definition log_history : list lcall :=
  [LEnableLog true; LCall (KEnforce "" (reqs ["alice"; "data1"; "read"])); LCall (KAddPolicy "p" ["bob"; "data2"; "write"]); LEnableLog false;
   LSetLogger false; LCall (KEnforce "" (reqs ["bob"; "data2"; "write"]))].
Example C85_case : exists w', lreaches mini 1000 (mkWorld watched false) log_history w' /\ ~ In (LSetLogger true) log_history /\
  stored (w_enforcer w') "p" "p" = [["alice"; "data1"; "read"]; ["bob"; "data2"; "write"]].
Proof.
  eexists. split.
  { unfold log_history. repeat (eapply lreach_step; [vm_compute; reflexivity|discriminate|]). apply lreach_nil. }
  split; [|vm_compute; reflexivity]. simpl. intuition discriminate.
Qed.
Example C85_logging_case : ready mini watched f3 f3 (effect_text AllowOverride) basic_matcher /\
  candidates (e_model watched) ["alice"; "data1"; "read"] <> [] /\ snd (Enforce mini (reqs ["alice"; "data1"; "read"]) watched) = Ok true /\
  snd (lrun mini 5 (LCall (KEnforce "" (reqs ["alice"; "data1"; "read"]))) (fst (lrun mini 5 (LSetLogger true) (mkWorld watched false)))) = UB InfiniteRecursion.
Proof. split; [split; [prove_declares|exact Logic.I]|]. split; [discriminate|]. split; vm_compute; reflexivity. Qed.

Print Assumptions C85_enable_log_changes_nothing.
Print Assumptions C85_same_answers.
Print Assumptions C85_enable_log_refuted.
Print Assumptions C85_logging_refuted.
Print Assumptions C85_print_roles.
