(** Property C114: decisions before any role link is built. *)
From Verif Require Import Base P_Base M_Util M_RoleManager M_Effector M_Model M_Persist M_Eval M_Evaluator M_Enforcer M_Matcher M_Config M_Load M_Init
  S_Text S_Load S_Effect S_Enforce S_Policy S_Persist S_History S_Roles S_Sync S_Rbac S_Standard S_Files S_Unlinked
  P_Enforce P_Decide P_Store P_Api P_History P_Roles P_Sync P_Ready P_Standard E_Examples T_Load T_Standard T_Files.

(** ** The calls leave the role definitions alone *)
Lemma linkless_frame : forall o c, linkless_call c -> keeps frame (run o c).
Proof.
  intros o c L. destruct c; simpl in L |- *; try tauto; try (apply keeps_drop; [exact frame_refl|exact frame_trans|]).
  - apply frame_add.
  - apply frame_add_many.
  - apply frame_remove.
  - apply frame_remove_many.
  - apply frame_remove_filtered.
  - apply frame_update.
  - apply frame_update_many.
  - apply frame_all_types.
  - apply frame_implicit_users.
  - apply frame_enforce.
  - apply frame_enforceMap.
  - apply frame_batch.
  - apply frame_save.
  - intros e. constructor; auto.
  - intros e. constructor; auto.
  - intros e. constructor; auto.
  - intros e. constructor; auto.
  - intros e. constructor; auto.
Qed.
Lemma linkless_safe : forall c, linkless_call c -> safe_call (fun _ => False) c.
Proof. intros c L. destruct c; simpl in *; tauto. Qed.

Lemma fits_same : forall o m m' rf pf ev, oracle_ext o -> sec_of m' "g" = sec_of m "g" -> S_Enforce.fits o m rf pf ev -> S_Enforce.fits o m' rf pf ev.
Proof.
  intros o m m' rf pf ev [X1 X2] S [F1 F2 F3]. constructor; auto.
  - rewrite S. auto.
  - destruct F3 as [F3|[F3 F4]]; auto. right. split; auto. rewrite F3. f_equal. apply X1; auto. intros. unfold role_arity. rewrite S. reflexivity.
Qed.
Lemma linkless_ready : forall o rf pf eft mat c e, oracle_ext o -> mat <> "" -> HasEval mat = false -> linkless_call c ->
  shaped_call (List.length pf) c -> ready o e rf pf eft mat -> ready o (fst (run o c e)) rf pf eft mat.
Proof.
  intros o rf pf eft mat c e X NM NE L C R. pose proof (linkless_safe c L) as S.
  assert (GEN : same_rm_ev e (fst (run o c e)) -> ready o (fst (run o c e)) rf pf eft mat).
  { intros [_ EV]. pose proof (shape_run o c _ S e) as SH. destruct R as [D F]. split; [eapply shape_declares; eauto|].
    rewrite EV. destruct (e_ev e); auto. apply (fits_same o (e_model e)); auto. apply (fr_asts _ _ (linkless_frame o c L e)). }
  assert (P : parts_only c -> same_rm_ev e (fst (run o c e))).
  { intros P. revert e R GEN. intros e _ _. revert e. apply parts_run; auto; unfold same_rm_ev; try (intros; split; reflexivity). intuition congruence. }
  destruct c; try (apply GEN, P; exact I); simpl in L, C; try tauto; try exact (GEN (conj eq_refl eq_refl)).
  - simpl. unfold drop_value, mbind. pose proof (ready_implicit_users o X rf pf eft mat NM NE perm e R) as K.
    destruct (GetImplicitUsersForPermission o perm e) as [e1 [x|t|u]]; exact K.
  - simpl. unfold drop_value, mbind. destruct (asked_enforce o X rf pf eft mat NM NE matcher params C e R) as [_ K].
    destruct (EnforceWithMatcher o matcher params e) as [e1 [x|t|u]]; exact K.
  - simpl. unfold drop_value, mbind. destruct (asked_batch o X rf pf eft mat NM NE matcher reqs C e R) as [_ K].
    destruct (BatchEnforceWithMatcher o matcher reqs e) as [e1 [x|t|u]]; exact K.
  - destruct R as [D F]. split; [exact D|]. simpl. apply fits_new.
Qed.
Lemma linkless_standard : forall o hashed rf pf eft mat c e, oracle_ext o -> mat <> "" -> HasEval mat = false -> linkless_call c ->
  shaped_call (List.length pf) c -> standard o hashed rf pf eft mat e -> standard o hashed rf pf eft mat (fst (run o c e)).
Proof.
  intros o hashed rf pf eft mat c e X NM NE L C [SR SV SF SO]. pose proof (linkless_safe c L) as S.
  assert (PK : p_kept hashed (fun r => List.length r = List.length pf) (fst (run o c e))).
  { apply (rules_run _ _ o c _ S C). intros a A. unfold p_indexed in SV. rewrite A in SV. split; auto.
    intros r I. apply SF. unfold stored, rules_in. rewrite A. auto. }
  constructor.
  - apply linkless_ready; auto.
  - unfold p_indexed in *. pose proof (shape_run o c _ S e "p" "p") as SH.
    destruct (get_ast (e_model (fst (run o c e))) "p" "p") eqn:G; [apply PK; auto| |];
      destruct (get_ast (e_model e) "p" "p"); try discriminate SH; discriminate.
  - unfold stored, rules_in. destruct (get_ast (e_model (fst (run o c e))) "p" "p") eqn:G; [|simpl; tauto|simpl; tauto]. intros r. apply PK. auto.
  - apply (on_run _ o c _ S C e SO).
Qed.
Lemma linkless_reaches : forall o hashed rf pf eft mat cs e e', oracle_ext o -> mat <> "" -> HasEval mat = false -> Forall linkless_call cs ->
  Forall (shaped_call (List.length pf)) cs -> reaches o e cs e' -> standard o hashed rf pf eft mat e ->
  standard o hashed rf pf eft mat e' /\ asts e' = asts e.
Proof.
  intros o hashed rf pf eft mat cs e e' X NM NE L C R. induction R as [e|e c cs e1 out e2 E U R IH]; intros S; auto.
  inversion L; subst. inversion C; subst. replace e1 with (fst (run o c e)) in * by (rewrite E; reflexivity).
  destruct IH as [S2 A]; auto. { apply linkless_standard; auto. }
  split; auto. rewrite A. apply (fr_asts _ _ (linkless_frame o c H1 e)).
Qed.

(** ** A model as loaded *)
Lemma loaded_bare : forall odd f mp m, NewModelFromFile odd f mp = Ok m ->
  (forall sec pt a, get_ast m sec pt = Ok a -> a_rm a = None /\ rules_of (a_policy a) = []).
Proof.
  intros odd f mp m H sec pt a A. unfold NewModelFromFile, NewModelFromString in H.
  destruct (NewConfigFromText (content_of f mp)) as [d| |]; try discriminate. cbn [bind] in H.
  destruct (LoadModelFromConfig odd [] d) as [m' [[]| |]] eqn:L; try discriminate. cbn [bind] in H. inversion H; subst m'.
  destruct (proj1 (C45_contents odd d m L sec pt) a A) as [i [v [_ [_ [_ [R [M _]]]]]]]. auto.
Qed.

(** An enforcer made from a model file alone decides, after every history of calls that add no grouping
    rule and build no links, by the stored rules, with every role function saying that a name has only
    itself as a role. *)
Theorem C114_decision : forall o odd f mp m hashed n rf pf pe mat d cs e0 e req,
  oracle_ext o -> reads o n mat d -> mat <> "" -> HasEval mat = false ->
  (forall x, In x (rd_vars d) -> In x (r_names rf ++ p_names pf)) ->
  NewModelFromFile odd f mp = Ok m -> suits hashed n rf pf (effect_text pe) mat m ->
  (forall g, In g (rd_funs d) -> exists a, get_ast m "g" g = Ok a) ->
  NewEnforcerModelOnly odd f mp = Ok e0 ->
  Forall linkless_call cs -> Forall (shaped_call (List.length pf)) cs -> reaches o e0 cs e ->
  List.length req = List.length rf ->
  (forall r, In r (blank pf :: candidates (e_model e) req) -> calls_ok (fun _ => True) d (value_of rf req pf r)) ->
  (candidates (e_model e) req <> [] \/ ~ rd_sem d (value_of rf req pf (blank pf)) itself) ->
  exists b, snd (Enforce o (map DStr req) e) = Ok b /\
    (b = true <-> granted pe (fun r => rd_sem d (value_of rf req pf r) itself) (effect_of pf) (candidates (e_model e) req)).
Proof.
  intros o odd f mp m hashed n rf pf pe mat d cs e0 e req X RD NM NE VARS LM [SD SS ST SP] G MK L C R LEN OK NEM.
  assert (E0 : e_model e0 = m /\ e_ev e0 = None /\ e_enabled e0 = true).
  { unfold NewEnforcerModelOnly, NewEnforcer, NewEnforcerWithAdapter in MK. rewrite LM in MK. inversion MK. auto. }
  destruct E0 as [E0 [E1 E2]]. pose proof (loaded_bare odd f mp m LM) as B.
  assert (S0 : standard o hashed rf pf (effect_text pe) mat e0).
  { constructor; auto.
    - split; [rewrite E0; auto|rewrite E1; auto].
    - rewrite E0. auto.
    - unfold stored, rules_in. rewrite E0. destruct (get_ast m "p" "p") eqn:A; try (intros r []). rewrite (proj2 (B _ _ _ A)). intros r []. }
  destruct (linkless_reaches o hashed rf pf (effect_text pe) mat cs e0 e X NM NE L C R S0) as [S A].
  unfold asts in A. rewrite E0 in A.
  assert (GA : forall g, In g (rd_funs d) -> exists a, aget g (sec_of m "g") = Some a /\ a_rm a = None).
  { intros g I. destruct (G g I) as [a Q]. exists a. split; [|apply (B _ _ _ Q)]. unfold get_ast in Q.
    destruct (aget g (sec_of m "g")); congruence. }
  apply (any_decision o (fun _ => True) n hashed rf pf pe mat d X RD NM NE VARS e itself); auto.
  - intros g I. destruct (GA g I) as [a [Q _]]. unfold role_arity. rewrite A, Q. f_equal. eauto.
  - intros g args I U. destruct (GA g I) as [a [Q N]]. unfold role_fun. rewrite A, Q, N.
    destruct args as [|x [|y [|z [|? ?]]]]; try destruct U; simpl; eexists; (split; [reflexivity|]); apply String.eqb_eq.
  - intros r I. apply OK. right. auto.
  - destruct NEM as [?|?]; auto. right. split; auto. apply OK. left. reflexivity.
Qed.
Print Assumptions C114_decision.

(** With the model of rbac_with_domains_model.conf: the subject of the request is the subject of a rule of its domain. *)
Theorem C114_domain_decision : forall o odd f mp cs e0 e sub dom obj act,
  oracle_ext o -> reads o 3 domain_text domain_reading -> aget mp (files f) = Some domain_conf ->
  NewEnforcerModelOnly odd f mp = Ok e0 -> Forall linkless_call cs -> Forall (shaped_call 4) cs -> reaches o e0 cs e ->
  [sub; dom; obj; act] <> [""; ""; ""; ""] ->
  exists b, snd (Enforce o (map DStr [sub; dom; obj; act]) e) = Ok b /\ (b = true <-> In [sub; dom; obj; act] (stored e "p" "p")).
Proof.
  intros o odd f mp cs e0 e sub dom obj act X RD F MK L C R NB.
  assert (LM : NewModelFromFile odd f mp = NewModelFromString odd domain_conf) by (apply model_file; auto). rewrite domain_loads in LM.
  assert (Q : forall req r g, List.length req = 4 -> List.length r = 4 ->
    g "g" = itself "g" -> (rd_sem domain_reading (value_of fd req fd r) g <-> req = r)).
  { intros [|a1 [|a2 [|a3 [|a4 [|? ?]]]]] [|b1 [|b2 [|b3 [|b4 [|? ?]]]]] g Z1 Z2 GI; try discriminate. cbn [rd_sem domain_reading]. rewrite GI.
    cbn. split; [intros [-> [-> [-> ->]]]; reflexivity|intros W; inversion W; auto]. }
  match type of LM with _ = Ok ?m =>
    destruct (C114_decision o odd f mp m false 3 fd fd AllowOverride domain_text domain_reading cs e0 e [sub; dom; obj; act]) as [b [E B]]; auto; try discriminate end.
  { by_cases. }
  { apply domain_suits. }
  { intros g [<-|[]]. eexists. reflexivity. }
  { intros r _. split; [exact Logic.I|]. intros h args [W|[]]. inversion W; subst. simpl. auto. }
  { right. intros W. apply NB. apply (Q _ _ itself) in W; auto. }
  exists b. split; auto. rewrite B. unfold granted.
  assert (SV : candidates (e_model e) [sub; dom; obj; act] = stored e "p" "p" /\ forall r, In r (stored e "p" "p") -> List.length r = 4 /\ effect_of fd r = Allow).
  { assert (E0 : e_model e0 = loaded_model "sub, dom, obj, act" "sub, dom, obj, act" (effect_text AllowOverride) domain_text fd fd (gs1 3) (Vec []) (Vec []) /\ e_ev e0 = None /\ e_enabled e0 = true).
    { unfold NewEnforcerModelOnly, NewEnforcer, NewEnforcerWithAdapter in MK. rewrite LM in MK. inversion MK. auto. }
    destruct E0 as [E0 [E1 E2]]. pose proof domain_suits as [SD SS _ _].
    destruct (linkless_reaches o false fd fd (effect_text AllowOverride) domain_text cs e0 e) as [S _]; auto; try discriminate.
    { constructor; auto; rewrite ?E0; auto. { split; [rewrite E0; auto|rewrite E1; auto]. }
      unfold stored, rules_in. rewrite E0. intros r []. }
    split; [eapply std_candidates; eauto|]. intros r I. apply (st_fields _ _ _ _ _ _ _ S) in I. split; auto.
    destruct r as [|a1 [|a2 [|a3 [|a4 [|? ?]]]]]; try discriminate. reflexivity. }
  destruct SV as [-> SV]. split.
  - intros [r [I [W _]]]. apply (Q _ _ itself) in W; auto; [subst; auto|apply SV; auto].
  - intros I. exists [sub; dom; obj; act]. split; auto. split; [apply (Q _ _ itself); auto|apply SV; auto].
Qed.
Print Assumptions C114_domain_decision.

(** A concrete case. *)
Definition unlinked_fs : fs := mkFs [("model.conf", domain_conf)] (fun _ => true).
Definition unlinked_history : list call :=
  [KAddPolicy "p" ["admin"; "d1"; "data1"; "read"]; KEnforce "" (reqs ["admin"; "d1"; "data1"; "read"]); KAddPolicies "p" [["bob"; "d2"; "data2"; "write"]; ["bob"; "d1"; "data1"; "write"]];
   KRemovePolicy "p" ["bob"; "d1"; "data1"; "write"]; KEnableAutoNotify false].
Example C114_case : exists e0 e, NewEnforcerModelOnly (fun _ _ => Ok "") unlinked_fs "model.conf" = Ok e0 /\ reaches mini e0 unlinked_history e /\
  Forall linkless_call unlinked_history /\ Forall (shaped_call 4) unlinked_history /\ oracle_ext mini /\ reads mini 3 domain_text domain_reading /\
  aget "model.conf" (files unlinked_fs) = Some domain_conf /\
  snd (Enforce mini (reqs ["admin"; "d1"; "data1"; "read"]) e) = Ok true /\ snd (Enforce mini (reqs ["admin"; "d2"; "data1"; "read"]) e) = Ok false /\
  snd (Enforce mini (reqs ["alice"; "d1"; "data1"; "read"]) e) = Ok false.
Proof.
  eexists. eexists. split; [vm_compute; reflexivity|]. split.
  { unfold unlinked_history. repeat (eapply reach_step; [vm_compute; reflexivity|discriminate|]). apply reach_nil. }
  split. { unfold unlinked_history. repeat (apply Forall_cons; [simpl; tauto|]). apply Forall_nil. }
  split. { unfold unlinked_history. repeat (apply Forall_cons; [simpl; auto|]); [|apply Forall_nil].
    split; [reflexivity|]. exists ["admin"; "d1"; "data1"; "read"]. reflexivity. }
  split; [apply mini_ext|]. split; [apply mini_domain|]. repeat split; vm_compute; reflexivity.
Qed.

(** A role given after the first request is not in force: the call says that the rule was added, the links are there,
    but the evaluator keeps the role function of the first request, which has no links, until it is replaced.
    Without the first request the role is in force at once. *)
Definition early_first : enforcer :=
  match NewEnforcerModelOnly (fun _ _ => Ok "") (mkFs [("model.conf", rbac_conf)] (fun _ => true)) "model.conf" with
  | Ok e => fst (AddNamedPolicy "p" ["admin"; "data1"; "read"] e) | _ => boot [] end.
Theorem C114_role_after_request_refuted :
  let ask e := Enforce mini (reqs ["alice"; "data1"; "read"]) e in
  let give e := AddNamedGroupingPolicy "g" ["alice"; "admin"] e in
  let late := fst (give (fst (ask early_first))) in
  snd (ask early_first) = Ok false /\ snd (give (fst (ask early_first))) = Ok true /\
  stored late "g" "g" = [["alice"; "admin"]] /\ snd (GetRolesForUser "alice" [] late) = Ok ["admin"] /\
  snd (ask late) = Ok false /\ snd (ask (fst (e_BuildRoleLinks late))) = Ok false /\
  snd (ask (fst (SetEvaluator late))) = Ok true /\ snd (ask (fst (give early_first))) = Ok true.
Proof. repeat split; vm_compute; reflexivity. Qed.
Print Assumptions C114_role_after_request_refuted.
