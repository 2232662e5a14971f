(** Property C112: what is stored decides; saving, stopping and starting again changes no decision. *)
From Verif Require Import Base P_Base M_Util M_RoleManager M_Effector M_Model M_Persist M_Eval M_Evaluator M_Enforcer M_Matcher M_Config M_Load M_Init
  S_Text S_Effect S_Enforce S_Policy S_Persist S_History S_Roles S_Sync S_Rbac S_Standard S_Files S_Restart
  P_Enforce P_Decide P_Store P_Api P_History P_Nodup P_Persist P_Save P_Roles P_Sync P_Ready P_Standard P_Files P_Text E_Examples T_Load T_Standard T_Persist T_Files.

(** ** What is stored decides *)
Lemma linked_same : forall e e' f args, (forall l, assigned e' l <-> assigned e l) -> level_of e' = level_of e -> (linked e' f args <-> linked e f args).
Proof.
  intros e e' f args A L. unfold linked. rewrite L. destruct args as [|a [|b [|d [|x args]]]]; try tauto; apply within_ext; auto.
Qed.
Lemma granted_set : forall pe M eff l l', pe <> Priority -> (forall r, In r l <-> In r l') -> (granted pe M eff l <-> granted pe M eff l').
Proof.
  intros pe M eff l l' NP H.
  assert (S : forall x, (exists r, In r l /\ M r /\ eff r = x) <-> (exists r, In r l' /\ M r /\ eff r = x)).
  { intros x. split; intros [r [I Q]]; exists r; (split; [apply H; exact I|exact Q]). }
  destruct pe; unfold granted; try congruence; rewrite ?(S Allow), ?(S Deny); tauto.
Qed.

Section Alike.
  Context (o : oracle) (names : node -> Prop) (n : nat) (rules rules' : rule -> Prop) (rf pf : list string) (pe : policy_effect) (mat : string) (d : reading).
  Hypothesis X : oracle_ext o.
  Hypothesis RD : reads o n mat d.
  Hypothesis MAT : mat <> "".
  Hypothesis NE : HasEval mat = false.
  Hypothesis VARS : forall x, In x (rd_vars d) -> In x (r_names rf ++ p_names pf).
  Hypothesis T : tidy names n rules.
  Hypothesis T' : tidy names n rules'.

  Lemma alike_from : forall e e',
    managed o names n rules e -> standard o false rf pf (effect_text pe) mat e -> defines_all e d ->
    managed o names n rules' e' -> standard o false rf pf (effect_text pe) mat e' -> defines_all e' d ->
    same_set e e' -> (pe = Priority -> stored e' "p" "p" = stored e "p" "p") -> answer_alike o names rf pf d e e'.
  Proof.
    intros e e' M S D M' S' D' [SR SL SD] PR req [L [C EM]].
    pose proof (std_candidates o rf pf pe mat e req S) as SC. pose proof (std_candidates o rf pf pe mat e' req S') as SC'.
    assert (LK : forall val, rd_sem d val (linked e') <-> rd_sem d val (linked e)).
    { intros val. split; intros H; eapply (rs_local _ _ _ _ RD); try exact H; intros f args _; [|symmetry]; apply linked_same; auto. }
    assert (NIL : stored e "p" "p" <> [] -> stored e' "p" "p" <> []).
    { intros N Z. destruct (stored e "p" "p") as [|r l] eqn:Q; [congruence|]. assert (I : In r (stored e' "p" "p")) by (apply SR; simpl; auto). rewrite Z in I. destruct I. }
    destruct (std_decision o names n rules false rf pf pe mat d X RD MAT NE VARS T e req) as [b [E B]]; auto.
    { intros f I. exact M. } { rewrite SC. auto. } { rewrite SC. auto. }
    destruct (std_decision o names n rules' false rf pf pe mat d X RD MAT NE VARS T' e' req) as [b' [E' B']]; auto.
    { intros f I. exact M'. } { rewrite SC'. intros r I. apply C, SR, I. } { rewrite SC', LK. destruct EM as [EM|EM]; auto. }
    exists b. split; auto. rewrite E'. f_equal. rewrite SC in B. rewrite SC' in B'.
    assert (Q : granted pe (fun r => rd_sem d (value_of rf req pf r) (linked e')) (effect_of pf) (stored e' "p" "p") <->
                granted pe (fun r => rd_sem d (value_of rf req pf r) (linked e)) (effect_of pf) (stored e "p" "p")).
    { assert (PD : pe = Priority \/ pe <> Priority) by (destruct pe; (left; reflexivity) || (right; discriminate)). destruct PD as [P|P].
      - rewrite (PR P). apply granted_ext. intros r I. apply LK.
      - rewrite (granted_set pe _ _ _ _ P SR). apply granted_ext. intros r I. apply LK. }
    destruct b, b'; auto; intuition congruence.
  Qed.
End Alike.

(** Two enforcers with the same model and the same policy answer every request alike, however their
    policies came to be. *)
Theorem C112_stored_decides : forall o names n rules rules' rf pf pe mat d e e',
  oracle_ext o -> reads o n mat d -> mat <> "" -> HasEval mat = false ->
  (forall x, In x (rd_vars d) -> In x (r_names rf ++ p_names pf)) ->
  tidy names n rules -> managed o names n rules e -> standard o false rf pf (effect_text pe) mat e -> defines_all e d ->
  tidy names n rules' -> managed o names n rules' e' -> standard o false rf pf (effect_text pe) mat e' -> defines_all e' d ->
  same_policy e e' -> answer_alike o names rf pf d e e'.
Proof.
  intros o names n rules rules' rf pf pe mat d e e' X RD MAT NE VARS T M S D T' M' S' D' [SR SL SD].
  eapply (alike_from o names n rules rules' rf pf pe mat d); eauto. constructor; auto. rewrite SR. tauto.
Qed.
(** Unless the effect is that of priorities, the order of the rules does not matter either, nor how
    often a rule is stored. *)
Theorem C112_any_order : forall o names n rules rules' rf pf pe mat d e e',
  oracle_ext o -> reads o n mat d -> mat <> "" -> HasEval mat = false ->
  (forall x, In x (rd_vars d) -> In x (r_names rf ++ p_names pf)) ->
  tidy names n rules -> managed o names n rules e -> standard o false rf pf (effect_text pe) mat e -> defines_all e d ->
  tidy names n rules' -> managed o names n rules' e' -> standard o false rf pf (effect_text pe) mat e' -> defines_all e' d ->
  pe <> Priority -> same_set e e' -> answer_alike o names rf pf d e e'.
Proof.
  intros o names n rules rules' rf pf pe mat d e e' X RD MAT NE VARS T M S D T' M' S' D' NP SS.
  eapply (alike_from o names n rules rules' rf pf pe mat d); eauto. congruence.
Qed.

(** ** Saving and starting again *)
Lemma save_other_file : forall e b path q, e_adapter e = Some (AFile b path) -> q <> path ->
  aget q (files (e_fs (fst (SavePolicy e)))) = aget q (files (e_fs e)).
Proof.
  intros e b path q A N. unfold SavePolicy, IsFiltered, mbind. rewrite A. cbn [adapter_filtered]. unfold adapter_save. rewrite A. unfold FileAdapter_SavePolicy.
  destruct (String.eqb path ""); [reflexivity|]. destruct (policy_text _) as [t| |]; try reflexivity. unfold SavePolicyFile.
  destruct (writable (e_fs e) path); [|reflexivity]. unfold notify_always. cbn.
  destruct (e_watcher e); cbn; rewrite aget_aset_other by congruence; reflexivity.
Qed.
Lemma saved_links : forall e l, writable_policy e -> (listed_links (entries (e_model e)) l <-> assigned e l).
Proof.
  intros e l W. unfold listed_links, assigned. split.
  - intros [pt [r [I [S E]]]]. exists pt, r. split; auto. rewrite <- (rules_for_model e "g" pt W) by auto. apply rules_for_In. auto.
  - intros [pt [r [I E]]]. exists pt, r.
    assert (D : declared e "g" pt). { unfold declared. unfold stored, rules_in in I. destruct (get_ast (e_model e) "g" pt) as [a| |]; [eauto|destruct I|destruct I]. }
    destruct (W "g") as [_ F]; auto. destruct (F pt D) as [[_ S] _]. split; [|auto]. apply rules_for_In. rewrite (rules_for_model e "g" pt W) by auto. auto.
Qed.
(** A restart: the policy is saved to its file [path], and an enforcer is made from the model file
    [mp] and that file, by the constructor or by InitWithFile on any enforcer. *)
Theorem C112_restart_partial : forall o odd e b path mp m names n rules rf pf pe mat d,
  oracle_ext o -> reads o n mat d -> mat <> "" -> HasEval mat = false ->
  (forall x, In x (rd_vars d) -> In x (r_names rf ++ p_names pf)) -> tidy names n rules ->
  managed o names n rules e -> standard o false rf pf (effect_text pe) mat e -> defines_all e d -> level_of e = 10 ->
  e_adapter e = Some (AFile b path) -> path <> "" -> mp <> path -> writable (e_fs e) path = true -> writable_policy e ->
  NewModelFromFile odd (e_fs e) mp = Ok m -> suits false n rf pf (effect_text pe) mat m ->
  (forall sec pt, sec = "p" \/ sec = "g" -> declared e sec pt -> exists a, get_ast m sec pt = Ok a) ->
  snd (SavePolicy e) = Ok tt /\
  made odd (e_fs (fst (SavePolicy e))) mp path (fun e2 => same_policy e e2 /\ answer_alike o names rf pf d e e2).
Proof.
  intros o odd e b path mp m names n rules rf pf pe mat d X RD MAT NE VARS T M S D LV A NP NM W WP LM SU TY.
  destruct (save_file_spec e b path A NP W WP) as [OK [_ [text [TX FM]]]]. split; [exact OK|].
  eapply made_impl; [|eapply (C78_loaded_partial o odd _ mp path m (entries (e_model e)) names n rules false rf pf); eauto].
  - intros e2 [M2 [S2 [V2 [SI2 [AS2 [LV2 [DE2 [_ PI2]]]]]]]].
    assert (SP : same_policy e e2).
    { constructor.
      - rewrite V2. { apply rules_for_model; auto. } destruct (p_indexed m) eqn:Q; auto. discriminate (su_store _ _ _ _ _ _ _ SU Q).
      - intros l. rewrite AS2. apply saved_links. auto.
      - congruence. }
    split; auto. apply (C112_stored_decides o names n rules rules rf pf pe mat d e e2); auto.
    intros f I. apply DE2. apply TY; auto.
  - unfold NewModelFromFile, content_of in *. rewrite (save_other_file e b path mp A NM). auto.
  - split; auto. rewrite TX. auto.
  - intros pt r I. destruct (writable_entries e WP (pt, r) I) as [_ [sec [SE [DE SC]]]]. cbn [fst] in *. rewrite SC.
    split; [apply TY; auto|].
    assert (IR : In r (stored e sec pt)). { rewrite <- (rules_for_model e sec pt WP SE SC). apply rules_for_In. auto. }
    split.
    + intros ->. cbn in SC. subst sec. apply (st_fields _ _ _ _ _ _ _ S). auto.
    + intros ->. destruct (managed_mirror names n rules T o e M) as [_ GO _ _ _]. destruct GO as [_ GO]. 
      unfold stored, rules_in, get_ast in IR. destruct (aget pt (sec_of (e_model e) "g")) as [a|] eqn:Q; [|destruct IR].
      eapply Forall_forall; [|exact IR]. apply (GO pt a Q).
Qed.

(** ** From files to files *)
(** An enforcer is made from a model file and a policy file; any calls in order follow; the policy is
    saved, and an enforcer is made from the files again: it answers like the one that was saved. *)
Lemma level_reaches : forall o names n rules cs e e', tidy names n rules -> Forall (safe_call rules) cs -> reaches o e cs e' ->
  managed o names n rules e -> level_of e' = level_of e.
Proof.
  intros o names n rules cs e e' T F R M. pose proof (managed_mirror names n rules T o e M) as MI.
  pose proof (reaches_mirror names n rules T (level_of e) o cs e e' F R MI) as MI'. apply (mirror_level _ _ _ _ _ MI').
Qed.
Lemma undeclared_reaches : forall o rules cs e e' sec pt, Forall (safe_call rules) cs -> reaches o e cs e' -> declared e' sec pt -> declared e sec pt.
Proof.
  intros o rules cs e e' sec pt F R. induction R; auto. inversion F; subst. intros D. specialize (IHR H4 D). destruct IHR as [a A].
  pose proof (shape_run o c rules H3 e sec pt) as SH. rewrite H in SH. cbn [fst] in SH. rewrite A in SH. unfold declared.
  destruct (get_ast (e_model e) sec pt); try discriminate. eauto.
Qed.
Theorem C112_life_partial : forall o odd f mp pp m rs names n rules rf pf pe mat d e0 cs e b,
  oracle_ext o -> reads o n mat d -> mat <> "" -> HasEval mat = false ->
  (forall x, In x (rd_vars d) -> In x (r_names rf ++ p_names pf)) -> tidy names n rules ->
  NewModelFromFile odd f mp = Ok m -> suits false n rf pf (effect_text pe) mat m ->
  (forall g, In g (rd_funs d) -> exists a, get_ast m "g" g = Ok a) ->
  policy_says f pp rs -> fits_model m (List.length pf) rules rs -> mp <> pp ->
  NewEnforcer odd f mp pp = Ok e0 ->
  Forall (safe_call rules) cs -> Forall (shaped_call (List.length pf)) cs -> reaches o e0 cs e ->
  e_adapter e = Some (AFile b pp) -> aget mp (files (e_fs e)) = aget mp (files f) ->
  writable (e_fs e) pp = true -> writable_policy e ->
  snd (SavePolicy e) = Ok tt /\
  made odd (e_fs (fst (SavePolicy e))) mp pp (fun e2 => same_policy e e2 /\ answer_alike o names rf pf d e e2).
Proof.
  intros o odd f mp pp m rs names n rules rf pf pe mat d e0 cs e b X RD MAT NE VARS T LM SU FU PS FI NM NEW F1 F2 RE A MF W WP.
  destruct (C78_loaded_partial o odd f mp pp m rs names n rules false rf pf (effect_text pe) mat X T LM SU PS FI) as [[e0' [NEW' LD]] _].
  rewrite NEW in NEW'. inversion NEW'. subst e0'. destruct LD as [M0 [S0 [_ [_ [_ [LV0 [DE0 [DE0' _]]]]]]]].
  destruct (std_reaches o names n rules false rf pf pe mat d X) with (cs := cs) (e := e0) (e' := e) as [M [S D]]; auto.
  { intros g I. apply DE0. auto. }
  apply (C112_restart_partial o odd e b pp mp m names n rules rf pf pe mat d); auto.
  - rewrite (level_reaches o names n rules cs e0 e); auto.
  - apply PS.
  - rewrite <- LM. unfold NewModelFromFile, content_of. rewrite MF. auto.
  - intros sec pt _ DE. apply DE0'. eapply undeclared_reaches; eauto.
Qed.

(** The life of an enforcer with examples/rbac_model.conf. *)
Lemma says_fits : forall k n rv pv ev mv rt pt rs (rules : rule -> Prop), rbac_policy k n rs -> (forall r, In ("g", r) rs -> rules r) ->
  fits_model (loaded_model rv pv ev mv rt pt (gs1 n) (Vec []) (Vec [])) k rules rs.
Proof.
  intros k n rv pv ev mv rt pt rs rules P G t r I. destruct (rbac_fits k n rv pv ev mv rt pt rs P t r I) as [H1 [H2 _]].
  split; auto. split; auto. intros S. apply G. destruct (proj1 P _ _ I) as [[-> _]|[-> _]]; [discriminate|auto].
Qed.
Theorem C112_rbac_life_partial : forall o odd f mp pp rs (rules : rule -> Prop) e0 cs e b,
  oracle_ext o -> reads o 2 rbac_matcher rbac_reading ->
  files_hold f mp pp rbac_conf rs -> rbac_policy 3 2 rs -> mp <> pp ->
  tidy global 2 rules -> (forall r, In ("g", r) rs -> rules r) ->
  NewEnforcer odd f mp pp = Ok e0 ->
  Forall (safe_call rules) cs -> Forall (shaped_call 3) cs -> reaches o e0 cs e ->
  e_adapter e = Some (AFile b pp) -> aget mp (files (e_fs e)) = Some rbac_conf ->
  writable (e_fs e) pp = true -> writable_policy e ->
  snd (SavePolicy e) = Ok tt /\
  made odd (e_fs (fst (SavePolicy e))) mp pp (fun e2 => forall sub obj act,
    (obj <> "" \/ act <> "" \/ stored e "p" "p" <> []) ->
    exists v, snd (Enforce o (map DStr [sub; obj; act]) e) = Ok v /\ snd (Enforce o (map DStr [sub; obj; act]) e2) = Ok v).
Proof.
  intros o odd f mp pp rs rules e0 cs e b X RD [MF PS] P NM T G NEW F1 F2 RE A MF2 W WP.
  assert (VARS : forall x, In x (rd_vars rbac_reading) -> In x (r_names f3 ++ p_names f3)) by by_cases.
  assert (LM : NewModelFromFile odd f mp = Ok (loaded_model "sub, obj, act" "sub, obj, act" (effect_text AllowOverride) rbac_matcher f3 f3 (gs1 2) (Vec []) (Vec []))).
  { rewrite (model_file _ _ _ _ MF). apply rbac_loads. }
  destruct (C112_life_partial o odd f mp pp (loaded_model "sub, obj, act" "sub, obj, act" (effect_text AllowOverride) rbac_matcher f3 f3 (gs1 2) (Vec []) (Vec [])) rs global 2 rules f3 f3 AllowOverride rbac_matcher rbac_reading e0 cs e b) as [SV MD]; eauto using rbac_suits; try discriminate.
  { apply one_g. } { apply says_fits; auto. } { rewrite MF. auto. }
  split; auto. eapply made_impl; [|exact MD]. intros e2 [SP AL] sub obj act NE. apply AL.
  assert (F3 : forall r, In r (stored e "p" "p") -> List.length r = 3).
  { destruct (C78_loaded_partial o odd f mp pp (loaded_model "sub, obj, act" "sub, obj, act" (effect_text AllowOverride) rbac_matcher f3 f3 (gs1 2) (Vec []) (Vec [])) rs global 2 rules false f3 f3 (effect_text AllowOverride) rbac_matcher X T LM rbac_suits PS) as [[e0' [NEW' LD]] _]; [apply says_fits; auto|].
    rewrite NEW in NEW'. inversion NEW'. subst e0'. destruct LD as [M0 [S0 [_ [_ [_ [_ [DE0 _]]]]]]].
    destruct (std_reaches o global 2 rules false f3 f3 AllowOverride rbac_matcher rbac_reading X) with (cs := cs) (e := e0) (e' := e) as [_ [S _]]; auto; try discriminate.
    { intros g I. apply DE0. apply one_g. auto. }
    apply (st_fields _ _ _ _ _ _ _ S). }
  split; [reflexivity|]. split.
  - intros r I. destruct (three r (F3 r I)) as [s [o' [a ->]]]. one_call. split; reflexivity.
  - destruct NE as [NE|[NE|NE]]; [| |left; auto].
    + right. split; [one_call; split; reflexivity|]. intros [_ [Q _]]. apply NE. exact Q.
    + right. split; [one_call; split; reflexivity|]. intros [_ [_ Q]]. apply NE. exact Q.
Qed.

(** The rules of an enforcer made from the files keep their number of fields. *)
Lemma life_fields : forall o odd f mp pp m rs names n rules rf pf pe mat d e0 cs e,
  oracle_ext o -> mat <> "" -> HasEval mat = false ->
  tidy names n rules -> NewModelFromFile odd f mp = Ok m -> suits false n rf pf (effect_text pe) mat m ->
  (forall g, In g (rd_funs d) -> exists a, get_ast m "g" g = Ok a) ->
  policy_says f pp rs -> fits_model m (List.length pf) rules rs -> NewEnforcer odd f mp pp = Ok e0 ->
  Forall (safe_call rules) cs -> Forall (shaped_call (List.length pf)) cs -> reaches o e0 cs e ->
  forall r, In r (stored e "p" "p") -> List.length r = List.length pf.
Proof.
  intros o odd f mp pp m rs names n rules rf pf pe mat d e0 cs e X MAT NE T LM SU FU PS FI NEW F1 F2 RE.
  destruct (C78_loaded_partial o odd f mp pp m rs names n rules false rf pf (effect_text pe) mat X T LM SU PS FI) as [[e0' [NEW' LD]] _].
  rewrite NEW in NEW'. inversion NEW'. subst e0'. destruct LD as [M0 [S0 [_ [_ [_ [_ [DE0 _]]]]]]].
  destruct (std_reaches o names n rules false rf pf pe mat d X) with (cs := cs) (e := e0) (e' := e) as [_ [S _]]; auto.
  { intros g I. apply DE0. auto. }
  apply (st_fields _ _ _ _ _ _ _ S).
Qed.
(** The same with the effects of rbac_with_deny_model.conf, rbac_with_not_deny_model.conf and
    priority_model.conf: the rules say allow or deny, and their order is kept. *)
Theorem C112_effect_life_partial : forall o odd f mp pp rs pe (rules : rule -> Prop) e0 cs e b,
  oracle_ext o -> reads o 2 rbac_matcher rbac_reading ->
  files_hold f mp pp (eft_conf (effect_text pe)) rs -> rbac_policy 4 2 rs -> mp <> pp ->
  tidy global 2 rules -> (forall r, In ("g", r) rs -> rules r) ->
  NewEnforcer odd f mp pp = Ok e0 ->
  Forall (safe_call rules) cs -> Forall (shaped_call 4) cs -> reaches o e0 cs e ->
  e_adapter e = Some (AFile b pp) -> aget mp (files (e_fs e)) = Some (eft_conf (effect_text pe)) ->
  writable (e_fs e) pp = true -> writable_policy e ->
  snd (SavePolicy e) = Ok tt /\
  made odd (e_fs (fst (SavePolicy e))) mp pp (fun e2 => stored e2 "p" "p" = stored e "p" "p" /\ forall sub obj act,
    (obj <> "" \/ act <> "" \/ stored e "p" "p" <> []) ->
    exists v, snd (Enforce o (map DStr [sub; obj; act]) e) = Ok v /\ snd (Enforce o (map DStr [sub; obj; act]) e2) = Ok v).
Proof.
  intros o odd f mp pp rs pe rules e0 cs e b X RD [MF PS] P NM T G NEW F1 F2 RE A MF2 W WP.
  assert (VARS : forall x, In x (rd_vars rbac_reading) -> In x (r_names f3 ++ p_names f4)) by by_cases.
  set (m := loaded_model "sub, obj, act" "sub, obj, act, eft" (effect_text pe) rbac_matcher f3 f4 (gs1 2) (Vec []) (Vec [])).
  assert (LM : NewModelFromFile odd f mp = Ok m). { rewrite (model_file _ _ _ _ MF). apply eft_loads. }
  assert (FI : fits_model m (List.length f4) rules rs) by (apply says_fits; auto).
  assert (FU : forall g, In g (rd_funs rbac_reading) -> exists a, get_ast m "g" g = Ok a) by apply one_g.
  assert (MFE : aget mp (files (e_fs e)) = aget mp (files f)) by congruence.
  assert (MAT : rbac_matcher <> "") by discriminate.
  destruct (C112_life_partial o odd f mp pp m rs global 2 rules f3 f4 pe rbac_matcher rbac_reading e0 cs e b X RD MAT eq_refl VARS T LM (eft_suits pe) FU PS FI NM NEW F1 F2 RE A MFE W WP) as [SV MD].
  split; auto. eapply made_impl; [|exact MD]. intros e2 [SP AL]. split; [apply SP|]. intros sub obj act NE. apply AL.
  pose proof (life_fields o odd f mp pp m rs global 2 rules f3 f4 pe rbac_matcher rbac_reading e0 cs e X MAT eq_refl T LM (eft_suits pe) FU PS FI NEW F1 F2 RE) as F4.
  split; [reflexivity|]. split.
  - intros r I. destruct (four r (F4 r I)) as [s [o' [a [x ->]]]]. one_call. split; reflexivity.
  - destruct NE as [NE|[NE|NE]]; [| |left; auto].
    + right. split; [one_call; split; reflexivity|]. intros [_ [Q _]]. apply NE. exact Q.
    + right. split; [one_call; split; reflexivity|]. intros [_ [_ Q]]. apply NE. exact Q.
Qed.
(** The same with rbac_with_domains_model.conf, for names without colons. *)
Theorem C112_domain_life_partial : forall o odd f mp pp rs (rules : rule -> Prop) e0 cs e b,
  oracle_ext o -> reads o 3 domain_text domain_reading ->
  files_hold f mp pp domain_conf rs -> rbac_policy 4 3 rs -> mp <> pp ->
  tidy in_domain 3 rules -> (forall r, In ("g", r) rs -> rules r) ->
  NewEnforcer odd f mp pp = Ok e0 ->
  Forall (safe_call rules) cs -> Forall (shaped_call 4) cs -> reaches o e0 cs e ->
  (forall s r, In (s :: r) (stored e "p" "p") -> smem ":" s = false) ->
  e_adapter e = Some (AFile b pp) -> aget mp (files (e_fs e)) = Some domain_conf ->
  writable (e_fs e) pp = true -> writable_policy e ->
  snd (SavePolicy e) = Ok tt /\
  made odd (e_fs (fst (SavePolicy e))) mp pp (fun e2 => forall sub dom obj act, smem ":" sub = false ->
    (dom <> "" \/ obj <> "" \/ act <> "" \/ stored e "p" "p" <> []) ->
    exists v, snd (Enforce o (map DStr [sub; dom; obj; act]) e) = Ok v /\ snd (Enforce o (map DStr [sub; dom; obj; act]) e2) = Ok v).
Proof.
  intros o odd f mp pp rs rules e0 cs e b X RD [MF PS] P NM T G NEW F1 F2 RE NS A MF2 W WP.
  assert (VARS : forall x, In x (rd_vars domain_reading) -> In x (r_names fd ++ p_names fd)) by by_cases.
  set (m := loaded_model "sub, dom, obj, act" "sub, dom, obj, act" (effect_text AllowOverride) domain_text fd fd (gs1 3) (Vec []) (Vec [])).
  assert (LM : NewModelFromFile odd f mp = Ok m). { rewrite (model_file _ _ _ _ MF). apply domain_loads. }
  assert (FI : fits_model m (List.length fd) rules rs) by (apply says_fits; auto).
  assert (FU : forall g, In g (rd_funs domain_reading) -> exists a, get_ast m "g" g = Ok a) by apply one_g.
  assert (MFE : aget mp (files (e_fs e)) = aget mp (files f)) by congruence.
  assert (MAT : domain_text <> "") by discriminate.
  destruct (C112_life_partial o odd f mp pp m rs in_domain 3 rules fd fd AllowOverride domain_text domain_reading e0 cs e b X RD MAT eq_refl VARS T LM domain_suits FU PS FI NM NEW F1 F2 RE A MFE W WP) as [SV MD].
  split; auto. eapply made_impl; [|exact MD]. intros e2 [SP AL] sub dom obj act NU NE. apply AL.
  pose proof (life_fields o odd f mp pp m rs in_domain 3 rules fd fd AllowOverride domain_text domain_reading e0 cs e X MAT eq_refl T LM domain_suits FU PS FI NEW F1 F2 RE) as F4.
  assert (C : forall s d o' a, smem ":" s = false -> calls_ok in_domain domain_reading (value_of fd [sub; dom; obj; act] fd [s; d; o'; a])).
  { intros s d o' a NC. one_call. split; (split; [eexists; reflexivity|]); [exact NU|exact NC]. }
  split; [reflexivity|]. split.
  - intros r I. destruct (four r (F4 r I)) as [s [d [o' [a ->]]]]. apply C. eapply NS; eauto.
  - destruct NE as [NE|[NE|[NE|NE]]]; [| | |left; auto]; right; (split; [apply C; reflexivity|]); intros [_ [Q1 [Q2 Q3]]]; cbv in Q1, Q2, Q3; auto.
Qed.

(** ** Where it is false *)
(** What an enforcer made from the files of [e] after SavePolicy says, and what [e] says. *)
Definition differs_after_restart (c : list call) (req : list data) (before after : res bool) : Prop :=
  exists e0 e e2, NewEnforcer no_regex (disk rbac_conf rbac_csv) "m.conf" "p.csv" = Ok e0 /\ reaches mini e0 c e /\
    snd (SavePolicy e) = Ok tt /\ NewEnforcer no_regex (e_fs (fst (SavePolicy e))) "m.conf" "p.csv" = Ok e2 /\
    snd (Enforce mini req e) = before /\ snd (Enforce mini req e2) = after.
Ltac restart := eexists _, _, _; split; [vm_compute; reflexivity|]; split;
  [repeat (eapply reach_step; [vm_compute; reflexivity|discriminate|]); apply reach_nil|];
  split; [vm_compute; reflexivity|]; split; [vm_compute; reflexivity|]; split; vm_compute; reflexivity.
(** ClearPolicy leaves the role links: rules added again grant through them until the restart. *)
Theorem C112_clear_refuted : differs_after_restart [KClearPolicy; KAddPolicy "p" ["data2_admin"; "data2"; "read"]]
  (reqs ["alice"; "data2"; "read"]) (Ok true) (Ok false).
Proof. restart. Qed.
(** A value with a comma makes a rule of another shape, and requests that come to this rule are
    answered with an exception, also those that have nothing to do with the value. *)
Theorem C112_comma_refuted : differs_after_restart [KAddPolicy "p" ["alice"; "a,b"; "read"]]
  (reqs ["alice"; "a,b"; "read"]) (Ok true) (Throw CasbinEnforcer) /\
  differs_after_restart [KAddPolicy "p" ["alice"; "a,b"; "read"]] (reqs ["bob"; "data1"; "read"]) (Ok false) (Throw CasbinEnforcer).
Proof. split; restart. Qed.
(** A role manager of another depth is not in the files. *)
Theorem C112_depth_refuted : differs_after_restart [KSetRoleManager (new_rm 0); KBuildRoleLinks]
  (reqs ["alice"; "data2"; "read"]) (Ok false) (Ok true).
Proof. restart. Qed.
(** Without SavePolicy a change is lost, although it is answered with true and automatic saving is on. *)
Theorem C112_unsaved_refuted : exists e0 e1 e2,
  NewEnforcer no_regex (disk rbac_conf rbac_csv) "m.conf" "p.csv" = Ok e0 /\ e_auto_save e0 = true /\
  AddNamedPolicy "p" ["carol"; "data1"; "read"] e0 = (e1, Ok true) /\ NewEnforcer no_regex (e_fs e1) "m.conf" "p.csv" = Ok e2 /\
  snd (Enforce mini (reqs ["carol"; "data1"; "read"]) e1) = Ok true /\ snd (Enforce mini (reqs ["carol"; "data1"; "read"]) e2) = Ok false.
Proof.
  eexists _, _, _. split; [vm_compute; reflexivity|]. split; [reflexivity|]. split; [vm_compute; reflexivity|].
  split; [vm_compute; reflexivity|]. split; vm_compute; reflexivity.
Qed.

(** ** A case *)
(** The files of the examples, a rule and two roles added and one removed. *)
Definition case_rule (r : rule) : Prop := r = ["alice"; "data2_admin"] \/ r = ["carol"; "data2_admin"] \/ r = ["dave"; "carol"].
Definition case_calls := [KAddPolicy "p" ["carol"; "data3"; "read"]; KAddGrouping "g" ["carol"; "data2_admin"]; KAddGrouping "g" ["dave"; "carol"];
  KRemoveGrouping "g" ["alice"; "data2_admin"]].
Lemma case_tidy : tidy global 2 case_rule.
Proof.
  constructor; auto.
  - intros [d x] [d' y] H1 H2 E. unfold global in H1, H2. simpl in H1, H2. subst. simpl in E. congruence.
  - intros r [->|[->| ->]]; (split; [reflexivity|]); eexists None, _, _; repeat split.
  - intros r r' [->|[->| ->]] [->|[->| ->]] PM; auto; exfalso; match type of PM with Permutation.Permutation [?x; ?y] _ =>
        assert (K1 := Permutation.Permutation_in x PM (or_introl eq_refl)); assert (K2 := Permutation.Permutation_in y PM (or_intror (or_introl eq_refl)));
        cbn [In] in K1, K2; destruct K1 as [K1|[K1|[]]]; inversion K1; destruct K2 as [K2|[K2|[]]]; inversion K2 end.
Qed.
Lemma plain_word : forall v c s, v = String c s -> lacks "," v -> lacks "010" v -> M_Util.Trim v = v -> plain_value v.
Proof. intros v c s _ L1 L2 E. split; auto. split; auto. rewrite <- E. apply Trim_spec. Qed.
Ltac plain := eapply plain_word; [reflexivity|apply smem_lacks; reflexivity|apply smem_lacks; reflexivity|reflexivity].
Example C112_case : exists e0 e e2, NewEnforcer no_regex (disk rbac_conf rbac_csv) "m.conf" "p.csv" = Ok e0 /\
  tidy global 2 case_rule /\ Forall (safe_call case_rule) case_calls /\ Forall (shaped_call 3) case_calls /\ reaches mini e0 case_calls e /\
  e_adapter e = Some (AFile true "p.csv") /\ aget "m.conf" (files (e_fs e)) = Some rbac_conf /\ writable (e_fs e) "p.csv" = true /\ writable_policy e /\
  NewEnforcer no_regex (e_fs (fst (SavePolicy e))) "m.conf" "p.csv" = Ok e2 /\ stored e2 "p" "p" = stored e "p" "p" /\
  snd (Enforce mini (reqs ["dave"; "data2"; "read"]) e2) = Ok true /\ snd (Enforce mini (reqs ["alice"; "data2"; "read"]) e2) = Ok false.
Proof.
  eexists _, _, _. split; [vm_compute; reflexivity|]. split.
  { apply case_tidy. }
  split. { repeat (apply Forall_cons; [cbn [safe_call]; unfold case_rule; auto|]). apply Forall_nil. }
  split. { repeat (apply Forall_cons; [cbn; auto|]). apply Forall_nil. }
  split. { repeat (eapply reach_step; [vm_compute; reflexivity|discriminate|]); apply reach_nil. }
  split; [reflexivity|]. split; [reflexivity|]. split; [reflexivity|]. split.
  { intros sec [->| ->]; (split; [vm_compute; repeat constructor; simpl; tauto|]); intros pt [a Q]; unfold get_ast in Q; cbn in Q.
    - destruct (String.eqb_spec pt "p") as [->|]; [|discriminate]. split; [split; [plain|reflexivity]|].
      vm_compute. repeat (apply Forall_cons; [split; [discriminate|repeat (apply Forall_cons; [plain|]); apply Forall_nil]|]). apply Forall_nil.
    - destruct (String.eqb_spec pt "g") as [->|]; [|discriminate]. split; [split; [plain|reflexivity]|].
      vm_compute. repeat (apply Forall_cons; [split; [discriminate|repeat (apply Forall_cons; [plain|]); apply Forall_nil]|]). apply Forall_nil. }
  split; [vm_compute; reflexivity|]. split; [vm_compute; reflexivity|]. split; vm_compute; reflexivity.
Qed.
Ltac saved_well := intros sec [->| ->]; (split; [vm_compute; repeat constructor; simpl; intuition discriminate|]); intros pt [a Q]; unfold get_ast in Q; cbn in Q;
  match type of Q with context [String.eqb pt ?k] => destruct (String.eqb_spec pt k) as [->|]; [|discriminate] end;
  (split; [split; [plain|reflexivity]|]);
  vm_compute; repeat (apply Forall_cons; [split; [discriminate|repeat (apply Forall_cons; [plain|]); apply Forall_nil]|]); apply Forall_nil.
(** Priorities and domains: grouping rules of the file are removed and come back, rules are added. *)
Definition priority_conf := eft_conf "priority(p.eft) || deny".
Definition priority_calls := [KRemoveGrouping "g" ["alice"; "data1_deny_group"]; KAddPolicy "p" ["carol"; "data1"; "read"; "deny"];
  KAddPolicy "p" ["carol"; "data1"; "read"; "allow"]; KRemoveGrouping "g" ["bob"; "data2_allow_group"]; KAddGrouping "g" ["bob"; "data2_allow_group"]].
Example C112_effect_case : let rules := g_rules (says priority_csv) in
  files_hold (disk priority_conf priority_csv) "m.conf" "p.csv" priority_conf (says priority_csv) /\ rbac_policy 4 2 (says priority_csv) /\
  tidy global 2 rules /\ Forall (safe_call rules) priority_calls /\ Forall (shaped_call 4) priority_calls /\
  exists e0 e e2, NewEnforcer no_regex (disk priority_conf priority_csv) "m.conf" "p.csv" = Ok e0 /\ reaches mini e0 priority_calls e /\
  e_adapter e = Some (AFile true "p.csv") /\ aget "m.conf" (files (e_fs e)) = Some priority_conf /\ writable (e_fs e) "p.csv" = true /\ writable_policy e /\
  NewEnforcer no_regex (e_fs (fst (SavePolicy e))) "m.conf" "p.csv" = Ok e2 /\
  snd (Enforce mini (reqs ["carol"; "data1"; "read"]) e2) = Ok false /\ snd (Enforce mini (reqs ["alice"; "data1"; "write"]) e2) = Ok true /\
  snd (Enforce mini (reqs ["bob"; "data2"; "read"]) e2) = Ok true.
Proof.
  assert (P : rbac_policy 4 2 (says priority_csv)). { split; [intros pt r I; in_list I; auto|]. no_perm. }
  split; [apply disk_holds|]. split; [exact P|]. split; [eapply tidy_two; exact P|].
  split. { repeat (apply Forall_cons; [cbn [safe_call priority_calls]; try exact Logic.I; try (split; [reflexivity|]); try (exists "g"; split; [vm_compute; tauto|reflexivity])|]). apply Forall_nil. }
  split. { repeat (apply Forall_cons; [cbn; auto|]). apply Forall_nil. }
  eexists _, _, _. split; [vm_compute; reflexivity|].
  split. { repeat (eapply reach_step; [vm_compute; reflexivity|discriminate|]); apply reach_nil. }
  split; [reflexivity|]. split; [reflexivity|]. split; [reflexivity|]. split; [saved_well|].
  split; [vm_compute; reflexivity|]. split; [vm_compute; reflexivity|]. split; vm_compute; reflexivity.
Qed.
Definition domain_calls := [KRemoveGrouping "g" ["alice"; "admin"; "domain1"]; KAddPolicy "p" ["carol"; "domain2"; "data1"; "read"];
  KRemoveGrouping "g" ["bob"; "admin"; "domain2"]; KAddGrouping "g" ["bob"; "admin"; "domain2"]].
Example C112_domain_case : let rules := g_rules (says domain_csv) in
  files_hold (disk domain_conf domain_csv) "m.conf" "p.csv" domain_conf (says domain_csv) /\ rbac_policy 4 3 (says domain_csv) /\
  tidy in_domain 3 rules /\ Forall (safe_call rules) domain_calls /\ Forall (shaped_call 4) domain_calls /\
  exists e0 e e2, NewEnforcer no_regex (disk domain_conf domain_csv) "m.conf" "p.csv" = Ok e0 /\ reaches mini e0 domain_calls e /\
  (forall s r, In (s :: r) (stored e "p" "p") -> smem ":" s = false) /\
  e_adapter e = Some (AFile true "p.csv") /\ aget "m.conf" (files (e_fs e)) = Some domain_conf /\ writable (e_fs e) "p.csv" = true /\ writable_policy e /\
  NewEnforcer no_regex (e_fs (fst (SavePolicy e))) "m.conf" "p.csv" = Ok e2 /\
  snd (Enforce mini (reqs ["carol"; "domain2"; "data1"; "read"]) e2) = Ok true /\ snd (Enforce mini (reqs ["alice"; "domain1"; "data1"; "read"]) e2) = Ok false /\
  snd (Enforce mini (reqs ["bob"; "domain2"; "data2"; "read"]) e2) = Ok true.
Proof.
  assert (P : rbac_policy 4 3 (says domain_csv)). { split; [intros pt r I; in_list I; auto|]. no_perm. }
  split; [apply disk_holds|]. split; [exact P|]. split. { eapply tidy_three; [exact P|]. intros a b d I. in_list I; split; reflexivity. }
  split. { repeat (apply Forall_cons; [cbn [safe_call domain_calls]; try exact Logic.I; try (split; [reflexivity|]); try (exists "g"; split; [vm_compute; tauto|reflexivity])|]). apply Forall_nil. }
  split. { repeat (apply Forall_cons; [cbn; auto|]). apply Forall_nil. }
  eexists _, _, _. split; [vm_compute; reflexivity|].
  split. { repeat (eapply reach_step; [vm_compute; reflexivity|discriminate|]); apply reach_nil. }
  split. { intros s r I. in_list I; reflexivity. }
  split; [reflexivity|]. split; [reflexivity|]. split; [reflexivity|]. split; [saved_well|].
  split; [vm_compute; reflexivity|]. split; [vm_compute; reflexivity|]. split; vm_compute; reflexivity.
Qed.
Print Assumptions C112_stored_decides.
Print Assumptions C112_any_order.
Print Assumptions C112_restart_partial.
Print Assumptions C112_life_partial.
Print Assumptions C112_rbac_life_partial.
Print Assumptions C112_effect_life_partial.
Print Assumptions C112_domain_life_partial.
Print Assumptions C112_clear_refuted.
Print Assumptions C112_comma_refuted.
Print Assumptions C112_depth_refuted.
Print Assumptions C112_unsaved_refuted.
