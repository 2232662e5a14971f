(** Property C113: management calls behave as on a table of rules. *)
From Coq Require Import Permutation.
From Verif Require Import Base P_Base M_Util M_RoleManager M_Effector M_Model M_Persist M_Eval M_Evaluator M_Enforcer M_Matcher M_Config M_Load M_Init
  S_Text S_Effect S_Enforce S_Policy S_Persist S_History S_Roles S_Sync S_Rbac S_Standard S_Files S_Restart S_Agree S_Safe S_Table
  P_Decide P_Store P_Api P_Sync P_Ready P_Standard P_Persist P_Save P_Files P_Agree P_Table E_Examples T_Rbac T_Policy T_Load T_Persist T_Standard T_Files T_Agree T_Restart.

(** Any adds, of one rule or of many, removals, updates, questions and listings, one after the other, with rules of the right
    length no two of which are the same values in another order, on an enforcer whose links the
    library keeps: every call returns, and they all answer, and leave behind, what a table does. *)
Theorem C113_as_table_partial : forall o names k n prules rules e qs,
  tidy names n rules -> distinct_rules k prules -> in_order o names k n prules rules e -> Forall (op_in k n prules rules e) qs ->
  exists answers, snd (perform_all qs e) = map Ok answers /\
    table_run qs (table_of e) answers (table_of (fst (perform_all qs e))) /\
    in_order o names k n prules rules (fst (perform_all qs e)).
Proof.
  intros o names k n prules rules e qs T DR O F. destruct (all_go o names k n prules rules T DR qs e O F) as [l [e' [P [R [O' _]]]]].
  exists l. rewrite P. auto.
Qed.

(** A table leaves no choice: from the same table the same answers and the same table follow. *)
Theorem C113_table_decides : forall qs T T2 l l2 T' T2',
  untouched T T2 -> table_run qs T l T' -> table_run qs T2 l2 T2' -> l2 = l /\ untouched T' T2'.
Proof. intros qs T T2 l l2 T' T2' U R R2. eapply run_unique; eauto. Qed.

(** So two enforcers with the same rules answer all further calls alike, whatever was done to each of
    them before, and have the same rules after. *)
Theorem C113_same_answers_partial : forall o names k n prules rules rules' e e' qs,
  tidy names n rules -> tidy names n rules' -> distinct_rules k prules ->
  in_order o names k n prules rules e -> in_order o names k n prules rules' e' ->
  Forall (op_in k n prules rules e) qs -> Forall (op_in k n prules rules' e') qs ->
  untouched (table_of e) (table_of e') ->
  snd (perform_all qs e') = snd (perform_all qs e) /\
  untouched (table_of (fst (perform_all qs e))) (table_of (fst (perform_all qs e'))).
Proof.
  intros o names k n prules rules rules' e e' qs T T' DR O O' F F' U.
  destruct (all_go o names k n prules rules T DR qs e O F) as [l [e1 [P [R _]]]].
  destruct (all_go o names k n prules rules' T' DR qs e' O' F') as [l' [e1' [P' [R' _]]]].
  destruct (run_unique _ _ _ _ R _ _ _ U R') as [-> U1]. rewrite P, P'. auto.
Qed.

(** And they decide alike after it. *)
Lemma prepared_by_calls : forall o names n rules rf pf pe mat d lvl, oracle_ext o -> mat <> "" -> HasEval mat = false -> tidy names n rules ->
  forall e e', by_calls o (List.length pf) rules e e' ->
  prepared o names n rules rf pf pe mat d lvl e -> prepared o names n rules rf pf pe mat d lvl e'.
Proof.
  intros o names n rules rf pf pe mat d lvl X MAT NE T e e' B. induction B as [|e e1 e2 B _ IH]; auto. intros P. apply IH.
  destruct B as [->|[c [S [C R]]]]; auto. eapply prep_call; eauto.
Qed.
Theorem C113_decide_alike_partial : forall o names n prules rules rules' rf pf pe mat d lvl e e' qs,
  oracle_ext o -> reads o n mat d -> mat <> "" -> HasEval mat = false ->
  (forall x, In x (rd_vars d) -> In x (r_names rf ++ p_names pf)) ->
  tidy names n rules -> tidy names n rules' -> distinct_rules (List.length pf) prules ->
  prepared o names n rules rf pf pe mat d lvl e -> prepared o names n rules' rf pf pe mat d lvl e' ->
  in_order o names (List.length pf) n prules rules e -> in_order o names (List.length pf) n prules rules' e' ->
  Forall (op_in (List.length pf) n prules rules e) qs -> Forall (op_in (List.length pf) n prules rules' e') qs ->
  untouched (table_of e) (table_of e') ->
  snd (perform_all qs e') = snd (perform_all qs e) /\
  answer_alike o names rf pf d (fst (perform_all qs e)) (fst (perform_all qs e')).
Proof.
  intros o names n prules rules rules' rf pf pe mat d lvl e e' qs X RD MAT NE VARS T T' DR P P' O O' F F' U.
  destruct (all_go o names (List.length pf) n prules rules T DR qs e O F) as [l [e1 [E [R [_ B]]]]].
  destruct (all_go o names (List.length pf) n prules rules' T' DR qs e' O' F') as [l' [e1' [E' [R' [_ B']]]]].
  destruct (run_unique _ _ _ _ R _ _ _ U R') as [-> U1]. rewrite E, E'. split; auto. cbn [fst].
  apply (prepared_by_calls o names n rules rf pf pe mat d lvl) in B; auto.
  apply (prepared_by_calls o names n rules' rf pf pe mat d lvl) in B'; auto.
  destruct B as [M S D L]. destruct B' as [M' S' D' L'].
  apply (C112_stored_decides o names n rules rules' rf pf pe mat d e1 e1'); auto. constructor.
  - apply (U1 Rules).
  - intros lk. unfold assigned. pose proof (U1 Groupings) as UG. unfold table_of in UG. simpl in UG.
    split; intros [pt [r [I Q]]]; exists pt, r; (split; [|exact Q]); rewrite ?UG in *; auto.
  - congruence.
Qed.

(** ** After a restart *)
Lemma made_and : forall odd f mp pp (P Q : enforcer -> Prop), made odd f mp pp P -> made odd f mp pp Q -> made odd f mp pp (fun e => P e /\ Q e).
Proof.
  intros odd f mp pp P Q [[e [E PE]] I] [[e2 [E2 QE]] I2]. split.
  - exists e. split; auto. split; auto. congruence.
  - intros e0 F. destruct (I e0 F) as [x [X PX]]. destruct (I2 e0 F) as [y [Y QY]]. exists x. split; auto. split; auto. congruence.
Qed.
(** No type keeps its rules in an unordered_set. *)
Definition in_vectors (m : model) : Prop := forall s pt a, get_ast m (section_name s) pt = Ok a -> is_hash (a_policy a) = false.
Definition read_in_order (rs : list (string * rule)) (e : enforcer) : Prop :=
  forall s pt, declared e (section_name s) pt -> section_of pt = section_name s -> stored e (section_name s) pt = rules_for pt rs.
Lemma load_in_order : forall e rs, offers e rs -> Forall (known e) rs -> in_vectors (e_model e) -> read_in_order rs (fst (LoadPolicy e)).
Proof.
  intros e rs O K V s pt D SO. destruct (C38_load_replaces e rs O K) as [H [D2 _]]. apply D2 in D.
  assert (SEC : section_name s = "p" \/ section_name s = "g") by (destruct s; auto). specialize (H _ pt SEC D SO).
  destruct D as [a A]. pose proof (V s pt a A) as NH. unfold kind_of in H. rewrite A in H. unfold kept_as in H. destruct (a_policy a); [|discriminate]. auto.
Qed.
Lemma made_in_order : forall o odd f mp pp m rs names n rules hashed rf pf eft mat,
  oracle_ext o -> tidy names n rules -> NewModelFromFile odd f mp = Ok m -> suits hashed n rf pf eft mat m ->
  policy_says f pp rs -> fits_model m (List.length pf) rules rs -> in_vectors m -> made odd f mp pp (read_in_order rs).
Proof.
  intros o odd f mp pp m rs names n rules hashed rf pf eft mat X T LM S PS FI V. pose proof PS as [NP PF].
  assert (GO : forall e, e_model e = m -> e_adapter e = Some (AFile true pp) -> e_fs e = f -> read_in_order rs (fst (LoadPolicy e))).
  { intros e EM EA EF. apply load_in_order.
    - unfold offers. rewrite EA, EF. exact PS.
    - apply Forall_forall. intros [pt r] I. unfold known, declared. rewrite EM. apply (FI pt r I).
    - rewrite EM. auto. }
  destruct (C78_loaded_partial o odd f mp pp m rs names n rules hashed rf pf eft mat X T LM S PS FI) as [[e [E _]] I]. split.
  - exists e. split; auto. revert E. unfold NewEnforcer, NewEnforcerWithAdapter. rewrite LM. cbn [bind]. unfold new_enforcer.
    assert (VA : adapter_valid (AFile true pp) = true) by (unfold adapter_valid; destruct (String.eqb_spec pp ""); [congruence|reflexivity]). rewrite VA.
    match goal with |- context [LoadPolicy ?x] => pose proof (GO x eq_refl eq_refl eq_refl) as G; destruct (LoadPolicy x) as [e' [u|y|z]]; intros Q; inversion Q; subst; exact G end.
  - intros e0 E0. destruct (I e0 E0) as [e1 [E1 _]]. exists e1. split; auto. revert E1. unfold InitWithFile, InitWithAdapter. rewrite E0, LM. unfold InitWithModelAndAdapter. cbn [adapter_filtered].
    match goal with |- context [LoadPolicy ?x] => assert (G : read_in_order rs (fst (LoadPolicy x))) by (apply GO; [reflexivity|reflexivity|exact E0]);
      destruct (LoadPolicy x) as [e' [u|y|z]]; intros Q; inversion Q; subst; exact G end.
Qed.
(** An enforcer made from files takes rules together. *)
Lemma load_batch : forall e pp, e_adapter e = Some (AFile true pp) -> batch_saveable (fst (LoadPolicy e)).
Proof.
  intros e pp A. assert (C : forall e1, e_adapter e1 = Some (AFile true pp) -> batch_saveable e1) by (intros e1 E; unfold batch_saveable; rewrite E; auto).
  unfold LoadPolicy, mbind, e_ClearPolicy, modify, adapter_load. cbn [e_adapter set_model]. rewrite A.
  destruct (FileAdapter_LoadPolicy _ pp _) as [m2 [u|x|y]]; cbn [fst]; try (apply C; exact A).
  apply bk_rebuild, C. exact A.
Qed.
Lemma made_batch : forall o odd f mp pp m rs names n rules hashed rf pf eft mat,
  oracle_ext o -> tidy names n rules -> NewModelFromFile odd f mp = Ok m -> suits hashed n rf pf eft mat m ->
  policy_says f pp rs -> fits_model m (List.length pf) rules rs -> made odd f mp pp batch_saveable.
Proof.
  intros o odd f mp pp m rs names n rules hashed rf pf eft mat X T LM S PS FI. pose proof PS as [NP PF].
  destruct (C78_loaded_partial o odd f mp pp m rs names n rules hashed rf pf eft mat X T LM S PS FI) as [[e [E _]] I]. split.
  - exists e. split; auto. revert E. unfold NewEnforcer, NewEnforcerWithAdapter. rewrite LM. cbn [bind]. unfold new_enforcer.
    assert (VA : adapter_valid (AFile true pp) = true) by (unfold adapter_valid; destruct (String.eqb_spec pp ""); [congruence|reflexivity]). rewrite VA.
    match goal with |- context [LoadPolicy ?x] => pose proof (load_batch x pp eq_refl) as G; destruct (LoadPolicy x) as [e' [u|y|z]]; intros Q; inversion Q; subst; exact G end.
  - intros e0 E0. destruct (I e0 E0) as [e1 [E1 _]]. exists e1. split; auto. revert E1. unfold InitWithFile, InitWithAdapter. rewrite E0, LM. unfold InitWithModelAndAdapter. cbn [adapter_filtered].
    match goal with |- context [LoadPolicy ?x] => pose proof (load_batch x pp eq_refl) as G;
      destruct (LoadPolicy x) as [e' [u|y|z]]; intros Q; inversion Q; subst; exact G end.
Qed.
(** An enforcer in order saves its policy and another one is made from the files: it has the same
    rules in the same places, answers every further sequence of calls as the first one does, and
    decides every request after it as the first one does. *)
Theorem C113_restart_partial : forall o odd e b path mp m names n prules rules rf pf pe mat d,
  oracle_ext o -> reads o n mat d -> mat <> "" -> HasEval mat = false ->
  (forall x, In x (rd_vars d) -> In x (r_names rf ++ p_names pf)) -> tidy names n rules -> distinct_rules (List.length pf) prules ->
  in_order o names (List.length pf) n prules rules e ->
  standard o false rf pf (effect_text pe) mat e -> defines_all e d -> level_of e = 10 ->
  e_adapter e = Some (AFile b path) -> path <> "" -> mp <> path -> writable (e_fs e) path = true -> writable_policy e ->
  NewModelFromFile odd (e_fs e) mp = Ok m -> suits false n rf pf (effect_text pe) mat m -> in_vectors m ->
  (forall s pt, declared e (section_name s) pt <-> exists a, get_ast m (section_name s) pt = Ok a) ->
  snd (SavePolicy e) = Ok tt /\
  made odd (e_fs (fst (SavePolicy e))) mp path (fun e2 => untouched (table_of e) (table_of e2) /\
    forall qs, Forall (op_in (List.length pf) n prules rules e) qs ->
      snd (perform_all qs e2) = snd (perform_all qs e) /\
      answer_alike o names rf pf d (fst (perform_all qs e)) (fst (perform_all qs e2))).
Proof.
  intros o odd e b path mp m names n prules rules rf pf pe mat d X RD MAT NE VARS T DR O S D LV A NP NM W WP LM SU V TY.
  destruct (save_file_spec e b path A NP W WP) as [OK [_ [text [TX FM]]]]. split; [exact OK|].
  set (f := e_fs (fst (SavePolicy e))) in *.
  assert (LM' : NewModelFromFile odd f mp = Ok m).
  { unfold f, NewModelFromFile, content_of in *. rewrite (save_other_file e b path mp A NM). auto. }
  assert (PS : policy_says f path (entries (e_model e))) by (split; auto; rewrite TX; auto).
  assert (FI : fits_model m (List.length pf) rules (entries (e_model e))).
  { intros pt r I. destruct (writable_entries e WP (pt, r) I) as [_ [sec [SE [DE SC]]]]. cbn [fst] in *. rewrite SC.
    assert (IR : In r (stored e sec pt)). { rewrite <- (rules_for_model e sec pt WP SE SC). apply rules_for_In. auto. }
    split; [|split].
    - destruct SE as [->| ->]; [apply (TY Rules)|apply (TY Groupings)]; auto.
    - intros ->. cbn in SC. subst sec. apply (st_fields _ _ _ _ _ _ _ S). auto.
    - intros ->. eapply P_Table.g_rules; eauto. }
  assert (MB : made odd f mp path batch_saveable) by (eapply (made_batch o odd f mp path m (entries (e_model e)) names n rules false rf pf); eauto).
  eapply made_impl; [|apply made_and; [exact MB|apply made_and; [eapply (C78_loaded_partial o odd f mp path m (entries (e_model e)) names n rules false rf pf); eauto|
    eapply (made_in_order o odd f mp path m (entries (e_model e)) names n rules false rf pf); eauto]]].
  intros e2 [B2 [[M2 [S2 [V2 [SI2 [AS2 [LV2 [DE2 [DE2' PI2]]]]]]]] RO]].
  assert (DD : forall s pt, declared e (section_name s) pt <-> declared e2 (section_name s) pt).
  { intros s pt. rewrite TY. split; auto. }
  assert (U : untouched (table_of e) (table_of e2)).
  { intros s pt. unfold table_of. destruct (get_ast_cases (e_model e) (section_name s) pt) as [[a G]|G].
    - assert (DE : declared e (section_name s) pt) by (exists a; auto).
      assert (SE : section_name s = "p" \/ section_name s = "g") by (destruct s; auto).
      destruct (WP _ SE) as [_ W2]. destruct (W2 pt DE) as [[_ SC] _].
      rewrite (RO s pt); auto. { apply rules_for_model; auto. } apply DD. auto.
    - assert (N : ~ declared e (section_name s) pt) by (intros [x Q]; congruence).
      assert (N2 : ~ declared e2 (section_name s) pt) by (rewrite <- DD; auto). unfold stored, rules_in. rewrite G.
      destruct (get_ast (e_model e2) (section_name s) pt) as [x| |] eqn:Q; auto. elim N2. exists x. auto. }
  split; [exact U|]. intros qs F.
  assert (O2 : in_order o names (List.length pf) n prules rules e2).
  { destruct O as [_ R N]. split; auto.
    - intros pt r I. apply (R pt). pose proof (U Rules pt) as Q. unfold table_of in Q. simpl in Q. rewrite <- Q. auto.
    - intros s pt. pose proof (U s pt) as Q. unfold table_of in Q. rewrite Q. auto. }
  assert (F2 : Forall (op_in (List.length pf) n prules rules e2) qs).
  { eapply Forall_impl; [|exact F]. intros q I. destruct q; simpl in *; rewrite <- ?DD; intuition; try (apply (DD Rules); auto). }
  eapply (C113_decide_alike_partial o names n prules rules rules rf pf pe mat d 10 e e2 qs); eauto.
  - split; auto. apply (io_managed _ _ _ _ _ _ _ O).
  - split; auto. intros g I. apply (DD Groupings). apply D. auto.
Qed.

(** ** What the conditions are for *)
Definition case_rules (r : rule) : Prop := In r [r_alice; r_bob; ["carol"; "data3"; "read"]; ["carol"; "data3"; "write"]].
Ltac small_order := constructor; [|
  let pt := fresh "pt" in let r := fresh "r" in let I := fresh "I" in let Q := fresh "Q" in
  intros pt r I; destruct (String.eqb pt "p") eqn:Q;
  [apply String.eqb_eq in Q; subst pt; vm_compute in I; repeat (destruct I as [<-|I]; [unfold case_rules; simpl; tauto|]); destruct I
  |unfold stored, rules_in, get_ast in I; vm_compute in I; vm_compute in Q; rewrite ?Q in I; destruct I]
  |let pt := fresh "pt" in let Q := fresh "Q" in
  intros [] pt; simpl section_name; unfold stored, rules_in, get_ast;
  [destruct (String.eqb pt "p") eqn:Q|destruct (String.eqb pt "g") eqn:Q];
  try (apply String.eqb_eq in Q; subst pt; vm_compute; repeat constructor; simpl; intuition discriminate);
  vm_compute in Q; vm_compute; rewrite ?Q; constructor].
(** A rule that is another one in another order is taken for it: the enforcer answers that it is there. *)
Theorem C113_anagram_refuted : exists e r r', in_order mini plain_names 3 2 (fun x => x = r \/ x = r' \/ x = r_alice \/ x = r_bob) team_rule e /\
  ~ In r' (stored e "p" "p") /\ snd (perform_all [Ask Rules "p" r'] e) = [Ok (Said true)] /\
  ~ table_run [Ask Rules "p" r'] (table_of e) [Said true] (table_of e).
Proof.
  exists (fst (perform_all [Put Rules "p" ["data9"; "carol"; "read"]] ex)), ["data9"; "carol"; "read"], ["carol"; "data9"; "read"].
  assert (N : ~ In ["carol"; "data9"; "read"] (stored (fst (perform_all [Put Rules "p" ["data9"; "carol"; "read"]] ex)) "p" "p")).
  { vm_compute. intros [H|[H|[H|[]]]]; discriminate. }
  split; [|split; [exact N|split; [vm_compute; reflexivity|]]].
  - small_order.
    eapply managed_call with (c := KAddPolicy "p" ["data9"; "carol"; "read"]) (out := Ok tt); [apply ex_kept|exact Logic.I|vm_compute; reflexivity|discriminate].
  - intros R. inversion R; subst. match goal with H : table_step _ _ _ _ |- _ => inversion H; subst end.
    apply N. match goal with H : true = true <-> _ |- _ => apply H; reflexivity end.
Qed.

(** ** A case *)
(** Two enforcers with the same rules and different pasts; all the kinds of calls. *)
Definition case_ops := [Put Rules "p" ["carol"; "data3"; "read"]; Put Rules "p" ["carol"; "data3"; "read"]; Put Groupings "g" ["carol"; "admin"];
  Ask Rules "p" r_bob; Drop Rules "p" r_bob; Drop Rules "p" r_bob; Swap "p" r_alice ["carol"; "data3"; "write"]; Show Rules "p";
  ShowMatching Groupings "g" 1 ["admin"]; Drop Groupings "g" ["alice"; "admin"]; Ask Groupings "g" ["alice"; "admin"];
  DropMatching Rules "p" 2 ["write"]; Show Rules "p"; DropMatching Groupings "g" 0 ["carol"]; Show Groupings "g"; Swap "p" r_alice r_bob; Put Rules "p" r_bob;
  PutAll Rules "p" [r_alice; r_bob]; PutAll Rules "p" [["carol"; "data3"; "write"]; r_alice]; PutAll Groupings "g" [["carol"; "admin"]; ["alice"; "admin"]];
  Show Rules "p"; Show Groupings "g"; PutAll Groupings "g" [["carol"; "admin"]]].
Definition past := [Put Rules "p" ["carol"; "data3"; "read"]; Put Groupings "g" ["carol"; "admin"]; Drop Groupings "g" ["carol"; "admin"]; Drop Rules "p" ["carol"; "data3"; "read"]].
Definition elder := fst (perform_all past ex).
Ltac not_perm3 P := exfalso; unfold r_alice, r_bob in P;
  match type of P with Permutation (?x :: ?y :: ?z :: nil) ?l =>
    let I := fresh "I" in let J := fresh "J" in let K := fresh "K" in
    pose proof (Permutation_in x P (or_introl eq_refl)) as I; simpl in I;
    pose proof (Permutation_in y P (or_intror (or_introl eq_refl))) as J; simpl in J;
    pose proof (Permutation_in z P (or_intror (or_intror (or_introl eq_refl)))) as K; simpl in K; intuition discriminate
  end.
Lemma case_distinct : distinct_rules (List.length f3) case_rules.
Proof.
  split.
  - intros r H. unfold case_rules in H. cases_in H; reflexivity.
  - intros r r' H H' P. unfold case_rules in *. cases_in H; cases_in H'; try reflexivity; not_perm3 P.
Qed.
Lemma ex_in_order : in_order mini plain_names (List.length f3) 2 case_rules team_rule ex.
Proof. small_order. apply ex_kept. Qed.
Lemma ops_in : forall e qs, declared e "p" "p" -> declared e "g" "g" -> batch_saveable e -> incl qs (case_ops ++ past) -> Forall (op_in (List.length f3) 2 case_rules team_rule e) qs.
Proof.
  intros e qs D G BS I. apply Forall_forall. intros q H. apply I in H. unfold case_ops, past in H. cbn [app] in H.
  repeat (destruct H as [<-|H]; [cbn [op_in section_name]; unfold case_rules, team_rule; repeat split; auto; simpl; auto 8; try lia;
    repeat (constructor; [simpl; auto 8; intuition discriminate|]); constructor|]). destruct H.
Qed.
Lemma past_in : Forall (op_in (List.length f3) 2 case_rules team_rule ex) past.
Proof. apply ops_in; [apply ex_declared_p|apply ex_declared_g|vm_compute; auto|]. intros x I. apply in_or_app. auto. Qed.
Example C113_case :
  tidy plain_names 2 team_rule /\ distinct_rules (List.length f3) case_rules /\
  in_order mini plain_names (List.length f3) 2 case_rules team_rule ex /\ in_order mini plain_names (List.length f3) 2 case_rules team_rule elder /\
  prepared mini plain_names 2 team_rule f3 f3 AllowOverride rbac_matcher rbac_reading 10 ex /\
  prepared mini plain_names 2 team_rule f3 f3 AllowOverride rbac_matcher rbac_reading 10 elder /\
  Forall (op_in (List.length f3) 2 case_rules team_rule ex) case_ops /\ Forall (op_in (List.length f3) 2 case_rules team_rule elder) case_ops /\
  untouched (table_of ex) (table_of elder) /\
  snd (perform_all case_ops elder) = map Ok [Said true; Said false; Said true; Said true; Said true; Said false; Said true;
    Listed [["carol"; "data3"; "read"]; ["carol"; "data3"; "write"]]; Listed [["alice"; "admin"]; ["carol"; "admin"]]; Said true; Said false;
    Said true; Listed [["carol"; "data3"; "read"]]; Said true; Listed []; Said false; Said true;
    Said false; Said true; Said true; Listed [["carol"; "data3"; "read"]; r_bob; ["carol"; "data3"; "write"]; r_alice];
    Listed [["carol"; "admin"]; ["alice"; "admin"]]; Said false].
Proof.
  assert (PX : prepared mini plain_names 2 team_rule f3 f3 AllowOverride rbac_matcher rbac_reading 10 ex).
  { constructor.
    - apply ex_kept.
    - constructor; try reflexivity; try discriminate.
      + split; [|exact Logic.I]. prove_declares.
      + intros r I. vm_compute in I. cases_in I; reflexivity.
    - intros f [<-|[]]. eexists. reflexivity.
    - reflexivity. }
  destruct (all_go mini plain_names (List.length f3) 2 case_rules team_rule team_tidy case_distinct past ex ex_in_order past_in) as [l [e' [P [_ [O B]]]]].
  assert (EQ : e' = elder) by (unfold elder; rewrite P; reflexivity). subst e'.
  split; [apply team_tidy|]. split; [apply case_distinct|]. split; [apply ex_in_order|]. split; [exact O|]. split; [exact PX|].
  split. { eapply prepared_by_calls; [| | | |exact B|exact PX]; [apply mini_ext|discriminate|reflexivity|apply team_tidy]. }
  split. { apply ops_in; [apply ex_declared_p|apply ex_declared_g|vm_compute; auto|]. intros x I. apply in_or_app. auto. }
  split. { apply ops_in; [eexists; vm_compute; reflexivity|eexists; vm_compute; reflexivity|vm_compute; auto|]. intros x I. apply in_or_app. auto. }
  split.
  { intros s pt. unfold table_of, stored, rules_in, get_ast. destruct s; vm_compute; reflexivity. }
  vm_compute. reflexivity.
Qed.

(** The enforcer of examples/rbac_model.conf and a policy file meets the conditions of the restart. *)
Definition file_rules (r : rule) : Prop := In r [["alice"; "data1"; "read"]; ["bob"; "data2"; "write"]; ["data2_admin"; "data2"; "read"];
  ["data2_admin"; "data2"; "write"]; ["carol"; "data3"; "read"]].
Definition rbac_loaded := loaded_model "sub, obj, act" "sub, obj, act" (effect_text AllowOverride) rbac_matcher f3 f3 (gs1 2) (Vec []) (Vec []).
Example C113_restart_case : exists e e2, NewEnforcer no_regex (disk rbac_conf rbac_csv) "m.conf" "p.csv" = Ok e /\
  tidy global 2 case_rule /\ distinct_rules (List.length f3) file_rules /\ in_order mini global (List.length f3) 2 file_rules case_rule e /\
  standard mini false f3 f3 (effect_text AllowOverride) rbac_matcher e /\ defines_all e rbac_reading /\ level_of e = 10 /\
  e_adapter e = Some (AFile true "p.csv") /\ writable (e_fs e) "p.csv" = true /\ writable_policy e /\
  NewModelFromFile no_regex (e_fs e) "m.conf" = Ok rbac_loaded /\ suits false 2 f3 f3 (effect_text AllowOverride) rbac_matcher rbac_loaded /\ in_vectors rbac_loaded /\
  (forall s pt, declared e (section_name s) pt <-> exists a, get_ast rbac_loaded (section_name s) pt = Ok a) /\
  NewEnforcer no_regex (e_fs (fst (SavePolicy e))) "m.conf" "p.csv" = Ok e2 /\
  snd (perform_all [Put Rules "p" ["carol"; "data3"; "read"]; Drop Groupings "g" ["alice"; "data2_admin"]; ShowMatching Rules "p" 0 ["carol"]] e2) =
    map Ok [Said true; Said true; Listed [["carol"; "data3"; "read"]]].
Proof.
  destruct (C78_loaded_partial mini no_regex (disk rbac_conf rbac_csv) "m.conf" "p.csv" rbac_loaded (T_Files.says rbac_csv) global 2 case_rule false f3 f3
    (effect_text AllowOverride) rbac_matcher) as [[e [E [M [S [V [SI [AS [LV [DE [DE' PI]]]]]]]]]] _].
  { apply mini_ext. } { apply case_tidy. } { apply rbac_loads. } { apply rbac_suits. } { apply (disk_holds rbac_conf rbac_csv). }
  { apply says_fits. { split; [intros pt r I; in_list I; auto|]. no_perm. } intros r I. in_list I; unfold case_rule; auto. }
  pose proof E as E0. vm_compute in E0. injection E0 as E0.
  exists e. eexists. split; [exact E|]. split; [apply case_tidy|]. split.
  { split.
    - intros r H. unfold file_rules in H. cases_in H; reflexivity.
    - intros r r' H H' P. unfold file_rules in *. cases_in H; cases_in H'; try reflexivity; not_perm3 P. }
  split. { subst e. constructor; [exact M| |].
    - intros pt r I. unfold stored, rules_in, get_ast in I. cbn in I. destruct (String.eqb_spec pt "p") as [->|]; [|destruct I]. vm_compute in I. unfold file_rules. simpl. tauto.
    - intros [] pt; unfold stored, rules_in, get_ast; cbn.
      + destruct (String.eqb pt "p"); [vm_compute; repeat constructor; simpl; intuition discriminate|constructor].
      + destruct (String.eqb pt "g"); [vm_compute; repeat constructor; simpl; intuition discriminate|constructor]. }
  split; [exact S|]. split. { intros g I. apply DE. apply one_g. exact I. }
  split; [exact LV|]. subst e. split; [reflexivity|]. split; [reflexivity|]. split; [saved_well|]. split; [apply rbac_loads|]. split; [apply rbac_suits|].
  split. { intros [] pt a Q; unfold get_ast in Q; cbn in Q; [destruct (String.eqb pt "p")|destruct (String.eqb pt "g")]; inversion Q; reflexivity. }
  split. { intros s pt. split; [apply DE'|apply DE]. }
  split; [vm_compute; reflexivity|]. vm_compute. reflexivity.
Qed.

Print Assumptions C113_as_table_partial.
Print Assumptions C113_table_decides.
Print Assumptions C113_same_answers_partial.
Print Assumptions C113_decide_alike_partial.
Print Assumptions C113_restart_partial.
Print Assumptions C113_anagram_refuted.
