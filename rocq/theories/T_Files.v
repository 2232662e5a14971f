(** Property C78: from the files to the decisions. *)
From Coq Require Import Permutation.
From Verif Require Import Base P_Base M_Util M_RoleManager M_Effector M_Model M_Persist M_Eval M_Evaluator M_Enforcer M_Matcher M_Config M_Load M_Init
  S_Text S_Effect S_Enforce S_Policy S_Persist S_History S_Roles S_Sync S_Rbac S_Standard S_Files
  P_Enforce P_Decide P_Store P_Api P_History P_Nodup P_Persist P_Roles P_Sync P_Ready P_Standard P_Files E_Examples T_Load T_Standard.

(** In all theorems [f] holds the files, [mp] and [pp] are the paths of the model file and of
    the policy file, and [odd] is as in T_Load.v. *)

(** ** What is loaded *)
(** An enforcer made from the files is in order: its rules and role links are those of the policy
    file, in the order of the file unless they are kept in a hash set. *)
Definition loaded (o : oracle) (names : node -> Prop) (n : nat) (rules : rule -> Prop) (hashed : bool) (rf pf : list string) (eft mat : string)
           (m : model) (rs : list (string * rule)) (e : enforcer) : Prop :=
  managed o names n rules e /\ standard o hashed rf pf eft mat e /\
  (p_indexed m = false -> stored e "p" "p" = rules_for "p" rs) /\
  (forall sec pt r, sec = "p" \/ sec = "g" -> section_of pt = sec -> (In r (stored e sec pt) <-> In (pt, r) rs)) /\
  (forall l, assigned e l <-> listed_links rs l) /\ level_of e = 10 /\
  (forall sec pt, (exists a, get_ast m sec pt = Ok a) -> declared e sec pt) /\
  (forall sec pt, declared e sec pt -> exists a, get_ast m sec pt = Ok a) /\ p_indexed (e_model e) = p_indexed m.
Lemma load_fresh : forall o names n rules hashed rf pf eft mat e m f pp rs, oracle_ext o -> tidy names n rules ->
  e = mkE m (e_heap e) (e_rm e) (Some (AFile true pp)) None f None true true true true ->
  hget (e_heap e) (e_rm e) = Ok (new_rm 10) ->
  suits hashed n rf pf eft mat m -> policy_says f pp rs ->
  fits_model m (List.length pf) rules rs ->
  exists e', LoadPolicy e = (e', Ok tt) /\ loaded o names n rules hashed rf pf eft mat m rs e'.
Proof.
  intros o names n rules hashed rf pf eft mat e m f pp rs X T E H S PS FI.
  destruct (load_step o names n rules hashed rf pf eft mat e rs) as [e' [L [M [ST [SH [PI [V [SI [AS LV]]]]]]]]]; auto; try (rewrite E; simpl; auto; fail).
  - exists (new_rm 10). auto.
  - assert (EM : e_model e = m) by (rewrite E; auto). rewrite EM in *.
    exists e'. split; auto. unfold loaded. repeat (split; auto).
    + rewrite LV. unfold level_of. rewrite H. reflexivity.
    + intros sec pt [a A]. specialize (SH sec pt). rewrite EM, A in SH. unfold declared. destruct (get_ast (e_model e') sec pt); try discriminate. eauto.
    + intros sec pt [a A]. specialize (SH sec pt). rewrite EM, A in SH. destruct (get_ast m sec pt); try discriminate. eauto.
Qed.

Lemma made_impl : forall odd f mp pp (P Q : enforcer -> Prop), (forall e, P e -> Q e) -> made odd f mp pp P -> made odd f mp pp Q.
Proof.
  intros odd f mp pp P Q H [[e [E PE]] I]. split; [eauto|]. intros e0 E0. destruct (I e0 E0) as [e' [E' P']]. eauto.
Qed.

(** The constructor, and InitWithFile on any enforcer, succeed and deliver such an enforcer. *)
Theorem C78_loaded_partial : forall o odd f mp pp m rs names n rules hashed rf pf eft mat,
  oracle_ext o -> tidy names n rules -> NewModelFromFile odd f mp = Ok m -> suits hashed n rf pf eft mat m ->
  policy_says f pp rs -> fits_model m (List.length pf) rules rs ->
  made odd f mp pp (loaded o names n rules hashed rf pf eft mat m rs).
Proof.
  intros o odd f mp pp m rs names n rules hashed rf pf eft mat X T LM S PS FI. pose proof PS as [NP _]. split.
  - unfold NewEnforcer, NewEnforcerWithAdapter. rewrite LM. cbn [bind]. unfold new_enforcer.
    assert (V : adapter_valid (AFile true pp) = true) by (unfold adapter_valid; destruct (String.eqb_spec pp ""); [congruence|reflexivity]). rewrite V.
    match goal with |- context [LoadPolicy ?x] => destruct (load_fresh o names n rules hashed rf pf eft mat x m f pp rs) as [e' [L LD]]; auto end.
    rewrite L. exists e'. split; auto.
  - intros e0 E0. unfold InitWithFile, InitWithAdapter. rewrite E0, LM. unfold InitWithModelAndAdapter. cbn [adapter_filtered].
    match goal with |- context [LoadPolicy ?x] => destruct (load_fresh o names n rules hashed rf pf eft mat x m f pp rs) as [e' [L LD]]; auto end.
    + subst f. reflexivity.
    + cbn [Initialize set_adapter set_model e_model e_adapter e_fs e_heap e_rm]. unfold hget. rewrite nth_error_app2 by lia. rewrite Nat.sub_diag. reflexivity.
    + rewrite L. eauto.
Qed.

(** ** What is decided *)
Lemma listed_linked : forall rs e f args, (forall l, assigned e l <-> listed_links rs l) -> level_of e = 10 -> (linked e f args <-> by_file rs f args).
Proof.
  intros rs e f args A L. unfold linked, by_file. rewrite L. destruct args as [|a [|b [|d [|x args]]]]; try tauto.
  - apply within_ext. auto.
  - apply within_ext. auto.
Qed.
Lemma loaded_decides : forall o names n rules rf pf pe mat d m rs e, oracle_ext o -> reads o n mat d -> mat <> "" -> HasEval mat = false ->
  (forall x, In x (rd_vars d) -> In x (r_names rf ++ p_names pf)) -> tidy names n rules ->
  (forall f, In f (rd_funs d) -> exists a, get_ast m "g" f = Ok a) ->
  loaded o names n rules false rf pf (effect_text pe) mat m rs e -> decides o names rf pf pe d rs e.
Proof.
  intros o names n rules rf pf pe mat d m rs e X RD MAT NE VARS T FU [M [S [V [SI [AS [LV [DE [DE2 PI]]]]]]]] req L C EM.
  assert (P0 : p_indexed m = false).
  { rewrite <- PI. destruct (p_indexed (e_model e)) eqn:Q; auto. discriminate (st_store _ _ _ _ _ _ _ S Q). }
  assert (SC : candidates (e_model e) req = rules_for "p" rs). { rewrite <- (V P0). eapply std_candidates; eauto. }
  assert (LK : forall val, rd_sem d val (linked e) <-> rd_sem d val (by_file rs)).
  { intros val. split; intros H; eapply (rs_local _ _ _ _ RD); try exact H; intros f args _; [|symmetry]; apply listed_linked; auto. }
  destruct (std_decision o names n rules false rf pf pe mat d X RD MAT NE VARS T e req) as [b [E B]]; auto.
  - intros f I. exact M.
  - intros f I. apply DE. auto.
  - rewrite SC. intros r I. apply C. apply rules_for_In. auto.
  - rewrite SC, LK. auto.
  - exists b. split; auto. rewrite B, SC. apply granted_ext. intros r I. apply LK.
Qed.

(** The decisions of an enforcer made from the files, for any model and reading of its
    matcher: they are those the policy file gives. *)
Theorem C78_decision_partial : forall o odd f mp pp m rs names n rules rf pf pe mat d,
  oracle_ext o -> reads o n mat d -> mat <> "" -> HasEval mat = false ->
  (forall x, In x (rd_vars d) -> In x (r_names rf ++ p_names pf)) ->
  tidy names n rules -> NewModelFromFile odd f mp = Ok m -> suits false n rf pf (effect_text pe) mat m ->
  (forall g, In g (rd_funs d) -> exists a, get_ast m "g" g = Ok a) ->
  policy_says f pp rs -> fits_model m (List.length pf) rules rs ->
  made odd f mp pp (decides o names rf pf pe d rs).
Proof.
  intros o odd f mp pp m rs names n rules rf pf pe mat d X RD MAT NE VARS T LM S FU PS FI.
  eapply made_impl; [|eapply C78_loaded_partial; eauto]. intros e L. eapply loaded_decides; eauto.
Qed.

(** ** The example models *)
Definition g_ast (key value : string) := mkAst key value [] (Vec []) None.
Definition loaded_model (rv pv ev mv : string) (rt pt : list string) (gs : assertion_map) (p e : store) : model :=
  [("m", [("m", mkAst "m" mv [] (Vec []) None)]); ("r", [("r", mkAst "r" rv (map (fun t => ("r_" ++ t)%string) rt) (Vec []) None)]);
   ("p", [("p", mkAst "p" pv (map (fun t => ("p_" ++ t)%string) pt) p None)])] ++ (match gs with [] => [] | _ => [("g", gs)] end) ++
  [("e", [("e", mkAst "e" ev [] e None)])].
Definition gs1 n := [("g", g_ast "g" (if Nat.eqb n 2 then "_, _" else "_, _, _"))].
Lemma basic_loads : forall odd, NewModelFromString odd basic_conf =
  Ok (loaded_model "sub, obj, act" "sub, obj, act" (effect_text AllowOverride) basic_matcher f3 f3 [] (Hash []) (Hash [])).
Proof. intros. vm_compute. reflexivity. Qed.
Lemma rbac_loads : forall odd, NewModelFromString odd rbac_conf =
  Ok (loaded_model "sub, obj, act" "sub, obj, act" (effect_text AllowOverride) rbac_matcher f3 f3 (gs1 2) (Vec []) (Vec [])).
Proof. intros. vm_compute. reflexivity. Qed.
Lemma domain_loads : forall odd, NewModelFromString odd domain_conf =
  Ok (loaded_model "sub, dom, obj, act" "sub, dom, obj, act" (effect_text AllowOverride) domain_text fd fd (gs1 3) (Vec []) (Vec [])).
Proof. intros. vm_compute. reflexivity. Qed.
Lemma resource_loads : forall odd, NewModelFromString odd resource_conf =
  Ok (loaded_model "sub, obj, act" "sub, obj, act" (effect_text AllowOverride) resource_text f3 f3 [("g", g_ast "g" "_, _"); ("g2", g_ast "g2" "_, _")] (Vec []) (Vec [])).
Proof. intros. vm_compute. reflexivity. Qed.
Lemma eft_loads : forall odd pe, NewModelFromString odd (eft_conf (effect_text pe)) =
  Ok (loaded_model "sub, obj, act" "sub, obj, act, eft" (effect_text pe) rbac_matcher f3 f4 (gs1 2) (Vec []) (Vec [])).
Proof. intros odd []; vm_compute; reflexivity. Qed.

Ltac prove_suits := constructor; [prove_declares| |simpl; repeat constructor; simpl; intuition discriminate
  |simpl; intros pt a; repeat (destruct (String.eqb pt _); [intros Q; injection Q as <-; reflexivity|]); discriminate].
Lemma basic_suits : suits true 2 f3 f3 (effect_text AllowOverride) basic_matcher
  (loaded_model "sub, obj, act" "sub, obj, act" (effect_text AllowOverride) basic_matcher f3 f3 [] (Hash []) (Hash [])).
Proof. prove_suits. auto. Qed.
Lemma rbac_suits : suits false 2 f3 f3 (effect_text AllowOverride) rbac_matcher
  (loaded_model "sub, obj, act" "sub, obj, act" (effect_text AllowOverride) rbac_matcher f3 f3 (gs1 2) (Vec []) (Vec [])).
Proof. prove_suits. discriminate. Qed.
Lemma domain_suits : suits false 3 fd fd (effect_text AllowOverride) domain_text
  (loaded_model "sub, dom, obj, act" "sub, dom, obj, act" (effect_text AllowOverride) domain_text fd fd (gs1 3) (Vec []) (Vec [])).
Proof. prove_suits. discriminate. Qed.
Lemma resource_suits : suits false 2 f3 f3 (effect_text AllowOverride) resource_text
  (loaded_model "sub, obj, act" "sub, obj, act" (effect_text AllowOverride) resource_text f3 f3 [("g", g_ast "g" "_, _"); ("g2", g_ast "g2" "_, _")] (Vec []) (Vec [])).
Proof. prove_suits. discriminate. Qed.
Lemma eft_suits : forall pe, suits false 2 f3 f4 (effect_text pe) rbac_matcher
  (loaded_model "sub, obj, act" "sub, obj, act, eft" (effect_text pe) rbac_matcher f3 f4 (gs1 2) (Vec []) (Vec [])).
Proof. intros. prove_suits. discriminate. Qed.

(** Policies with one role definition. *)
Definition g_rules (rs : list (string * rule)) (r : rule) : Prop := exists pt, In (pt, r) rs /\ section_of pt = "g".
Lemma rbac_policy_g : forall k n rs r, rbac_policy k n rs -> g_rules rs r -> In ("g", r) rs /\ List.length r = n.
Proof. intros k n rs r [S _] [pt [I E]]. destruct (S _ _ I) as [[-> _]|[-> L]]; [discriminate|auto]. Qed.
Definition global (x : node) : Prop := fst x = None.
Lemma tidy_two : forall k rs, rbac_policy k 2 rs -> tidy global 2 (g_rules rs).
Proof.
  intros k rs P. constructor; auto.
  - intros [d x] [d' y] H1 H2 E. unfold global in H1, H2. simpl in H1, H2. subst. simpl in E. congruence.
  - intros r G. apply (rbac_policy_g k 2 rs r P) in G. destruct G as [_ L]. split; auto. destruct r as [|a [|b [|c r]]]; try discriminate.
    exists None, a, b. repeat split.
  - intros r r' G G' PM. apply (proj2 P); auto; eapply rbac_policy_g; eauto.
Qed.
Lemma rbac_fits : forall k n rv pv ev mv rt pt rs, rbac_policy k n rs ->
  fits_model (loaded_model rv pv ev mv rt pt (gs1 n) (Vec []) (Vec [])) k (g_rules rs) rs.
Proof.
  intros k n rv pv ev mv rt pt rs P t r I. destruct (proj1 P _ _ I) as [[-> L]|[-> L]].
  - split; [eexists; reflexivity|]. split; auto. discriminate.
  - split; [eexists; reflexivity|]. split; [discriminate|]. intros _. exists "g". auto.
Qed.
Lemma model_file : forall odd f mp text, aget mp (files f) = Some text -> NewModelFromFile odd f mp = NewModelFromString odd text.
Proof. intros. unfold NewModelFromFile, content_of. rewrite H. auto. Qed.


Lemma three : forall r : rule, List.length r = 3 -> exists a b c, r = [a; b; c].
Proof. intros [|a [|b [|c [|d r]]]] L; try discriminate. eauto. Qed.
Lemma rules_none : forall rs, (exists r, In ("p", r) rs) -> rules_for "p" rs <> [].
Proof. intros rs [r I] E. apply rules_for_In in I. rewrite E in I. destruct I. Qed.
Lemma p_length : forall k n rs r, rbac_policy k n rs -> In ("p", r) rs -> List.length r = k.
Proof. intros k n rs r [P _] I. destruct (P _ _ I) as [[_ L]|[Q _]]; [auto|discriminate]. Qed.
Lemma one_g : forall n rv pv ev mv rt pt g, In g ["g"] -> exists a, get_ast (loaded_model rv pv ev mv rt pt (gs1 n) (Vec []) (Vec [])) "g" g = Ok a.
Proof. intros n rv pv ev mv rt pt g [<-|[]]. eexists. reflexivity. Qed.
Ltac one_call := split; [exact Logic.I|]; intros ? ? [Q|[]]; inversion Q; subst; split; [left; reflexivity|].

(** rbac_model.conf: a request is allowed exactly if the policy file has a rule for its object
    and action and the grouping rules lead from its subject to that of the rule. *)
Theorem C78_rbac_files_partial : forall o odd f mp pp rs,
  oracle_ext o -> reads o 2 rbac_matcher rbac_reading ->
  files_hold f mp pp rbac_conf rs -> rbac_policy 3 2 rs ->
  made odd f mp pp (fun e => forall sub obj act,
    (obj <> "" \/ act <> "" \/ exists r, In ("p", r) rs) ->
    exists b, snd (Enforce o (map DStr [sub; obj; act]) e) = Ok b /\
      (b = true <-> exists s, In ("p", [s; obj; act]) rs /\ within (listed_links rs) None 10 sub s)).
Proof.
  intros o odd f mp pp rs X RD [MF PS] P.
  eapply made_impl; [|eapply (C78_decision_partial o odd f mp pp) with (d := rbac_reading) (names := global); eauto using tidy_two, rbac_suits, rbac_fits].
  2: discriminate. 2: by_cases.
  2: { rewrite (model_file _ _ _ _ MF). apply rbac_loads. }
  2: { apply one_g. }
  intros e D sub obj act NE. destruct (D [sub; obj; act]) as [b [E B]]; auto.
  - intros r I. destruct (three r (p_length _ _ _ _ P I)) as [s [o' [a ->]]]. one_call. split; reflexivity.
  - destruct NE as [NE|[NE|NE]]; [| |left; apply rules_none; auto].
    + right. split; [one_call; split; reflexivity|]. intros [_ [Q _]]. apply NE. exact Q.
    + right. split; [one_call; split; reflexivity|]. intros [_ [_ Q]]. apply NE. exact Q.
  - exists b. split; auto. rewrite B. unfold granted. split.
    + intros [r [I [Q _]]]. apply rules_for_In in I. destruct (three r (p_length _ _ _ _ P I)) as [s [o' [a ->]]]. destruct Q as [W [Q1 Q2]].
      cbv in Q1, Q2. subst o' a. exists s. split; auto.
    + intros [s [I W]]. exists [s; obj; act]. split; [apply rules_for_In; auto|]. split; [|reflexivity]. repeat split. exact W.
Qed.

(** rbac_with_deny_model.conf, rbac_with_not_deny_model.conf and priority_model.conf. *)
Lemma eft_files : forall o odd f mp pp rs pe,
  oracle_ext o -> reads o 2 rbac_matcher rbac_reading ->
  files_hold f mp pp (eft_conf (effect_text pe)) rs -> rbac_policy 4 2 rs ->
  made odd f mp pp (fun e => forall sub obj act,
    (obj <> "" \/ act <> "" \/ exists r, In ("p", r) rs) ->
    exists b, snd (Enforce o (map DStr [sub; obj; act]) e) = Ok b /\
      (b = true <-> granted pe (fun r => rd_sem rbac_reading (value_of f3 [sub; obj; act] f4 r) (by_file rs)) (effect_of f4) (rules_for "p" rs))).
Proof.
  intros o odd f mp pp rs pe X RD [MF PS] P.
  eapply made_impl; [|eapply (C78_decision_partial o odd f mp pp) with (d := rbac_reading) (names := global); eauto using tidy_two, eft_suits, rbac_fits].
  2: discriminate. 2: by_cases.
  2: { rewrite (model_file _ _ _ _ MF). apply eft_loads. }
  2: { apply one_g. }
  intros e D sub obj act NE. apply (D [sub; obj; act]); auto.
  - intros r I. destruct (four r (p_length _ _ _ _ P I)) as [s [o' [a [f' ->]]]]. one_call. split; reflexivity.
  - destruct NE as [NE|[NE|NE]]; [| |left; apply rules_none; auto].
    + right. split; [one_call; split; reflexivity|]. intros [_ [Q _]]. apply NE. exact Q.
    + right. split; [one_call; split; reflexivity|]. intros [_ [_ Q]]. apply NE. exact Q.
Qed.
Lemma file_says_rule : forall rs sub obj act f x, rbac_policy 4 2 rs -> (f = "allow" /\ x = Allow \/ f = "deny" /\ x = Deny) ->
  ((exists r, In r (rules_for "p" rs) /\ rd_sem rbac_reading (value_of f3 [sub; obj; act] f4 r) (by_file rs) /\ effect_of f4 r = x) <->
   file_says rs sub obj act f).
Proof.
  intros rs sub obj act f x P FX. split.
  - intros [r [I [Q F]]]. apply rules_for_In in I. destruct (four r (p_length _ _ _ _ P I)) as [s [o' [a [f' ->]]]].
    destruct (proj1 (deny_sem sub obj act s o' a f' (by_file rs)) Q) as [W [-> ->]]. exists s. split; [|exact W].
    rewrite deny_effect in F. replace f with f'; auto.
    destruct (String.eqb_spec f' "allow"); [|destruct (String.eqb_spec f' "deny")]; destruct FX as [[-> ->]|[-> ->]]; try discriminate; auto.
  - intros [s [I W]]. exists [s; obj; act; f]. split; [apply rules_for_In; auto|]. split; [apply deny_sem; auto|]. rewrite deny_effect.
    destruct FX as [[-> ->]|[-> ->]]; reflexivity.
Qed.
Theorem C78_deny_files_partial : forall o odd f mp pp rs,
  oracle_ext o -> reads o 2 rbac_matcher rbac_reading ->
  files_hold f mp pp (eft_conf "some(where (p.eft == allow)) && !some(where (p.eft == deny))") rs -> rbac_policy 4 2 rs ->
  made odd f mp pp (fun e => forall sub obj act,
    (obj <> "" \/ act <> "" \/ exists r, In ("p", r) rs) ->
    exists b, snd (Enforce o (map DStr [sub; obj; act]) e) = Ok b /\
      (b = true <-> file_says rs sub obj act "allow" /\ ~ file_says rs sub obj act "deny")).
Proof.
  intros o odd f mp pp rs X RD H P. eapply made_impl; [|apply (eft_files o odd f mp pp rs AllowAndDeny); auto].
  intros e D sub obj act NE. destruct (D sub obj act NE) as [b [E B]]. exists b. split; auto. rewrite B. unfold granted.
  rewrite (file_says_rule rs sub obj act "allow" Allow P), (file_says_rule rs sub obj act "deny" Deny P); auto. tauto.
Qed.
Theorem C78_not_deny_files_partial : forall o odd f mp pp rs,
  oracle_ext o -> reads o 2 rbac_matcher rbac_reading ->
  files_hold f mp pp (eft_conf "!some(where (p.eft == deny))") rs -> rbac_policy 4 2 rs ->
  made odd f mp pp (fun e => forall sub obj act,
    (obj <> "" \/ act <> "" \/ exists r, In ("p", r) rs) ->
    exists b, snd (Enforce o (map DStr [sub; obj; act]) e) = Ok b /\ (b = true <-> ~ file_says rs sub obj act "deny")).
Proof.
  intros o odd f mp pp rs X RD H P. eapply made_impl; [|apply (eft_files o odd f mp pp rs DenyOverride); auto].
  intros e D sub obj act NE. destruct (D sub obj act NE) as [b [E B]]. exists b. split; auto. rewrite B. unfold granted.
  rewrite (file_says_rule rs sub obj act "deny" Deny P); auto. tauto.
Qed.
(** The first rule of the file for the request that says allow or deny says allow. *)
Theorem C78_priority_files_partial : forall o odd f mp pp rs,
  oracle_ext o -> reads o 2 rbac_matcher rbac_reading ->
  files_hold f mp pp (eft_conf "priority(p.eft) || deny") rs -> rbac_policy 4 2 rs ->
  made odd f mp pp (fun e => forall sub obj act,
    (obj <> "" \/ act <> "" \/ exists r, In ("p", r) rs) ->
    exists b, snd (Enforce o (map DStr [sub; obj; act]) e) = Ok b /\
      (b = true <-> exists pre s post, rs = pre ++ ("p", [s; obj; act; "allow"]) :: post /\
        within (listed_links rs) None 10 sub s /\
        forall s' f, In ("p", [s'; obj; act; f]) pre -> within (listed_links rs) None 10 sub s' -> f <> "allow" /\ f <> "deny")).
Proof.
  intros o odd f mp pp rs X RD H P. eapply made_impl; [|apply (eft_files o odd f mp pp rs Priority); auto].
  intros e D sub obj act NE. destruct (D sub obj act NE) as [b [E B]]. exists b. split; auto. rewrite B. unfold granted. split.
  - intros [pre [r [post [EQ [Q [F N]]]]]].
    assert (SPL : exists pre' post', rs = pre' ++ ("p", r) :: post' /\ rules_for "p" pre' = pre).
    { clear - EQ. revert pre EQ. induction rs as [|[k r0] rs IH]; intros pre EQ; [destruct pre; discriminate|].
      rewrite rules_for_cons in EQ. destruct (String.eqb_spec k "p") as [->|NK].
      - destruct pre as [|x pre]; simpl in EQ; injection EQ as <- EQ. { exists [], rs. auto. }
        destruct (IH pre EQ) as [p' [q' [-> Q]]]. exists (("p", r0) :: p'), q'. split; auto. rewrite rules_for_cons. simpl. congruence.
      - destruct (IH pre EQ) as [p' [q' [-> Q]]]. exists ((k, r0) :: p'), q'. split; auto. rewrite rules_for_cons. destruct (String.eqb_spec k "p"); congruence. }
    destruct SPL as [pre' [post' [RS PR]]].
    assert (IR : In ("p", r) rs) by (rewrite RS; apply in_elt).
    destruct (four r (p_length _ _ _ _ P IR)) as [s [o' [a [f' ->]]]].
    destruct (proj1 (deny_sem sub obj act s o' a f' (by_file rs)) Q) as [W [-> ->]]. rewrite deny_effect in F.
    destruct (String.eqb_spec f' "allow") as [Ef|Nf]; [rewrite Ef in *; clear Ef|destruct (String.eqb f' "deny"); discriminate].
    exists pre', s, post'. split; [exact RS|]. split; [exact W|]. intros s' f0 I W'.
    apply rules_for_In in I. rewrite PR in I. specialize (N [s'; o'; a; f0] I). rewrite deny_effect in N.
    assert (K : rd_sem rbac_reading (value_of f3 [sub; o'; a] f4 [s'; o'; a; f0]) (by_file rs)) by (apply deny_sem; auto).
    specialize (N K). destruct (String.eqb_spec f0 "allow"); [discriminate|]. destruct (String.eqb_spec f0 "deny"); [discriminate|]. auto.
  - intros [pre [s [post [RS [W N]]]]]. exists (rules_for "p" pre), [s; obj; act; "allow"], (rules_for "p" post). split; [|split; [|split]].
    + rewrite RS, rules_for_app, rules_for_cons. reflexivity.
    + apply deny_sem. auto.
    + reflexivity.
    + intros r' I Q. apply rules_for_In in I. assert (IR : In ("p", r') rs) by (rewrite RS; apply in_or_app; auto).
      destruct (four r' (p_length _ _ _ _ P IR)) as [s' [o' [a [f' ->]]]].
      destruct (proj1 (deny_sem sub obj act s' o' a f' (by_file rs)) Q) as [W' [-> ->]]. rewrite deny_effect.
      destruct (N s' f' I W') as [N1 N2]. destruct (String.eqb_spec f' "allow"); [congruence|]. destruct (String.eqb_spec f' "deny"); [congruence|reflexivity].
Qed.

(** rbac_with_domains_model.conf, for names without colons. *)
Definition in_domain (x : node) : Prop := (exists d, fst x = Some d) /\ smem ":" (snd x) = false.
Lemma in_domain_apart : forall x y, in_domain x -> in_domain y -> spell x = spell y -> x = y.
Proof.
  intros [d1 s1] [d2 s2] [[a A] N1] [[b B] N2] E. simpl in A, B, N1, N2. subst. unfold spell in E.
  assert (E' : ((a ++ ":") ++ String ":" s1 = (b ++ ":") ++ String ":" s2)%string) by (rewrite !app_assoc_s; exact E).
  apply colon_cut in E'; auto. destruct E' as [E' ->]. change ((a ++ String ":" "") = (b ++ String ":" ""))%string in E'.
  apply colon_cut in E'; auto. destruct E'. subst. auto.
Qed.
Lemma tidy_three : forall k rs, rbac_policy k 3 rs -> (forall a b d, In ("g", [a; b; d]) rs -> smem ":" a = false /\ smem ":" b = false) ->
  tidy in_domain 3 (g_rules rs).
Proof.
  intros k rs P N. constructor; auto.
  - exact in_domain_apart.
  - intros r G. apply (rbac_policy_g k 3 rs r P) in G. destruct G as [I L]. split; auto. destruct r as [|a [|b [|c [|d r]]]]; try discriminate.
    destruct (N _ _ _ I). exists (Some c), a, b. split; auto. split; (split; [eexists; reflexivity|auto]).
  - intros r r' G G' PM. apply (proj2 P); auto; eapply rbac_policy_g; eauto.
Qed.
Theorem C78_domain_files_partial : forall o odd f mp pp rs,
  oracle_ext o -> reads o 3 domain_text domain_reading ->
  files_hold f mp pp domain_conf rs -> rbac_policy 4 3 rs ->
  (forall a b d, In ("g", [a; b; d]) rs -> smem ":" a = false /\ smem ":" b = false) ->
  (forall s r, In ("p", s :: r) rs -> smem ":" s = false) ->
  made odd f mp pp (fun e => forall sub dom obj act, smem ":" sub = false ->
    (dom <> "" \/ obj <> "" \/ act <> "" \/ exists r, In ("p", r) rs) ->
    exists b, snd (Enforce o (map DStr [sub; dom; obj; act]) e) = Ok b /\
      (b = true <-> exists s, In ("p", [s; dom; obj; act]) rs /\ within (listed_links rs) (Some dom) 10 sub s)).
Proof.
  intros o odd f mp pp rs X RD [MF PS] P NG NS.
  eapply made_impl; [|eapply (C78_decision_partial o odd f mp pp) with (d := domain_reading) (names := in_domain); eauto using tidy_three, domain_suits, rbac_fits].
  2: discriminate. 2: by_cases.
  2: { rewrite (model_file _ _ _ _ MF). apply domain_loads. }
  2: { apply one_g. }
  intros e D sub dom obj act NU NE.
  assert (C : forall s d o' a, smem ":" s = false -> calls_ok in_domain domain_reading (value_of fd [sub; dom; obj; act] fd [s; d; o'; a])).
  { intros s d o' a NC. one_call. split; (split; [eexists; reflexivity|]); [exact NU|exact NC]. }
  assert (BL : forall x y, (x = "" -> y = "" -> False) -> x = y -> y = "" -> False) by (intros; subst; auto).
  destruct (D [sub; dom; obj; act]) as [b [E B]]; auto.
  - intros r I. destruct (four r (p_length _ _ _ _ P I)) as [s [d [o' [a ->]]]]. apply C. eapply NS; eauto.
  - destruct NE as [NE|[NE|[NE|NE]]]; [| | |left; apply rules_none; auto]; right; (split; [apply C; reflexivity|]); intros [_ [Q1 [Q2 Q3]]]; cbv in Q1, Q2, Q3; auto.
  - exists b. split; auto. rewrite B. unfold granted. split.
    + intros [r [I [Q _]]]. apply rules_for_In in I. destruct (four r (p_length _ _ _ _ P I)) as [s [d [o' [a ->]]]].
      destruct (proj1 (domain_sem sub dom obj act s d o' a (by_file rs)) Q) as [L [-> [-> ->]]]. eauto.
    + intros [s [I W]]. exists [s; dom; obj; act]. split; [apply rules_for_In; auto|]. split; [|reflexivity]. repeat split. exact W.
Qed.

(** rbac_with_resource_roles_model.conf; the links of both role definitions are used for both. *)
Lemma tidy_resource : forall rs, resource_policy rs -> tidy global 2 (g_rules rs).
Proof.
  intros rs [P1 P2]. constructor; auto.
  - intros [d x] [d' y] H1 H2 E. unfold global in H1, H2. simpl in H1, H2. subst. simpl in E. congruence.
  - intros r [pt [I G]]. destruct (P1 _ _ I) as [[-> _]|[_ L]]; [discriminate|]. split; auto. destruct r as [|a [|b [|c r]]]; try discriminate.
    exists None, a, b. repeat split.
  - intros r r' [pt [I G]] [pt' [I' G']] PM. apply (P2 pt pt'); auto.
Qed.
Theorem C78_resource_files_partial : forall o odd f mp pp rs,
  oracle_ext o -> reads o 2 resource_text resource_reading ->
  files_hold f mp pp resource_conf rs -> resource_policy rs ->
  made odd f mp pp (fun e => forall sub obj act, (act <> "" \/ exists r, In ("p", r) rs) ->
    exists b, snd (Enforce o (map DStr [sub; obj; act]) e) = Ok b /\
      (b = true <-> exists s o', In ("p", [s; o'; act]) rs /\
        within (listed_links rs) None 10 sub s /\ within (listed_links rs) None 10 obj o')).
Proof.
  intros o odd f mp pp rs X RD [MF PS] P.
  assert (PL : forall r, In ("p", r) rs -> List.length r = 3). { intros r I. destruct (proj1 P _ _ I) as [[_ L]|[[Q|Q] _]]; auto; discriminate. }
  eapply made_impl; [|eapply (C78_decision_partial o odd f mp pp) with (d := resource_reading) (names := global) (rules := g_rules rs); eauto using tidy_resource, resource_suits].
  2: discriminate. 2: by_cases.
  2: { rewrite (model_file _ _ _ _ MF). apply resource_loads. }
  2: { intros g [<-|[<-|[]]]; eexists; reflexivity. }
  2: { intros pt r I. destruct (proj1 P _ _ I) as [[-> L]|[[-> | ->] L]]; (split; [eexists; reflexivity|]); (split; [try discriminate; auto|]); try discriminate.
       - intros _. exists "g". auto.
       - intros _. exists "g2". auto. }
  assert (C : forall sub obj act s o' a, calls_ok global resource_reading (value_of f3 [sub; obj; act] f3 [s; o'; a])).
  { intros. split; [exact Logic.I|]. intros g args [Q|[Q|[]]]; inversion Q; subst; (split; [simpl; tauto|]); split; reflexivity. }
  intros e D sub obj act NE. destruct (D [sub; obj; act]) as [b [E B]]; auto.
  - intros r I. destruct (three r (PL _ I)) as [s [o' [a ->]]]. apply C.
  - destruct NE as [NE|NE]; [|left; apply rules_none; auto]. right. split; [apply C|]. intros Q. apply NE.
    destruct (proj1 (resource_sem sub obj act "" "" "" (by_file rs)) Q) as [_ [_ ->]]. reflexivity.
  - exists b. split; auto. rewrite B. unfold granted. split.
    + intros [r [I [Q _]]]. apply rules_for_In in I. destruct (three r (PL _ I)) as [s [o' [a ->]]].
      destruct (proj1 (resource_sem sub obj act s o' a (by_file rs)) Q) as [L1 [L2 ->]]. exists s, o'. auto.
    + intros [s [o' [I [W1 W2]]]]. exists [s; o'; act]. split; [apply rules_for_In; auto|]. split; [|reflexivity]. apply resource_sem. auto.
Qed.

(** basic_model.conf: a request is allowed exactly if it is a line of the policy file. *)
Theorem C78_basic_files_partial : forall o odd f mp pp rs,
  oracle_ext o -> reads o 2 basic_matcher acl_reading ->
  files_hold f mp pp basic_conf rs -> (forall pt r, In (pt, r) rs -> pt = "p" /\ List.length r = 3) ->
  made odd f mp pp (fun e => forall sub obj act,
    map c_str [sub; obj; act] = [sub; obj; act] -> [sub; obj; act] <> [""; ""; ""] ->
    exists b, snd (Enforce o (map DStr [sub; obj; act]) e) = Ok b /\ (b = true <-> In ("p", [sub; obj; act]) rs)).
Proof.
  intros o odd f mp pp rs X RD [MF PS] P.
  eapply made_impl; [|eapply (C78_loaded_partial o odd f mp pp); eauto using no_names_tidy, basic_suits].
  2: { rewrite (model_file _ _ _ _ MF). apply basic_loads. }
  2: { intros pt r I. destruct (P _ _ I) as [-> L]. split; [eexists; reflexivity|]. split; auto. discriminate. }
  intros e [M [S [V [SI [AS [LV [DE [DE2 _]]]]]]]] sub obj act CS NB.
  assert (RL : roleless e). { intros g D. apply DE2 in D. destruct D as [a A]. discriminate. }
  destruct (C70_acl_decision_partial o (fun _ => False) [] e e sub obj act) as [b [E B]]; auto.
  { apply reach_nil. }
  exists b. split; auto. rewrite B. apply SI; auto.
Qed.

(** ** Without a policy file *)
(** Without a path the constructor makes an enforcer without rules, but InitWithFile throws, and
    leaves an enforcer with the new model and no rules. *)
Theorem C78_no_policy : forall odd f mp m, NewModelFromFile odd f mp = Ok m ->
  NewEnforcer odd f mp "" = NewEnforcerModelOnly odd f mp /\
  (exists e, NewEnforcer odd f mp "" = Ok e /\ e_model e = m) /\
  (forall e0, e_fs e0 = f -> exists e, InitWithFile odd mp "" e0 = (e, Throw CasbinAdapter) /\ forall sec pt, sec = "p" \/ sec = "g" -> stored e sec pt = []).
Proof.
  intros odd f mp m L. split; [reflexivity|]. split.
  - unfold NewEnforcer, NewEnforcerWithAdapter. rewrite L. eexists. split; reflexivity.
  - intros e0 E0. unfold InitWithFile, InitWithAdapter. rewrite E0, L. eexists. split; [reflexivity|].
    intros sec pt SEC. unfold stored, rules_in. cbn [set_model e_model Initialize set_adapter]. rewrite clear_get.
    destruct (get_ast m sec pt); auto. simpl. destruct SEC as [-> | ->]; simpl; destruct (a_policy a); reflexivity.
Qed.

(** When the model file cannot be read as a model, the constructor throws and InitWithFile and LoadModel
    leave the enforcer as it was. *)
Theorem C78_bad_model : forall odd f mp x, NewModelFromFile odd f mp = Throw x ->
  (forall pp, NewEnforcer odd f mp pp = Throw x) /\
  (forall e pp, e_fs e = f -> InitWithFile odd mp pp e = (e, Throw x)) /\
  (forall e, e_fs e = f -> e_LoadModel odd mp e = (e, Throw x)).
Proof.
  intros odd f mp x L. split; [|split]; intros.
  - unfold NewEnforcer, NewEnforcerWithAdapter. rewrite L. reflexivity.
  - unfold InitWithFile, InitWithAdapter. rewrite H, L. reflexivity.
  - unfold e_LoadModel. rewrite H, L. reflexivity.
Qed.

(** ** Reloading *)
(** LoadModel followed by LoadPolicy puts any enforcer in order, whatever was done before: with the model
    and the policy now in the files.  Between the two calls there are no rules and no links. *)
Theorem C78_reload_partial : forall o odd mp m rs names n rules hashed rf pf eft mat e0,
  oracle_ext o -> tidy names n rules -> NewModelFromFile odd (e_fs e0) mp = Ok m -> suits hashed n rf pf eft mat m ->
  calm_adapter (e_adapter e0) -> offers e0 rs -> fits_model m (List.length pf) rules rs ->
  exists e1 e2, e_LoadModel odd mp e0 = (e1, Ok tt) /\ (forall sec pt, stored e1 sec pt = []) /\ (forall l, ~ assigned e1 l) /\
    LoadPolicy e1 = (e2, Ok tt) /\ loaded o names n rules hashed rf pf eft mat m rs e2.
Proof.
  intros o odd mp m rs names n rules hashed rf pf eft mat e0 X T LM S C O FI.
  exists (Initialize (set_model m e0)).
  destruct (load_step o names n rules hashed rf pf eft mat (Initialize (set_model m e0)) rs) as [e' [L [M [ST [SH [PI [V [SI [AS LV]]]]]]]]]; auto.
  { exists (new_rm 10). split; [|reflexivity]. cbn [Initialize e_heap e_rm set_model]. unfold hget. rewrite nth_error_app2 by lia. rewrite Nat.sub_diag. reflexivity. }
  { exact Logic.I. }
  assert (EM : e_model (Initialize (set_model m e0)) = m) by reflexivity.
  assert (NR : forall sec pt, stored (Initialize (set_model m e0)) sec pt = []).
  { intros sec pt. unfold stored, rules_in. rewrite EM. destruct (get_ast m sec pt) as [a| |] eqn:A; auto.
    unfold NewModelFromFile, NewModelFromString in LM. destruct (NewConfigFromText (content_of (e_fs e0) mp)) as [d| |]; try discriminate. cbn [bind] in LM.
    destruct (LoadModelFromConfig odd [] d) as [m' [u|u|u]] eqn:LC; try discriminate. cbn [bind] in LM. injection LM as <-. destruct u.
    destruct (proj1 (C45_contents odd d m' LC sec pt) a A) as [i [v [_ [_ H]]]]. apply H. }
  exists e'. split; [unfold e_LoadModel; rewrite LM; reflexivity|]. split; [exact NR|]. split.
  { intros l [pt [r [I _]]]. rewrite NR in I. destruct I. }
  split; auto. unfold loaded. rewrite EM in *. repeat (split; auto).
  - rewrite LV. unfold level_of. cbn [Initialize e_heap e_rm set_model]. unfold hget. rewrite nth_error_app2 by lia. rewrite Nat.sub_diag. reflexivity.
  - intros sec pt [a A]. specialize (SH sec pt). rewrite EM, A in SH. unfold declared. destruct (get_ast (e_model e') sec pt); try discriminate. eauto.
  - intros sec pt [a A]. specialize (SH sec pt). rewrite EM, A in SH. destruct (get_ast m sec pt); try discriminate. eauto.
Qed.

(** ** A definition on two lines *)
(** False: a backslash at the end of a line does not continue it (config.cpp:59-88).  The matcher of
    rbac_model_in_multi_line.conf is its first line, with the backslash, and the comparison of
    the actions is lost. *)
Definition first_line := "g(r.sub, p.sub) && r.obj == p.obj \".
Theorem C78_two_lines_refuted : forall odd f mp, aget mp (files f) = Some two_line_conf ->
  exists m a, NewModelFromFile odd f mp = Ok m /\ get_ast m "m" "m" = Ok a /\ a_value a = first_line.
Proof. intros odd f mp H. rewrite (model_file _ _ _ _ H). eexists _, _. split; [vm_compute; reflexivity|]. split; reflexivity. Qed.

(** ** Cases *)
(** examples/rbac_policy.csv, rbac_with_domains_policy.csv, rbac_with_resource_roles_policy.csv,
    priority_policy.csv and basic_policy.csv. *)
Definition rbac_csv := file_of ["p, alice, data1, read"; "p, bob, data2, write"; "p, data2_admin, data2, read"; "p, data2_admin, data2, write"; "g, alice, data2_admin"].
Definition domain_csv := file_of ["p, admin, domain1, data1, read"; "p, admin, domain1, data1, write"; "p, admin, domain2, data2, read";
  "p, admin, domain2, data2, write"; "g, alice, admin, domain1"; "g, bob, admin, domain2"].
Definition resource_csv := file_of ["p, alice, data1, read"; "p, bob, data2, write"; "p, data_group_admin, data_group, write"; "";
  "g, alice, data_group_admin"; "g2, data1, data_group"; "g2, data2, data_group"].
Definition priority_csv := file_of ["p, alice, data1, read, allow"; "p, data1_deny_group, data1, read, deny"; "p, data1_deny_group, data1, write, deny";
  "p, alice, data1, write, allow"; ""; "g, alice, data1_deny_group"; ""; "p, data2_allow_group, data2, read, allow"; "p, bob, data2, read, deny";
  "p, bob, data2, write, deny"; ""; "g, bob, data2_allow_group"].
Definition basic_csv := file_of ["p, alice, data1, read"; "p, bob, data2, write"].
Definition says (csv : string) : list (string * rule) := cat_some (map (fun l => parse (Trim l)) (Split csv newline None)).
Definition disk (model policy : string) : fs := mkFs [("m.conf", model); ("p.csv", policy)] (fun _ => true).
Lemma disk_holds : forall model csv, files_hold (disk model csv) "m.conf" "p.csv" model (says csv).
Proof. intros. split; [reflexivity|]. split; [discriminate|]. simpl. apply file_means_fun. reflexivity. Qed.
Ltac in_list I := vm_compute in I; repeat (destruct I as [I|I]; [inversion I; subst; clear I|]); try destruct I.
Ltac no_perm := let H := fresh in intros ? ? I J H; in_list I; in_list J; auto; exfalso; clear - H;
  match type of H with Permutation ?a _ => assert (K : In (hd "" a) a) by (left; reflexivity); apply (Permutation_in _ H) in K; simpl in K; intuition discriminate end.

Example C78_rbac_case : files_hold (disk rbac_conf rbac_csv) "m.conf" "p.csv" rbac_conf (says rbac_csv) /\ rbac_policy 3 2 (says rbac_csv) /\
  In ("p", ["data2_admin"; "data2"; "read"]) (says rbac_csv) /\ within (listed_links (says rbac_csv)) None 10 "alice" "data2_admin" /\
  exists e, NewEnforcer no_regex (disk rbac_conf rbac_csv) "m.conf" "p.csv" = Ok e /\
    snd (Enforce mini (reqs ["alice"; "data2"; "read"]) e) = Ok true /\ snd (Enforce mini (reqs ["bob"; "data2"; "read"]) e) = Ok false.
Proof.
  split; [apply disk_holds|]. split.
  { split; [intros pt r I; in_list I; auto|]. no_perm. }
  split; [vm_compute; tauto|]. split.
  { eapply within_next; [|apply within_same]. exists "g", ["alice"; "data2_admin"]. split; [vm_compute; tauto|]. split; reflexivity. }
  eexists. split; [vm_compute; reflexivity|]. split; vm_compute; reflexivity.
Qed.
Example C78_domain_case : files_hold (disk domain_conf domain_csv) "m.conf" "p.csv" domain_conf (says domain_csv) /\ rbac_policy 4 3 (says domain_csv) /\
  exists e, NewEnforcer no_regex (disk domain_conf domain_csv) "m.conf" "p.csv" = Ok e /\
    snd (Enforce mini (reqs ["alice"; "domain1"; "data1"; "read"]) e) = Ok true /\ snd (Enforce mini (reqs ["bob"; "domain1"; "data1"; "read"]) e) = Ok false.
Proof.
  split; [apply disk_holds|]. split.
  { split; [intros pt r I; in_list I; auto|]. no_perm. }
  eexists. split; [vm_compute; reflexivity|]. split; vm_compute; reflexivity.
Qed.
Example C78_resource_case : files_hold (disk resource_conf resource_csv) "m.conf" "p.csv" resource_conf (says resource_csv) /\ resource_policy (says resource_csv) /\
  exists e, NewEnforcer no_regex (disk resource_conf resource_csv) "m.conf" "p.csv" = Ok e /\
    snd (Enforce mini (reqs ["alice"; "data2"; "write"]) e) = Ok true /\ snd (Enforce mini (reqs ["bob"; "data1"; "write"]) e) = Ok false.
Proof.
  split; [apply disk_holds|]. split.
  { split; [intros pt r I; in_list I; auto|]. intros pt pt' r r' I J G G' H. in_list I; in_list J; try discriminate G; try discriminate G'; auto; exfalso; clear - H;
      match type of H with Permutation ?a _ => assert (K : In (hd "" a) a) by (left; reflexivity); apply (Permutation_in _ H) in K; simpl in K; intuition discriminate end. }
  eexists. split; [vm_compute; reflexivity|]. split; vm_compute; reflexivity.
Qed.
Example C78_priority_case : files_hold (disk (eft_conf "priority(p.eft) || deny") priority_csv) "m.conf" "p.csv" (eft_conf "priority(p.eft) || deny") (says priority_csv) /\
  rbac_policy 4 2 (says priority_csv) /\
  exists e, NewEnforcer no_regex (disk (eft_conf "priority(p.eft) || deny") priority_csv) "m.conf" "p.csv" = Ok e /\
    snd (Enforce mini (reqs ["alice"; "data1"; "read"]) e) = Ok true /\ snd (Enforce mini (reqs ["alice"; "data1"; "write"]) e) = Ok false /\
    snd (Enforce mini (reqs ["bob"; "data2"; "read"]) e) = Ok true.
Proof.
  split; [apply disk_holds|]. split.
  { split; [intros pt r I; in_list I; auto|]. no_perm. }
  eexists. split; [vm_compute; reflexivity|]. repeat split; vm_compute; reflexivity.
Qed.
Example C78_basic_case : files_hold (disk basic_conf basic_csv) "m.conf" "p.csv" basic_conf (says basic_csv) /\
  (forall pt r, In (pt, r) (says basic_csv) -> pt = "p" /\ List.length r = 3) /\
  exists e, InitWithFile no_regex "m.conf" "p.csv" (set_fs (disk basic_conf basic_csv) (boot (basic_model [["eve"; "data1"; "read"]]))) = (e, Ok tt) /\
    snd (Enforce mini (reqs ["alice"; "data1"; "read"]) e) = Ok true /\ snd (Enforce mini (reqs ["eve"; "data1"; "read"]) e) = Ok false.
Proof.
  split; [apply disk_holds|]. split; [intros pt r I; in_list I; auto|].
  eexists. split; [vm_compute; reflexivity|]. split; vm_compute; reflexivity.
Qed.
Example C78_bad_model_case : NewModelFromFile no_regex (disk "[matchers" basic_csv) "m.conf" = Throw IllegalArgument /\
  NewModelFromFile no_regex (disk basic_conf basic_csv) "m.txt" = Throw MissingRequiredSections.
Proof. split; vm_compute; reflexivity. Qed.
Example C78_reload_case : exists e1 e2 e3, LoadPolicy (set_adapter (Some (AFile true "p.csv")) (set_fs (disk rbac_conf rbac_csv) (boot (basic_model [["eve"; "data1"; "read"]])))) = (e1, UB NullDeref) /\
  e_LoadModel no_regex "m.conf" e1 = (e2, Ok tt) /\ LoadPolicy e2 = (e3, Ok tt) /\
  snd (Enforce mini (reqs ["alice"; "data2"; "read"]) e3) = Ok true.
Proof. eexists _, _, _. split; [vm_compute; reflexivity|]. split; [vm_compute; reflexivity|]. split; vm_compute; reflexivity. Qed.

Print Assumptions C78_loaded_partial.
Print Assumptions C78_decision_partial.
Print Assumptions C78_rbac_files_partial.
Print Assumptions C78_priority_files_partial.
Print Assumptions C78_domain_files_partial.
Print Assumptions C78_resource_files_partial.
Print Assumptions C78_basic_files_partial.
Print Assumptions C78_reload_partial.
