(** Property C45: loading a model. *)
From Verif Require Import Base P_Base M_Util M_RoleManager M_Effector M_Model M_Persist M_Eval M_Evaluator M_Enforcer M_Matcher M_Config M_Load
  S_Text S_Effect S_Enforce S_Policy S_Persist S_History S_Config S_Load P_Text P_Decide P_Store P_Api P_History P_Nodup P_Persist P_Config P_Load P_Index E_Examples.

(** In all theorems [odd] is what regex_replace does with a field name that contains
    characters special in regular expressions. *)

(** Loading succeeds only if the four definitions are there ... *)
Theorem C45_sound : forall odd d m, LoadModelFromConfig odd [] d = (m, Ok tt) -> complete d.
Proof. intros odd d m L. apply complete_val. eapply load_sound; eauto. Qed.

(** ... and if they are there it succeeds, for ordinary request field names. *)
Theorem C45_complete_partial : forall odd d, complete d -> ordinary_fields d -> exists m, LoadModelFromConfig odd [] d = (m, Ok tt).
Proof.
  intros odd d C O. pose proof (proj1 (complete_val d) C) as C0. clear C. rename C0 into C.
  destruct (load_verdict odd d) as [A _]; auto.
  - apply C. simpl; auto.
  - intros V. apply ordinary_fields_tokens; auto.
Qed.

(** When something is missing loading throws.  If the matcher is defined the exception
    names the missing sections. *)
Theorem C45_missing : forall odd d, ~ complete d -> ordinary_fields d ->
  ((exists v, written d "m" "m" v) -> snd (LoadModelFromConfig odd [] d) = Throw MissingRequiredSections) /\
  (snd (LoadModelFromConfig odd [] d) = Throw MissingRequiredSections \/ snd (LoadModelFromConfig odd [] d) = Throw StdOutOfRange).
Proof.
  intros odd d C O. rewrite complete_val in C. destruct (string_dec (val d "m" 1) "") as [E|NE].
  - split; [|apply no_matcher; auto]. intros [v W]. change (written d "m" (numbered "m" 1) v) in W.
    apply written_val in W; [destruct W; congruence|simpl; auto].
  - destruct (load_verdict odd d) as [_ B]; auto. intros V. apply ordinary_fields_tokens; auto.
Qed.

(** False: without a matcher, but with the request and effect definitions, the exception
    is std::out_of_range from a map lookup. *)
Theorem C45_missing_matcher_refuted : forall odd d, (forall v, ~ written d "m" "m" v) ->
  (exists v, written d "r" "r" v) -> (exists v, written d "e" "e" v) ->
  snd (LoadModelFromConfig odd [] d) = Throw StdOutOfRange.
Proof.
  intros odd d NM [v R] [w E]. change (written d "r" (numbered "r" 1) v) in R. change (written d "e" (numbered "e" 1) w) in E.
  apply written_val in R; [|simpl; tauto]. apply written_val in E; [|simpl; tauto]. destruct R, E.
  assert (val d "m" 1 = "").
  { destruct (string_dec (val d "m" 1) "") as [X|X]; auto. exfalso. apply (NM (val d "m" 1)).
    change "m" with (numbered "m" 1) at 2. apply written_val; [simpl; tauto|auto]. }
  apply (no_matcher odd d); congruence.
Qed.

(** The loaded model holds exactly the definitions p, p2, p3, ... of the text, each as
    written, and no rules. *)
Theorem C45_contents : forall odd d m, LoadModelFromConfig odd [] d = (m, Ok tt) -> forall sec key,
  (forall a, get_ast m sec key = Ok a -> exists i value, key = numbered sec i /\ defines d sec i value /\ holds_definition sec key value a) /\
  (forall i value, key = numbered sec i -> defines d sec i value -> exists a, get_ast m sec key = Ok a /\ holds_definition sec key value a).
Proof.
  intros odd d m L sec key. destruct (load_contents odd d m L sec) as [K N]. assert (K2 : In sec kinds -> forall q a, _) by (intros KS; exact (proj2 (K KS))).
  assert (VAL : In sec kinds -> forall i, (exists v, written d sec (numbered sec i) v) <-> val d sec i <> "").
  { intros KS i. split.
    - intros [v W]. apply written_val in W; auto. destruct W; congruence.
    - intros V. exists (val d sec i). apply written_val; auto. }
  assert (DEF : In sec kinds -> forall i v, defines d sec i v <-> 1 <= i /\ v = val d sec i /\ forall j, 1 <= j <= i -> val d sec j <> "").
  { intros KS i v. unfold defines. rewrite written_val by auto. split.
    - intros [I [[E V] H]]. split; auto. split; auto. intros j J. apply VAL; auto.
    - intros [I [E H]]. split; auto. subst. split; [split; auto; apply H; lia|]. intros j J. apply VAL; auto. }
  split.
  - intros a G. destruct (in_dec string_dec sec kinds) as [KS|KS].
    + apply (K2 KS key a) in G. destruct G as [i [s [I [V [-> [S [-> G]]]]]]]. exists i, (val d sec i). split; auto.
      split; [apply DEF; auto|]. apply base_holds. auto.
    + rewrite N in G by auto. discriminate.
  - intros i v -> D. pose proof D as [I [W H]]. pose proof (written_kind _ _ _ _ W) as KS. apply DEF in D; auto.
    destruct D as [_ [-> V]].
    (* the definition is loaded because the section is: count up to it *)
    destruct (get_ast m sec (numbered sec i)) as [a|e|u] eqn:G.
    + exists a. split; auto. apply (K2 KS) in G. destruct G as [i' [s [I' [V' [E [S [-> G]]]]]]]. apply numbered_inj in E; auto. subst i'.
      apply base_holds. auto.
    + exfalso. unfold get_ast in G. destruct (aget (numbered sec i) (sec_of m sec)); discriminate.
    + exfalso. revert G. destruct (proj1 (K KS) i I V) as [a A]. rewrite A. discriminate.
Qed.

(** ** The definitions stay *)
(** [e'] has the definitions of [e], whatever their rules. *)
Definition definition_of (r : res assertion) : res (string * string * list string) := let! a := r in Ok (a_key a, a_value a, a_tokens a).
Definition same_definitions (e e' : enforcer) : Prop :=
  forall sec key, definition_of (get_ast (e_model e') sec key) = definition_of (get_ast (e_model e) sec key).
Definition swaps_model (c : call) : Prop := match c with KSetModel _ => True | _ => False end.

Lemma defs_writes : forall e m' sec pt, writes (e_model e) m' sec pt -> same_definitions e (set_model m' e).
Proof.
  intros e m' sec pt [->|[a [p [G ->]]]] s q; simpl; auto. unfold put_policy. destruct (pair_dec s q sec pt) as [E|E].
  - injection E as -> ->. rewrite get_put_ast_same, G. reflexivity.
  - rewrite get_put_ast_other by auto. auto.
Qed.
Definition mdefs (m m' : model) : Prop := forall s q, definition_of (get_ast m' s q) = definition_of (get_ast m s q).
Lemma mdefs_line : forall l m, mdefs m (fst (LoadPolicyLine l m)).
Proof.
  intros l m s q. unfold LoadPolicyLine. destruct (String.eqb l "" || String.prefix "#" l); auto.
  destruct (map Trim (Split l "," None)) as [|key toks]; auto.
  destruct (get_ast (touch m (stake 1 key)) (stake 1 key) key) as [a| |] eqn:G; cbn [fst]; try (rewrite get_touch; auto).
  unfold put_policy. destruct (pair_dec s q (stake 1 key) key) as [E|E].
  - assert (s = stake 1 key /\ q = key) as [-> ->] by (split; congruence).
    rewrite get_put_ast_same. rewrite get_touch in G. rewrite G. reflexivity.
  - rewrite get_put_ast_other by auto. rewrite get_touch. auto.
Qed.
Lemma mdefs_trans : forall a b c, mdefs a b -> mdefs b c -> mdefs a c.
Proof. intros a b c H1 H2 s q. rewrite H2. apply H1. Qed.
Lemma mdefs_lines : forall ls m, mdefs m (fst (load_lines ls m)).
Proof.
  induction ls as [|l ls IH]; intros m; simpl. { intros s q; auto. }
  pose proof (mdefs_line l m) as H. destruct (LoadPolicyLine l m) as [m1 [u|e|u]]; simpl in *; auto.
  eapply mdefs_trans; eauto.
Qed.
Lemma mdefs_filtered : forall ls flt m, mdefs m (fst (load_filtered ls flt m)).
Proof.
  induction ls as [|l ls IH]; intros flt m; simpl. { intros s q; auto. }
  destruct (filterLine l flt) as [[|]| |]; auto; try (intros s q; auto; fail).
  pose proof (mdefs_line l m) as H. destruct (LoadPolicyLine l m) as [m1 [u|e|u]]; simpl in *; auto.
  eapply mdefs_trans; eauto.
Qed.
Lemma mdefs_file : forall f path m, mdefs m (fst (FileAdapter_LoadPolicy f path m)).
Proof.
  intros. unfold FileAdapter_LoadPolicy, LoadPolicyFile. destruct (String.eqb path ""); [intros s q; auto|].
  destruct (aget path (files f)); [apply mdefs_lines|intros s q; auto].
Qed.
Lemma mdefs_clear : forall m, mdefs m (ClearPolicy m).
Proof.
  intros m s q. rewrite P_Nodup.clear_get. destruct (String.eqb s "p" || String.eqb s "g"); auto. destruct (get_ast m s q); auto.
Qed.
Lemma defs_load : keeps same_definitions adapter_load.
Proof.
  intros e. unfold adapter_load. destruct (e_adapter e) as [[b path|line|path fd|u]|].
  - pose proof (mdefs_file (e_fs e) path (e_model e)) as H. destruct (FileAdapter_LoadPolicy _ _ _). exact H.
  - unfold StringAdapter_LoadPolicy. destruct (String.eqb line ""); [intros s q; auto|].
    pose proof (mdefs_lines (Split line (String nl "") None) (e_model e)) as H. destruct (load_lines _ _). exact H.
  - unfold Filtered_LoadPolicy. pose proof (mdefs_file (e_fs e) path (e_model e)) as H. destruct (FileAdapter_LoadPolicy _ _ _). exact H.
  - destruct (ua_load u (ua_log u)) as [lines ex]. pose proof (mdefs_lines lines (e_model e)) as H.
    destruct (load_lines _ _) as [m [x|x|x]]; exact H.
  - intros s q; auto.
Qed.

(** Whatever is called on the enforcer, short of giving it another model, the
    definitions stay; so none of the four needed is ever missing. *)
Theorem C45_stays : forall o odd d m e cs e', LoadModelFromConfig odd [] d = (m, Ok tt) -> e_model e = m ->
  Forall (fun c => ~ swaps_model c) cs -> reaches o e cs e' ->
  same_definitions e e' /\
  (forall sec, In sec ["r"; "p"; "e"; "m"] -> exists a, get_ast (e_model e') sec sec = Ok a).
Proof.
  intros o odd d m e cs e' L E F H.
  assert (X : same_definitions e e').
  { apply (reaches_keeps same_definitions) with (o := o) (cs := cs); auto.
    - intros e0 s q. auto.
    - intros a b c H1 H2 s q. rewrite H2. apply H1.
    - intros a b Q s q. specialize (Q s q). unfold strip, definition_of in *.
      destruct (get_ast (e_model b) s q), (get_ast (e_model a) s q); simpl in *; congruence.
    - clear H. induction F as [|c cs NS F IH]; constructor; auto.
      assert (RR : forall e0, same_definitions e0 e0) by (intros e0 s q; auto).
      assert (RT : forall a b c, same_definitions a b -> same_definitions b c -> same_definitions a c).
      { intros a b c' H1 H2 s q. rewrite H2. apply H1. }
      assert (CL : keeps same_definitions e_ClearPolicy) by (intros e0; exact (mdefs_clear (e_model e0))).
      assert (RB : keeps same_definitions rebuild_if_auto).
      { intros e0 s q. pose proof (quiet_rebuild_if e0) as Q. specialize (Q s q). unfold strip, definition_of in *.
        destruct (get_ast (e_model (fst (rebuild_if_auto e0))) s q), (get_ast (e_model e0) s q); simpl in *; congruence. }
      destruct c; simpl in *; auto; try tauto;
        try (apply keeps_on_model; [assumption|]; intros e0 m0 a0 Q; eapply defs_writes;
             first [eapply writes_add; exact Q | eapply writes_add_many; exact Q | eapply writes_remove; exact Q
                   | eapply writes_remove_filtered; exact Q | eapply writes_update; exact Q | eapply writes_update_many; exact Q]; fail).
      + intros r _. apply keeps_on_model; [assumption|]. intros e0 m0 a0 Q. eapply defs_writes. eapply writes_add; exact Q.
      + split; (apply keeps_on_model; [assumption|]; intros e0 m0 a0 Q; eapply defs_writes; eapply writes_remove_filtered; exact Q).
      + split; (apply keeps_on_model; [assumption|]; intros e0 m0 a0 Q; eapply defs_writes; eapply writes_remove_filtered; exact Q).
      + unfold LoadPolicy. apply keeps_bind; auto. intros _. apply keeps_bind; auto. apply defs_load.
      + unfold e_LoadFilteredPolicy. apply keeps_bind; auto. intros _. apply keeps_bind; auto.
        intros e0. destruct (e_adapter e0) as [a|]; auto. destruct (negb (adapter_filtered a)); auto. destruct a; auto.
        unfold LoadFilteredPolicy.
        assert (P : forall fd1 m1 out1, (match flt with None => Filtered_LoadPolicy (e_fs e0) path (e_model e0) | Some _ => (filtered, e_model e0, Ok tt) end) = (fd1, m1, out1) ->
                    mdefs (e_model e0) m1).
        { intros fd1 m1 out1. destruct flt as [fl|]; intros Q.
          - injection Q as _ <- _. intros s q; auto.
          - unfold Filtered_LoadPolicy in Q. pose proof (mdefs_file (e_fs e0) path (e_model e0)) as M. destruct (FileAdapter_LoadPolicy _ _ _).
            injection Q as _ <- _. exact M. }
        destruct (match flt with None => Filtered_LoadPolicy (e_fs e0) path (e_model e0) | Some _ => (filtered, e_model e0, Ok tt) end) as [[fd1 m1] out1].
        specialize (P _ _ _ eq_refl). destruct out1; simpl; auto. destruct (String.eqb path ""); simpl; auto.
        set (lines := match aget path (files (e_fs e0)) with None => [] | Some content => map Trim (getlines content) end).
        pose proof (mdefs_filtered lines flt m1) as M. destruct (load_filtered lines flt m1) as [m2 [u|x|x]]; simpl in *;
          exact (mdefs_trans _ _ _ P M). }
  split; auto. intros sec S. specialize (X sec sec). subst m.
  destruct (C45_contents odd d _ L sec sec) as [_ B].
  assert (W : exists a, get_ast (e_model e) sec sec = Ok a /\ True).
  { pose proof (C45_sound odd d _ L sec S) as [v W]. destruct (B 1 v) as [a [A _]]; eauto. split; auto. split; auto.
    intros j J. assert (j = 1) by lia. subst. eauto. }
  destruct W as [a [A _]]. rewrite A in X. destruct (get_ast (e_model e') sec sec) as [a'| |]; try discriminate. eauto.
Qed.

(** ** Cases *)
Definition eol := String nl "".
Definition no_regex : string -> string -> res string := fun _ _ => Throw StdRegexError.
(** A model text with the given definitions (examples/basic_model.conf). *)
Definition model_text (r p e m : string) : string :=
  ("[request_definition]" ++ eol ++ "r = " ++ r ++ eol ++ eol ++ "[policy_definition]" ++ eol ++ "p = " ++ p ++ eol ++ eol ++
   "[policy_effect]" ++ eol ++ "e = " ++ e ++ eol ++ eol ++ "[matchers]" ++ eol ++ "m = " ++ m)%string.
Definition basic_text := model_text "sub, obj, act" "sub, obj, act" "some(where (p.eft == allow))" basic_matcher.
Definition basic_config : config :=
  [("request_definition", [("r", "sub, obj, act")]); ("policy_definition", [("p", "sub, obj, act")]);
   ("policy_effect", [("e", "some(where (p.eft == allow))")]); ("matchers", [("m", basic_matcher)])].
Example basic_config_is : NewConfigFromText basic_text = Ok basic_config.
Proof. vm_compute. reflexivity. Qed.
Lemma kept_written : forall d sec t v, title sec t -> Get d (t ++ "::" ++ sec)%string = v -> v <> "" -> written d sec sec v.
Proof. intros. exists t. auto. Qed.
Lemma ordinary_by : forall d, ordinary_tokens d -> val d "r" 1 <> "" -> ordinary_fields d.
Proof. intros. apply ordinary_fields_tokens; auto. Qed.
(** The hypotheses hold for the basic model, the loaded model is the one used in the
    examples, with the indexed rule store. *)
Example C45_applies : complete basic_config /\ ordinary_fields basic_config /\
  (exists m, LoadModelFromConfig no_regex [] basic_config = (m, Ok tt) /\ NewModelFromString no_regex basic_text = Ok m /\
     forall sec key, sec = "r" \/ sec = "p" \/ sec = "m" -> get_ast m sec key = get_ast (basic_hash_model []) sec key).
Proof.
  split; [|split].
  - intros sec S. simpl in S. destruct S as [<-|[<-|[<-|[<-|[]]]]]; eexists.
    + eapply kept_written; [constructor|reflexivity|discriminate].
    + eapply kept_written; [constructor|reflexivity|discriminate].
    + eapply kept_written; [constructor|reflexivity|discriminate].
    + eapply kept_written; [constructor|reflexivity|discriminate].
  - apply ordinary_by; [|discriminate]. unfold ordinary_tokens.
    replace (Split (val basic_config "r" 1) "," None) with ["sub"; " obj"; " act"] by reflexivity.
    repeat (apply Forall_cons; [reflexivity|]). apply Forall_nil.
  - eexists. split; [vm_compute; reflexivity|]. split; [vm_compute; reflexivity|].
    intros sec key [->|[->| ->]]; unfold get_ast; simpl.
    + destruct (String.eqb_spec key "r"); reflexivity.
    + destruct (String.eqb_spec key "p"); reflexivity.
    + destruct (String.eqb_spec key "m"); reflexivity.
Qed.
Example C45_stays_applies : exists e', reaches mini (boot (basic_hash_model [])) [KAddPolicy "p" ["alice"; "data1"; "read"]; KClearPolicy] e' /\
  get_ast (e_model e') "p" "p" = get_ast (basic_hash_model []) "p" "p".
Proof.
  eexists. split.
  - eapply reach_step; [vm_compute; reflexivity|discriminate|]. eapply reach_step; [vm_compute; reflexivity|discriminate|]. apply reach_nil.
  - vm_compute. reflexivity.
Qed.
Definition without (sec : string) (d : config) : config := List.filter (fun kv => negb (String.eqb (fst kv) sec)) d.
Example C45_missing_applies : snd (LoadModelFromConfig no_regex [] (without "policy_effect" basic_config)) = Throw MissingRequiredSections /\
  snd (LoadModelFromConfig no_regex [] (without "matchers" basic_config)) = Throw StdOutOfRange.
Proof. split; vm_compute; reflexivity. Qed.

(** False for other field names: when std::regex refuses a field name the model cannot be
    loaded although the four definitions are there. *)
Theorem C45_field_name_refuted : exists d, complete d /\
  forall odd, odd "sub(" "r.sub == p.sub" = Throw StdRegexError -> snd (LoadModelFromConfig odd [] d) = Throw StdRegexError.
Proof.
  exists [("request_definition", [("r", "sub(")]); ("policy_definition", [("p", "sub")]); ("policy_effect", [("e", "some(where (p.eft == allow))")]);
          ("matchers", [("m", "r.sub == p.sub")])].
  split.
  - intros sec S. simpl in S. destruct S as [<-|[<-|[<-|[<-|[]]]]]; eexists.
    + eapply kept_written; [constructor|reflexivity|discriminate].
    + eapply kept_written; [constructor|reflexivity|discriminate].
    + eapply kept_written; [constructor|reflexivity|discriminate].
    + eapply kept_written; [constructor|reflexivity|discriminate].
  - intros odd H. lazy. rewrite H. reflexivity.
Qed.

(** ** C14, the choice of the index *)
(** The indexed store is chosen for a matcher that does not compare the objects; then
    the index denies a request the matcher allows. *)
Theorem C14_selection_refuted : exists odd text m e1 e2 req,
  NewModelFromString odd text = Ok m /\ e2 = fst (AddNamedPolicy "p" ["alice"; "data1"] (boot m)) /\ reindexed e1 e2 /\
  snd (Enforce mini (reqs req) e1) = Ok true /\
  snd (Enforce mini (reqs req) e2) = Ok false.
Proof.
  destruct (NewModelFromString no_regex (model_text "sub, obj" "sub, obj" "some(where (p.eft == allow))" "r.sub == p.sub && r.sub == p.sub")) as [m| |] eqn:L;
    [|vm_compute in L; discriminate|vm_compute in L; discriminate].
  vm_compute in L.
  exists no_regex, (model_text "sub, obj" "sub, obj" "some(where (p.eft == allow))" "r.sub == p.sub && r.sub == p.sub"), m.
  injection L as <-.
  exists (fst (AddNamedPolicy "p" ["alice"; "data1"] (boot [("m", [("m", ast "m" "r.sub == p.sub && r.sub == p.sub" [] (Vec []))]);
      ("r", [("r", ast "r" "sub, obj" ["r_sub"; "r_obj"] (Vec []))]); ("p", [("p", ast "p" "sub, obj" ["p_sub"; "p_obj"] (Vec []))]);
      ("e", [("e", ast "e" "some(where (p.eft == allow))" [] (Hash []))])]))).
  eexists. exists ["alice"; "data2"]. split; [vm_compute; reflexivity|]. split; [reflexivity|]. split.
  - eexists _, _. split; [vm_compute; reflexivity|]. split; [reflexivity|]. vm_compute. reflexivity.
  - split; vm_compute; reflexivity.
Qed.

(** ... and for a policy with an effect column: no rule is ever found in the index,
    because the request has one value less. *)
Theorem C14_effect_column_refuted : exists odd text m e1 e2 req,
  NewModelFromString odd text = Ok m /\ e2 = fst (AddNamedPolicy "p" ["alice"; "data1"; "allow"] (boot m)) /\ reindexed e1 e2 /\
  snd (Enforce mini (reqs req) e1) = Ok true /\
  snd (Enforce mini (reqs req) e2) = Ok false.
Proof.
  destruct (NewModelFromString no_regex (model_text "sub, obj" "sub, obj, eft" "some(where (p.eft == allow))" "r.sub == p.sub && r.obj == p.obj")) as [m| |] eqn:L;
    [|vm_compute in L; discriminate|vm_compute in L; discriminate].
  vm_compute in L.
  exists no_regex, (model_text "sub, obj" "sub, obj, eft" "some(where (p.eft == allow))" "r.sub == p.sub && r.obj == p.obj"), m.
  injection L as <-.
  exists (fst (AddNamedPolicy "p" ["alice"; "data1"; "allow"] (boot [("m", [("m", ast "m" "r.sub == p.sub && r.obj == p.obj" [] (Vec []))]);
      ("r", [("r", ast "r" "sub, obj" ["r_sub"; "r_obj"] (Vec []))]); ("p", [("p", ast "p" "sub, obj, eft" ["p_sub"; "p_obj"; "p_eft"] (Vec []))]);
      ("e", [("e", ast "e" "some(where (p.eft == allow))" [] (Hash []))])]))).
  eexists. exists ["alice"; "data1"]. split; [vm_compute; reflexivity|]. split; [reflexivity|]. split.
  - eexists _, _. split; [vm_compute; reflexivity|]. split; [reflexivity|]. vm_compute. reflexivity.
  - split; vm_compute; reflexivity.
Qed.

Print Assumptions C45_sound.
Print Assumptions C45_complete_partial.
Print Assumptions C45_missing.
Print Assumptions C45_missing_matcher_refuted.
Print Assumptions C45_contents.
Print Assumptions C45_stays.
Print Assumptions C45_field_name_refuted.
Print Assumptions C14_selection_refuted.
Print Assumptions C14_effect_column_refuted.
