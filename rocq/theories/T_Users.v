(** Properties C34 and C36: who is allowed in the RBAC model. *)
From Coq Require Import Permutation.
From Verif Require Import Base P_Base M_Util M_RoleManager M_Effector M_Model M_Persist M_Eval M_Evaluator M_Enforcer M_Matcher
  S_Effect S_Enforce S_Policy S_History S_Roles S_Sync S_Rbac P_Enforce P_Decide P_Store P_Api P_History P_Roles P_Sync P_Ready E_Examples
  T_Enforce T_Policy T_Rbac.
Local Arguments spell : simpl never.

(** ** C36 *)
Lemma rbac_candidates : forall o e req, standard_rbac o e -> candidates (e_model e) req = stored e "p" "p".
Proof. intros o e req S. unfold candidates. rewrite (sr_vector _ _ S). reflexivity. Qed.

(** The links in force may be others than the grouping rules call for. *)
Lemma rbac_decision_linked : forall o names rules lvl L e sub obj act,
  oracle_ext o -> reads_rbac o -> tidy names 2 rules -> linked_by names 2 rules lvl L e -> standard_rbac o e ->
  names (None, sub) -> (forall s r, In (s :: r) (stored e "p" "p") -> names (None, s)) ->
  (stored e "p" "p" <> [] \/ names (None, "") /\ (obj <> "" \/ act <> "")) ->
  exists b, snd (Enforce o (map DStr [sub; obj; act]) e) = Ok b /\
    (b = true <-> exists s, In [s; obj; act] (stored e "p" "p") /\ within L None lvl sub s).
Proof.
  intros o names rules lvl L e sub obj act X RB T M S Nsub Np NE.
  destruct M as [[r [H [R LV]]] GO W _ _].
  destruct (sr_g _ _ S) as [a A]. pose proof (get_asts _ _ _ A) as G. pose proof (W _ _ G) as Q. unfold asts in G.
  destruct RB as [RB1 RB2].
  assert (GA : forall s, names (None, s) -> exists v, role_fun (e_model e) (e_heap e) "g" [sub; s] = Some (Ok v) /\
     (v = true <-> within L None lvl sub s)).
  { intros s Ns. destruct (rep_HasLink names (t_names _ _ _ T) r L None sub s R Nsub Ns) as [v [Hv V]]. exists v. rewrite LV in V. split; auto.
    unfold role_fun. rewrite G, Q. unfold call_g. simpl. rewrite H. simpl in *. rewrite <- Hv. reflexivity. }
  assert (CO : o_compiles o rbac_matcher (known_vars f3 f3) (role_arity (e_model e)) = true).
  { apply RB1. { intros x I. cases_in I; reflexivity. } unfold role_arity. rewrite G. f_equal. destruct GO as [_ GO]. apply (GO _ _ G). }
  assert (VE : forall s o' a', In [s; o'; a'] (stored e "p" "p") -> exists b,
    verdict o (e_model e) (e_heap e) f3 f3 rbac_matcher [sub; obj; act] [s; o'; a'] = Ok b /\
    (b = true <-> within L None lvl sub s /\ o' = obj /\ a' = act)).
  { intros s o' a' I. destruct (GA s (Np _ _ I)) as [v [Gv V]]. exists (v && String.eqb obj o' && String.eqb act a'). split.
    - unfold verdict. cbn [List.length Nat.eqb negb f3]. unfold matcher_text, rule_expression.
      replace (HasEval rbac_matcher) with false by reflexivity. cbn [bind]. change ["sub"; "obj"; "act"] with f3. rewrite CO. eapply RB2; eauto; reflexivity.
    - rewrite !Bool.andb_true_iff, !String.eqb_eq, V. intuition congruence. }
  destruct (stored e "p" "p") as [|x xs] eqn:ST.
  - destruct NE as [NE|[N0 NE]]; [congruence|]. destruct (GA "" N0) as [v [Gv V]].
    assert (E : snd (EnforceWithMatcher o "" (map DStr [sub; obj; act]) e) = Ok false).
    { rewrite snd_EnforceWithMatcher.
      destruct (enforce_spec o e f3 f3 (effect_text AllowOverride) rbac_matcher "" [sub; obj; act] X (sr_ready _ _ S) eq_refl) as [ev [EQ _]].
      { rewrite (rbac_candidates o e _ S), ST. split; [discriminate|]. simpl. tauto. }
      rewrite EQ. unfold enforce_outcome. rewrite (sr_on _ _ S), (rbac_candidates o e _ S), ST. cbn [negb snd].
      unfold empty_outcome. replace (HasEval (chosen "" rbac_matcher)) with false by reflexivity.
      change (chosen "" rbac_matcher) with rbac_matcher. rewrite CO.
      erewrite RB2; try reflexivity; [|exact Gv]. cbn [bind].
      replace (v && String.eqb obj "" && String.eqb act "") with false. reflexivity.
      destruct NE as [NE|NE]; apply String.eqb_neq in NE; rewrite NE; rewrite ?Bool.andb_false_r; reflexivity. }
    exists false. split; auto. split; [discriminate|]. intros [s [[] _]].
  - assert (AN : answerable o e f3 f3 (effect_text AllowOverride) rbac_matcher "" [sub; obj; act]).
    { assert (F3 : forall y, In y (x :: xs) -> exists s o' a', y = [s; o'; a']).
      { intros y I. rewrite <- ST in I. pose proof (sr_fields _ _ S y I) as LY. destruct y as [|s [|o' [|a' [|]]]]; try discriminate. eauto. }
      split.
      - constructor; [apply (sr_ready _ _ S)|apply (sr_on _ _ S)|reflexivity| |].
        + rewrite (rbac_candidates o e _ S), ST. discriminate.
        + split; [discriminate|]. intros y I. discriminate.
      - intros y I. rewrite (rbac_candidates o e _ S), ST in I. destruct (F3 y I) as [s [o' [a' ->]]]. destruct (VE _ _ _ I) as [b [E _]]. exists b. exact E. }
    destruct (C01_allow_override o e f3 f3 rbac_matcher "" [sub; obj; act] X AN) as [b [E B]]. exists b. split; [exact E|]. rewrite B.
    rewrite (rbac_candidates o e _ S), ST. split.
    + intros [y [I [MA _]]]. pose proof I as I'. rewrite <- ST in I'. pose proof (sr_fields _ _ S y I') as LY. destruct y as [|s [|o' [|a' [|]]]]; try discriminate.
      destruct (VE _ _ _ I) as [b' [E' B']]. unfold matches in MA. change (chosen "" rbac_matcher) with rbac_matcher in MA. rewrite MA in E'. inversion E'; subst.
      destruct B' as [B' _]. destruct (B' eq_refl) as [WI [-> ->]]. eauto.
    + intros [s [I WI]]. exists [s; obj; act]. split; auto. split; [|reflexivity].
      destruct (VE _ _ _ I) as [b' [E' B']]. unfold matches. change (chosen "" rbac_matcher) with rbac_matcher. rewrite E'. f_equal. apply B'. auto.
Qed.
Lemma rbac_decision_mirror : forall o names rules e sub obj act,
  oracle_ext o -> reads_rbac o -> tidy names 2 rules -> mirror names 2 rules (level_of e) e -> standard_rbac o e ->
  names (None, sub) -> (forall s r, In (s :: r) (stored e "p" "p") -> names (None, s)) ->
  (stored e "p" "p" <> [] \/ names (None, "") /\ (obj <> "" \/ act <> "")) ->
  exists b, snd (Enforce o (map DStr [sub; obj; act]) e) = Ok b /\
    (b = true <-> exists s, In [s; obj; act] (stored e "p" "p") /\ within (assigned e) None (level_of e) sub s).
Proof. intros. eapply rbac_decision_linked; eauto. Qed.

(** In a standard RBAC enforcer whose links are kept by the library, a request is allowed
    exactly if some rule grants the object and the action to a subject that is the
    requester or is reached from them by grouping rules (in at most [level_of e] steps).
    [names] are the names in use. *)
Theorem C36_rbac_decision : forall o names rules e sub obj act,
  oracle_ext o -> reads_rbac o -> tidy names 2 rules -> managed o names 2 rules e -> standard_rbac o e ->
  names (None, sub) -> (forall s r, In (s :: r) (stored e "p" "p") -> names (None, s)) ->
  (stored e "p" "p" <> [] \/ names (None, "") /\ (obj <> "" \/ act <> "")) ->
  exists b, snd (Enforce o (map DStr [sub; obj; act]) e) = Ok b /\
    (b = true <-> exists s, In [s; obj; act] (stored e "p" "p") /\ within (assigned e) None (level_of e) sub s).
Proof.
  intros o names rules e sub obj act X RB T M S Nsub Np NE.
  eapply rbac_decision_mirror; eauto. eapply managed_mirror; eauto.
Qed.

(** It stays so through every history of safe calls. *)
Theorem C36_rbac_histories : forall o names rules cs e e' sub obj act,
  oracle_ext o -> reads_rbac o -> tidy names 2 rules -> managed o names 2 rules e -> standard_rbac o e ->
  Forall (safe_call rules) cs -> Forall rbac_call cs -> reaches o e cs e' ->
  names (None, sub) -> (forall s r, In (s :: r) (stored e' "p" "p") -> names (None, s)) ->
  (stored e' "p" "p" <> [] \/ names (None, "") /\ (obj <> "" \/ act <> "")) ->
  exists b, snd (Enforce o (map DStr [sub; obj; act]) e') = Ok b /\
    (b = true <-> exists s, In [s; obj; act] (stored e' "p" "p") /\ within (assigned e') None (level_of e') sub s).
Proof.
  intros o names rules cs e e' sub obj act X RB T M S F1 F2 RE N1 N2 N3.
  assert (K : managed o names 2 rules e' /\ standard_rbac o e').
  { induction RE; auto. inversion F1; inversion F2; subst. apply IHRE; auto.
    - eapply managed_call; eauto.
    - eapply rbac_run; eauto. }
  destruct K as [M' S']. eapply C36_rbac_decision; eauto.
Qed.

(** The expression language of M_Matcher.v reads the matcher this way. *)
Lemma mini_reads_rbac : reads_rbac mini.
Proof.
  split.
  - intros vars funs V F. unfold mini. cbn [o_compiles].
    replace (parse_matcher rbac_matcher) with (Some (MAnd (MCall "g" [TmVar "r.sub"; TmVar "p.sub"])
      (MAnd (MEq (TmVar "r.obj") (TmVar "p.obj")) (MEq (TmVar "r.act") (TmVar "p.act"))))) by (vm_compute; reflexivity).
    cbn [mexp_ok forallb term_ok List.length]. rewrite F. rewrite !V by (simpl; tauto). reflexivity.
  - intros v g rs ro ra ps po pa b V1 V2 V3 V4 V5 V6 G. unfold mini. cbn [o_value].
    replace (parse_matcher rbac_matcher) with (Some (MAnd (MCall "g" [TmVar "r.sub"; TmVar "p.sub"])
      (MAnd (MEq (TmVar "r.obj") (TmVar "p.obj")) (MEq (TmVar "r.act") (TmVar "p.act"))))) by (vm_compute; reflexivity).
    cbn [mexp_val term_val map]. rewrite V1, V2, V3, V4, V5, V6, G. destruct b; cbn [bind]; auto. destruct (String.eqb ro po); reflexivity.
Qed.
Lemma org_standard : forall o, standard_rbac o org.
Proof.
  intros o. constructor; try reflexivity.
  - split; [|exact I]. prove_declares.
  - intros r I. vm_compute in I. cases_in I; reflexivity.
  - eexists. reflexivity.
Qed.
Definition org_history : list call :=
  [KAddGrouping "g" ["carol"; "guest"]; KAddPolicy "p" ["guest"; "data1"; "read"]; KEnforce "" (reqs ["alice"; "data1"; "read"]);
   KRemoveGrouping "g" ["alice"; "admin"]; KGetImplicitUsers ["data1"; "read"]; KUpdatePolicy "p" ["bob"; "data2"; "write"] ["bob"; "data2"; "read"]].
Example C36_case : exists e', reaches mini org org_history e' /\ Forall (safe_call org_rule) org_history /\ Forall rbac_call org_history /\
  managed mini plain_names 2 org_rule org /\ standard_rbac mini org /\ reads_rbac mini /\ oracle_ext mini /\
  snd (Enforce mini (reqs ["carol"; "data1"; "read"]) e') = Ok true /\
  snd (Enforce mini (reqs ["alice"; "data1"; "read"]) e') = Ok false /\ snd (Enforce mini (reqs ["alice"; "data1"; "read"]) org) = Ok true /\
  snd (Enforce mini (reqs ["bob"; "data3"; "read"]) e') = Ok true.
Proof.
  eexists. split.
  { unfold org_history. repeat (eapply reach_step; [vm_compute; reflexivity|discriminate|]). apply reach_nil. }
  split. { unfold org_history. repeat (apply Forall_cons; [simpl; unfold org_rule, org_rules; simpl; tauto|]). apply Forall_nil. }
  split. { unfold org_history. repeat (apply Forall_cons; [simpl; auto|]); [|apply Forall_nil].
    split; [reflexivity|]. exists ["alice"; "data1"; "read"]. reflexivity. }
  split; [apply org_managed|]. split; [apply org_standard|]. split; [apply mini_reads_rbac|]. split; [apply mini_ext|].
  repeat split; vm_compute; reflexivity.
Qed.
Print Assumptions C36_rbac_decision.
Print Assumptions C36_rbac_histories.

(** The limit on chains matters: a rule for a role eleven links away does not grant access. *)
Theorem C36_unbounded_chain_refuted : exists e, managed mini plain_names 2 (fun r => In r chain_rules) e /\ standard_rbac mini e /\
  In ["n11"; "data"; "read"] (stored e "p" "p") /\ within (assigned e) None 11 "n0" "n11" /\
  snd (Enforce mini (reqs ["n0"; "data"; "read"]) e) = Ok false.
Proof.
  exists (linked_boot (rbac_model [["n11"; "data"; "read"]] chain_rules)). split; [|split; [|split; [|split]]].
  - eapply (pair_managed _ _ [["n11"; "data"; "read"]] chain_rules); auto.
  - constructor; try reflexivity.
    + split; [|exact I]. prove_declares.
    + intros r I. vm_compute in I. cases_in I; reflexivity.
    + eexists. reflexivity.
  - left. reflexivity.
  - assert (A : forall a b, In [a; b] chain_rules -> assigned (linked_boot (rbac_model [["n11"; "data"; "read"]] chain_rules)) (None, a, b)).
    { intros a b I. exists "g", [a; b]. split; auto. }
    repeat (eapply within_next; [apply A; unfold chain_rules; simpl; tauto|]). apply within_same.
  - vm_compute. reflexivity.
Qed.
Print Assumptions C36_unbounded_chain_refuted.

(** ** C34 *)
Lemma outcome_touch : forall o e s rf pf eft mat matcher req,
  enforce_outcome o (set_model (touch (e_model e) s) e) rf pf eft mat matcher req = enforce_outcome o e rf pf eft mat matcher req.
Proof.
  intros. unfold enforce_outcome, candidates, p_indexed, p_rules, empty_outcome, loop_outcome, rule_outcome, verdict, role_fun, role_arity. simpl.
  rewrite !get_touch, !sec_touch. reflexivity.
Qed.
Lemma answer_touch : forall o e s rf pf eft mat req, oracle_ext o -> mat <> "" -> HasEval mat = false -> ready o e rf pf eft mat ->
  snd (Enforce o (map DStr req) (set_model (touch (e_model e) s) e)) = snd (Enforce o (map DStr req) e).
Proof.
  intros o e s rf pf eft mat req X MAT NE R. pose proof (ready_touch o rf pf eft mat e s R) as R'. unfold Enforce. rewrite !snd_EnforceWithMatcher.
  destruct (Nat.eq_dec (List.length req) (List.length rf)) as [L|L].
  - destruct (enforce_spec o e rf pf eft mat "" req X R L) as [ev1 [E1 _]]; [apply plain_texts; auto|].
    destruct (enforce_spec o (set_model (touch (e_model e) s) e) rf pf eft mat "" req X R' L) as [ev2 [E2 _]]; [apply plain_texts; auto|].
    rewrite E1, E2. cbn [snd]. rewrite outcome_touch. reflexivity.
  - unfold EnforceExWithMatcher. simpl. rewrite get_touch. destruct (d_r _ _ _ _ _ (proj1 R)) as [a [A TK]]. rewrite A, TK, !map_length.
    apply Nat.eqb_neq in L. rewrite L. reflexivity.
Qed.

Lemma allowed_spec : forall o rf pf eft mat p0 p1, oracle_ext o -> mat <> "" -> HasEval mat = false ->
  forall subs e, ready o e rf pf eft mat ->
  (forall s, In s subs -> exists b, snd (Enforce o (map DStr [s; p0; p1]) e) = Ok b) ->
  exists e' l, allowed_subjects o [p0; p1] subs e = (e', Ok l) /\ (NoDup subs -> NoDup l) /\
    forall s, In s l <-> In s subs /\ snd (Enforce o (map DStr [s; p0; p1]) e) = Ok true.
Proof.
  intros o rf pf eft mat p0 p1 X MAT NE. induction subs as [|s subs IH]; intros e R H.
  - exists e, []. split; [reflexivity|]. split; auto. simpl. tauto.
  - cbn [allowed_subjects]. unfold mbind at 1, lift at 1. cbn [vget nth_error]. unfold mbind at 1, lift at 1. cbn [vget nth_error].
    destruct (H s (or_introl eq_refl)) as [b B]. change [DStr s; DStr p0; DStr p1] with (map DStr [s; p0; p1]).
    destruct (asked_enforce o X rf pf eft mat MAT NE "" (map DStr [s; p0; p1]) (conj eq_refl (ex_intro _ _ eq_refl)) e R) as [SE R'].
    unfold Enforce in *. remember (map DStr [s; p0; p1]) as params eqn:QP. unfold mbind at 1.
    destruct (EnforceWithMatcher o "" params e) as [e1 out] eqn:E. cbn [fst snd] in *. subst out.
    assert (SAME : forall s', snd (EnforceWithMatcher o "" (map DStr [s'; p0; p1]) e1) = snd (EnforceWithMatcher o "" (map DStr [s'; p0; p1]) e)).
    { intros s'. eapply (same_answer o X rf pf eft mat MAT NE); eauto. }
    destruct (IH e1 R') as [e' [l [EL [ND IL]]]]. { intros s' I. rewrite SAME. apply H. right. auto. }
    unfold mbind at 1. rewrite EL. exists e', (if b then s :: l else l). split; [reflexivity|]. split.
    + intros NDS. inversion NDS; subst. destruct b; auto. constructor; auto. intros C. apply IL in C. tauto.
    + intros s'. assert (J : In s' l <-> In s' subs /\ snd (EnforceWithMatcher o "" (map DStr [s'; p0; p1]) e) = Ok true) by (rewrite IL, SAME; tauto).
      assert (B' : snd (EnforceWithMatcher o "" (map DStr [s; p0; p1]) e) = Ok b) by (rewrite <- QP, E; reflexivity).
      destruct b.
      * simpl. split.
        -- intros [<-|I]; [split; [left; auto|exact B']|]. apply J in I. destruct I. split; [right; auto|auto].
        -- intros [[<-|I] K]; [left; auto|]. right. apply J. auto.
      * split.
        -- intros I. apply J in I. destruct I. split; [right; auto|auto].
        -- intros [[<-|I] K]; [rewrite B' in K; discriminate|]. apply J. auto.
Qed.

(** Stored rules are long enough to be listed. *)
Definition listable (e : enforcer) : Prop :=
  (forall pt r, In r (stored e "p" pt) -> 1 <= List.length r) /\ (forall pt r, In r (stored e "g" pt) -> 2 <= List.length r).
(** The subjects: first field of a policy rule or of a grouping rule; the roles: second
    field of a grouping rule. *)
Definition is_subject (e : enforcer) (s : string) : Prop :=
  exists sec pt r, (sec = "p" \/ sec = "g") /\ In r (stored e sec pt) /\ nth_error r 0 = Some s.
Definition is_role (e : enforcer) (s : string) : Prop :=
  exists pt r, In r (stored e "g" pt) /\ nth_error r 1 = Some s.

Theorem C34_implicit_users_partial : forall o e rf pf eft mat p0 p1,
  oracle_ext o -> ready o e rf pf eft mat -> mat <> "" -> HasEval mat = false -> listable e ->
  (forall s, is_subject e s -> exists b, snd (Enforce o (map DStr [s; p0; p1]) e) = Ok b) ->
  exists l, snd (GetImplicitUsersForPermission o [p0; p1] e) = Ok l /\ NoDup l /\
    forall s, In s l <-> is_subject e s /\ ~ is_role e s /\ snd (Enforce o (map DStr [s; p0; p1]) e) = Ok true.
Proof.
  intros o e rf pf eft mat p0 p1 X R MAT NE [LP LG] AN. unfold GetImplicitUsersForPermission.
  assert (LIST : forall sec i e0, (forall s pt, stored e0 s pt = stored e s pt) ->
     (forall pt r, In r (stored e sec pt) -> i < List.length r) ->
     exists l, all_types sec i e0 = (set_model (touch (e_model e0) sec) e0, Ok l) /\ NoDup l /\
       forall v, In v l <-> exists pt r, In r (stored e sec pt) /\ nth_error r i = Some v).
  { intros sec i e0 ST LE. pose proof (all_listing sec i e0) as K. unfold lists_field in K.
    destruct (all_types sec i e0) as [e1 out] eqn:E. assert (e1 = set_model (touch (e_model e0) sec) e0) as ->.
    { unfold all_types in E. simpl in E. inversion E. reflexivity. }
    cbn [snd] in K. destruct out as [l|t|u].
    - exists l. split; auto. destruct K as [ND K]. split; auto. intros v. rewrite K. split.
      + intros [pt [r [_ [I N]]]]. rewrite ST in I. eauto.
      + intros [pt [r [I N]]]. exists pt, r. rewrite ST. auto.
    - contradiction.
    - destruct K as [pt [r [_ [I LL]]]]. rewrite ST in I. specialize (LE _ _ I). exfalso. apply (Nat.lt_irrefl i). eapply Nat.lt_le_trans; eauto. }
  assert (STT : forall e0 t s pt, stored (set_model (touch (e_model e0) t) e0) s pt = stored e0 s pt).
  { intros. unfold stored, rules_in. simpl. rewrite get_touch. reflexivity. }
  destruct (LIST "p" 0 e) as [ps [E1 [_ I1]]]; auto.
  set (e1 := set_model (touch (e_model e) "p") e) in *.
  destruct (LIST "g" 1 e1) as [gi [E2 [_ I2]]]; auto. { intros. apply STT. }
  set (e2 := set_model (touch (e_model e1) "g") e1) in *.
  assert (ST2 : forall s pt, stored e2 s pt = stored e s pt). { intros. unfold e2. rewrite STT. apply STT. }
  destruct (LIST "g" 0 e2) as [gs [E3 [_ I3]]]; auto. { intros pt r I. apply LG in I. lia. }
  set (e3 := set_model (touch (e_model e2) "g") e2) in *.
  assert (R1 : ready o e1 rf pf eft mat) by (apply ready_touch; auto).
  assert (R2 : ready o e2 rf pf eft mat) by (apply ready_touch; auto).
  assert (R3 : ready o e3 rf pf eft mat) by (apply ready_touch; auto).
  assert (SAME : forall req, snd (Enforce o (map DStr req) e3) = snd (Enforce o (map DStr req) e)).
  { intros req. unfold e3. rewrite (answer_touch o e2 "g" rf pf eft mat req); auto. unfold e2. rewrite (answer_touch o e1 "g" rf pf eft mat req); auto.
    unfold e1. apply (answer_touch o e "p" rf pf eft mat req); auto. }
  unfold GetAllSubjects. unfold mbind at 1. rewrite E1. unfold mbind at 1. rewrite E2. unfold mbind at 1. rewrite E3.
  assert (SUB : forall s, In s (ArrayRemoveDuplicates (ps ++ gs)) <-> is_subject e s).
  { intros s. unfold ArrayRemoveDuplicates. rewrite dedup_in, in_app_iff, I1, I3. unfold is_subject. split.
    - intros [[[pt [r [I N]]]|[pt [r [I N]]]] _]; [exists "p", pt, r|exists "g", pt, r]; auto.
    - intros [sec [pt [r [[->| ->] [I N]]]]]; (split; [|tauto]); [left|right]; eauto. }
  destruct (allowed_spec o rf pf eft mat p0 p1 X MAT NE (ArrayRemoveDuplicates (ps ++ gs)) e3 R3) as [e4 [l [E4 [ND IL]]]].
  { intros s I. rewrite SAME. apply AN. apply SUB. auto. }
  unfold mbind at 1. rewrite E4. unfold ret. cbn [snd]. eexists. split; [reflexivity|]. split.
  - unfold SetSubtract. apply NoDup_filter. apply ND. apply dedup_nodup.
  - intros s. unfold SetSubtract. rewrite filter_In, IL, SUB, SAME. rewrite Bool.negb_true_iff.
    assert (RO : inb s gi = false <-> ~ is_role e s).
    { unfold is_role. rewrite <- I2. apply inb_false. }
    rewrite RO. tauto.
Qed.
Print Assumptions C34_implicit_users_partial.
Example C34_case : snd (GetImplicitUsersForPermission mini ["data3"; "read"] org) = Ok ["bob"; "alice"] /\
  listable org /\ ready mini org f3 f3 (effect_text AllowOverride) rbac_matcher /\ HasEval rbac_matcher = false /\
  (forall s, is_subject org s -> exists b, snd (Enforce mini (map DStr [s; "data3"; "read"]) org) = Ok b).
Proof.
  split; [vm_compute; reflexivity|]. split; [split|split; [apply (org_standard mini)|split; [reflexivity|]]].
  - intros pt r I. unfold stored, rules_in, get_ast in I. simpl in I. destruct (String.eqb pt "p"); simpl in I; cases_in I; simpl; lia.
  - intros pt r I. unfold stored, rules_in, get_ast in I. simpl in I. destruct (String.eqb pt "g"); simpl in I; cases_in I; simpl; lia.
  - intros s _. destruct (C36_rbac_decision mini plain_names org_rule org s "data3" "read") as [b [E _]]; eauto.
    + apply mini_ext.
    + apply mini_reads_rbac.
    + apply org_tidy.
    + apply org_managed.
    + apply org_standard.
    + reflexivity.
    + intros; reflexivity.
    + left. discriminate.
Qed.

(** A permission of fewer than two fields is out of bounds as soon as there is a subject. *)
Theorem C34_short_permission_refuted : exists e, managed mini plain_names 2 org_rule e /\ standard_rbac mini e /\
  snd (GetImplicitUsersForPermission mini ["data1"] e) = UB OutOfBounds.
Proof. exists org. split; [apply org_managed|]. split; [apply org_standard|]. vm_compute. reflexivity. Qed.

(** Requests of more than three fields (a domain) are never asked properly: nobody is
    listed although users are allowed. *)
Definition domain_matcher := "g(r.sub, p.sub, r.dom) && r.dom == p.dom && r.obj == p.obj && r.act == p.act".
Definition domain_model (ps gs : list rule) : model :=
  [("r", [("r", ast "r" "sub, dom, obj, act" ["r_sub"; "r_dom"; "r_obj"; "r_act"] (Vec []))]);
   ("p", [("p", ast "p" "sub, dom, obj, act" ["p_sub"; "p_dom"; "p_obj"; "p_act"] (Vec ps))]);
   ("g", [("g", ast "g" "_, _, _" [] (Vec gs))]);
   ("e", [("e", ast "e" (effect_text AllowOverride) [] (Vec []))]);
   ("m", [("m", ast "m" domain_matcher [] (Vec []))])].
Theorem C34_domains_refuted : exists e, e = linked_boot (domain_model [["admin"; "d1"; "data1"; "read"]] [["alice"; "admin"; "d1"]]) /\
  snd (Enforce mini (reqs ["alice"; "d1"; "data1"; "read"]) e) = Ok true /\
  snd (GetImplicitUsersForPermission mini ["d1"; "data1"; "read"] e) = Ok [].
Proof. eexists. split; [reflexivity|]. split; vm_compute; reflexivity. Qed.
Print Assumptions C34_short_permission_refuted.
Print Assumptions C34_domains_refuted.
