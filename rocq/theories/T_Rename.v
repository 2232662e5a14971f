(** Property C110: names carry no meaning of their own. *)
From Coq Require Import Permutation.
From Verif Require Import Base P_Base M_Util M_RoleManager M_Effector M_Model M_Persist M_Eval M_Evaluator M_Enforcer M_Matcher
  S_Effect S_Enforce S_Policy S_History S_Roles S_Sync S_Rbac S_Standard S_Rename P_Enforce P_Decide P_Store P_Api P_History P_Roles P_Sync P_Ready P_Standard
  P_Rename E_Examples T_Enforce T_Policy T_Rbac T_Users T_Standard.
Local Arguments spell : simpl never.

(** rbac_model.conf: two enforcers whose rules differ by a renaming give the same decision on
    requests that differ by it.  ([names1] and [names2] are the names in use; without domains
    these may be all names, see C36.) *)
Theorem C110_rbac : forall o rho names1 rules1 names2 rules2 e1 e2 sub obj act,
  oracle_ext o -> reads_rbac o -> one_to_one rho -> renamed rho e1 e2 -> level_of e1 = level_of e2 ->
  tidy names1 2 rules1 -> managed o names1 2 rules1 e1 -> standard_rbac o e1 ->
  tidy names2 2 rules2 -> managed o names2 2 rules2 e2 -> standard_rbac o e2 ->
  names1 (None, sub) -> (forall s r, In (s :: r) (stored e1 "p" "p") -> names1 (None, s)) ->
  names2 (None, rho sub) -> (forall s r, In (s :: r) (stored e2 "p" "p") -> names2 (None, s)) ->
  stored e1 "p" "p" <> [] ->
  exists b, snd (Enforce o (map DStr [sub; obj; act]) e1) = Ok b /\ snd (Enforce o (map DStr (map rho [sub; obj; act])) e2) = Ok b.
Proof.
  intros o rho names1 rules1 names2 rules2 e1 e2 sub obj act X RD O R L T1 M1 S1 T2 M2 S2 N1 P1 N2 P2 NE.
  assert (NE2 : stored e2 "p" "p" <> []).
  { destruct (stored e1 "p" "p") as [|q qs] eqn:E; [congruence|]. intros Z.
    assert (I : In (map rho q) (stored e2 "p" "p")) by (apply (proj1 R); exists q; split; auto; rewrite E; left; auto).
    rewrite Z in I. destruct I. }
  destruct (C36_rbac_decision o names1 rules1 e1 sub obj act) as [b1 [E1 B1]]; auto.
  destruct (C36_rbac_decision o names2 rules2 e2 (rho sub) (rho obj) (rho act)) as [b2 [E2 B2]]; auto.
  exists b1. split; auto. cbn [map] in *. rewrite E2. f_equal. apply same_bool. rewrite B1, B2, L. split.
  - intros [s [I W]]. apply (within_renamed rho e1 e2 None _ sub s R O) in W. destruct W as [s' [-> W]]. exists s'. split; auto.
    apply (renamed_rule rho e1 e2 [s'; obj; act] O R). exact I.
  - intros [s [I W]]. exists (rho s). split.
    + apply (renamed_rule rho e1 e2 [s; obj; act] O R). exact I.
    + apply (within_rho rho e1 e2 None _ sub s R O). exact W.
Qed.

(** rbac_with_domains_model.conf. *)
Theorem C110_domains_partial : forall o rho names1 rules1 names2 rules2 e1 e2 sub dom obj act,
  oracle_ext o -> reads o 3 domain_text domain_reading -> one_to_one rho -> renamed rho e1 e2 -> level_of e1 = level_of e2 ->
  tidy names1 3 rules1 -> managed o names1 3 rules1 e1 -> standard o false fd fd (effect_text AllowOverride) domain_text e1 -> declared e1 "g" "g" ->
  tidy names2 3 rules2 -> managed o names2 3 rules2 e2 -> standard o false fd fd (effect_text AllowOverride) domain_text e2 -> declared e2 "g" "g" ->
  names1 (Some dom, sub) -> (forall s r, In (s :: r) (stored e1 "p" "p") -> names1 (Some dom, s)) ->
  names2 (Some (rho dom), rho sub) -> (forall s r, In (s :: r) (stored e2 "p" "p") -> names2 (Some (rho dom), s)) ->
  stored e1 "p" "p" <> [] ->
  exists b, snd (Enforce o (map DStr [sub; dom; obj; act]) e1) = Ok b /\ snd (Enforce o (map DStr (map rho [sub; dom; obj; act])) e2) = Ok b.
Proof.
  intros o rho names1 rules1 names2 rules2 e1 e2 sub dom obj act X RD O R L T1 M1 S1 G1 T2 M2 S2 G2 N1 P1 N2 P2 NE.
  assert (NE2 : stored e2 "p" "p" <> []).
  { destruct (stored e1 "p" "p") as [|q qs] eqn:E; [congruence|]. intros Z.
    assert (I : In (map rho q) (stored e2 "p" "p")) by (apply (proj1 R); exists q; split; auto; rewrite E; left; auto).
    rewrite Z in I. destruct I. }
  destruct (C69_domain_decision o names1 rules1 [] e1 e1 sub dom obj act) as [b1 [E1 B1]]; auto; [constructor|].
  destruct (C69_domain_decision o names2 rules2 [] e2 e2 (rho sub) (rho dom) (rho obj) (rho act)) as [b2 [E2 B2]]; auto; [constructor|].
  exists b1. split; auto. cbn [map] in *. rewrite E2. f_equal. apply same_bool. rewrite B1, B2, L. split.
  - intros [s [I W]]. apply (within_renamed rho e1 e2 (Some dom) _ sub s R O) in W. destruct W as [s' [-> W]]. exists s'. split; auto.
    apply (renamed_rule rho e1 e2 [s'; dom; obj; act] O R). exact I.
  - intros [s [I W]]. exists (rho s). split.
    + apply (renamed_rule rho e1 e2 [s; dom; obj; act] O R). exact I.
    + apply (within_rho rho e1 e2 (Some dom) _ sub s R O). exact W.
Qed.

(** Models with an effect column and any of the effects of C71; the words allow and deny keep
    their meaning, so they keep their names. *)
Lemma says_renamed : forall rho e1 e2 sub obj act f, renamed rho e1 e2 -> one_to_one rho -> level_of e1 = level_of e2 -> rho f = f ->
  (rule_says e2 (rho sub) (rho obj) (rho act) f <-> rule_says e1 sub obj act f).
Proof.
  intros rho e1 e2 sub obj act f R O L F. unfold rule_says. rewrite <- L. split.
  - intros [s [I W]]. apply (within_renamed rho e1 e2 None _ sub s R O) in W. destruct W as [s' [-> W]]. exists s'. split; auto.
    apply (renamed_rule rho e1 e2 [s'; obj; act; f] O R). cbn [map]. rewrite F. exact I.
  - intros [s [I W]]. exists (rho s). split.
    + rewrite <- F. apply (renamed_rule rho e1 e2 [s; obj; act; f] O R). exact I.
    + apply (within_rho rho e1 e2 None _ sub s R O). exact W.
Qed.
Theorem C110_deny : forall o rho pe names1 rules1 names2 rules2 e1 e2 sub obj act,
  pe = AllowAndDeny \/ pe = DenyOverride \/ pe = Priority ->
  oracle_ext o -> reads o 2 rbac_matcher rbac_reading -> one_to_one rho -> rho "allow" = "allow" -> rho "deny" = "deny" ->
  renamed_in_order rho e1 e2 -> level_of e1 = level_of e2 ->
  tidy names1 2 rules1 -> managed o names1 2 rules1 e1 -> standard o false f3 f4 (effect_text pe) rbac_matcher e1 -> declared e1 "g" "g" ->
  tidy names2 2 rules2 -> managed o names2 2 rules2 e2 -> standard o false f3 f4 (effect_text pe) rbac_matcher e2 -> declared e2 "g" "g" ->
  names1 (None, sub) -> (forall s r, In (s :: r) (stored e1 "p" "p") -> names1 (None, s)) ->
  names2 (None, rho sub) -> (forall s r, In (s :: r) (stored e2 "p" "p") -> names2 (None, s)) ->
  stored e1 "p" "p" <> [] ->
  exists b, snd (Enforce o (map DStr [sub; obj; act]) e1) = Ok b /\ snd (Enforce o (map DStr (map rho [sub; obj; act])) e2) = Ok b.
Proof.
  intros o rho pe names1 rules1 names2 rules2 e1 e2 sub obj act PE X RD O FA FD [Q R] L T1 M1 S1 G1 T2 M2 S2 G2 N1 P1 N2 P2 NE.
  assert (NE2 : stored e2 "p" "p" <> []).
  { rewrite Q. destruct (stored e1 "p" "p"); simpl; congruence. }
  cbn [map]. destruct PE as [->|[->| ->]].
  - destruct (C71_deny_decision o names1 rules1 [] e1 e1 sub obj act) as [b1 [E1 B1]]; auto; [constructor|].
    destruct (C71_deny_decision o names2 rules2 [] e2 e2 (rho sub) (rho obj) (rho act)) as [b2 [E2 B2]]; auto; [constructor|].
    exists b1. split; auto. cbn [map] in *. rewrite E2. f_equal. apply same_bool. rewrite B1, B2.
    rewrite !(says_renamed rho e1 e2 sub obj act) by auto. tauto.
  - destruct (C71_not_deny_decision o names1 rules1 [] e1 e1 sub obj act) as [b1 [E1 B1]]; auto; [constructor|].
    destruct (C71_not_deny_decision o names2 rules2 [] e2 e2 (rho sub) (rho obj) (rho act)) as [b2 [E2 B2]]; auto; [constructor|].
    exists b1. split; auto. cbn [map] in *. rewrite E2. f_equal. apply same_bool. rewrite B1, B2.
    rewrite !(says_renamed rho e1 e2 sub obj act) by auto. tauto.
  - destruct (C71_priority_decision o names1 rules1 [] e1 e1 sub obj act) as [b1 [E1 B1]]; auto; [constructor|].
    destruct (C71_priority_decision o names2 rules2 [] e2 e2 (rho sub) (rho obj) (rho act)) as [b2 [E2 B2]]; auto; [constructor|].
    exists b1. split; auto. cbn [map] in *. rewrite E2. f_equal. apply same_bool. rewrite B1, B2, L, Q. split.
    + intros [pre [s [post [E [W F]]]]]. apply map_eq_app in E. destruct E as [pre' [rest [E [<- E']]]].
      destruct rest as [|q post']; [discriminate|]. cbn [map] in E'. injection E' as E' _.
      assert (K : exists s', q = [s'; obj; act; "allow"] /\ s = rho s').
      { destruct q as [|s' [|o' [|a' [|f' [|]]]]]; try discriminate. cbn [map] in E'.
        assert (A1 : rho s' = s) by congruence. assert (A2 : rho o' = rho obj) by congruence. assert (A3 : rho a' = rho act) by congruence.
        assert (A4 : rho f' = rho "allow") by congruence. apply O in A2. apply O in A3. apply O in A4. subst. eauto. }
      destruct K as [s' [-> ->]]. exists pre', s', post'. split; auto. split; [apply (within_rho rho e1 e2 None _ sub s' R O); auto|].
      intros s0 f I W'. destruct (F (rho s0) (rho f)) as [F1 F2].
      { change ([rho s0; rho obj; rho act; rho f]) with (map rho [s0; obj; act; f]). apply in_map. auto. }
      { apply (within_rho rho e1 e2 None _ sub s0 R O); auto. }
      split; intros ->; congruence.
    + intros [pre [s [post [E [W F]]]]]. exists (map (map rho) pre), (rho s), (map (map rho) post). split.
      { rewrite E, map_app. cbn [map]. rewrite FA. reflexivity. }
      split; [apply (within_rho rho e1 e2 None _ sub s R O); auto|].
      intros s0 f I W'. apply in_map_iff in I. destruct I as [q [E' I]].
      destruct q as [|s' [|o' [|a' [|f' [|]]]]]; try discriminate. cbn [map] in E'. inversion E' as [[A1 A2 A3 A4]]. subst s0 f.
      apply O in A2. apply O in A3. subst o' a'. destruct (F s' f') as [F1 F2]; auto.
      { apply (within_rho rho e1 e2 None _ sub s' R O); auto. }
      split; intros Z; [apply F1|apply F2]; apply O; congruence.
Qed.

(** Access control lists: NUL characters and three empty values excepted. *)
Theorem C110_acl_partial : forall o rho e1 e2 sub obj act,
  oracle_ext o -> reads o 2 basic_matcher acl_reading -> one_to_one rho -> renamed rho e1 e2 ->
  (forall e, In e [e1; e2] -> standard o true f3 f3 (effect_text AllowOverride) basic_matcher e /\ roleless e) ->
  (forall req, In req [[sub; obj; act]; map rho [sub; obj; act]] -> map c_str req = req /\ req <> [""; ""; ""]) ->
  exists b, snd (Enforce o (map DStr [sub; obj; act]) e1) = Ok b /\ snd (Enforce o (map DStr (map rho [sub; obj; act])) e2) = Ok b.
Proof.
  intros o rho e1 e2 sub obj act X RD O R S N.
  destruct (S e1) as [S1 R1]; [left; auto|]. destruct (S e2) as [S2 R2]; [right; left; auto|].
  destruct (N [sub; obj; act]) as [A1 A2]; [left; auto|]. destruct (N (map rho [sub; obj; act])) as [A3 A4]; [right; left; auto|].
  destruct (C70_acl_decision_partial o (fun _ => False) [] e1 e1 sub obj act) as [b1 [E1 B1]]; auto; [constructor|].
  destruct (C70_acl_decision_partial o (fun _ => False) [] e2 e2 (rho sub) (rho obj) (rho act)) as [b2 [E2 B2]]; auto; [constructor|].
  exists b1. split; auto. cbn [map] in *. rewrite E2. f_equal. apply same_bool. rewrite B1, B2.
  apply (renamed_rule rho e1 e2 [sub; obj; act] O R).
Qed.
Print Assumptions C110_rbac.
Print Assumptions C110_domains_partial.
Print Assumptions C110_deny.
Print Assumptions C110_acl_partial.

(** Cases: two names are exchanged. *)
Definition swap (x y s : string) : string := if String.eqb s x then y else if String.eqb s y then x else s.
Lemma swap_one : forall x y, one_to_one (swap x y).
Proof.
  intros x y a b. unfold swap.
  destruct (String.eqb_spec a x), (String.eqb_spec a y), (String.eqb_spec b x), (String.eqb_spec b y); congruence.
Qed.
Lemma compose_one : forall f g, one_to_one f -> one_to_one g -> one_to_one (fun s => f (g s)).
Proof. intros f g F G x y E. apply G, F, E. Qed.
Lemma renamed_lists : forall rho e1 e2, stored e2 "p" "p" = map (map rho) (stored e1 "p" "p") ->
  (forall pt, stored e2 "g" pt = map (map rho) (stored e1 "g" pt)) -> renamed_in_order rho e1 e2.
Proof.
  intros rho e1 e2 P G. split; auto. split.
  - intros r. rewrite P, in_map_iff. split; intros [q [A B]]; exists q; auto.
  - intros pt r. rewrite G, in_map_iff. split; intros [q [A B]]; exists q; auto.
Qed.
Lemma one_g : forall e a pt, sec_of (e_model e) "g" = [("g", a)] -> stored e "g" pt = if String.eqb pt "g" then rules_of (a_policy a) else [].
Proof.
  intros e a pt H. unfold stored, rules_in, get_ast. rewrite H. cbn [aget]. destruct (String.eqb pt "g"); reflexivity.
Qed.
Lemma one_g_renamed : forall rho e1 e2 a1 a2, sec_of (e_model e1) "g" = [("g", a1)] -> sec_of (e_model e2) "g" = [("g", a2)] ->
  rules_of (a_policy a2) = map (map rho) (rules_of (a_policy a1)) -> forall pt, stored e2 "g" pt = map (map rho) (stored e1 "g" pt).
Proof.
  intros rho e1 e2 a1 a2 H1 H2 E pt. rewrite (one_g e1 a1 pt H1), (one_g e2 a2 pt H2), E. destruct (String.eqb pt "g"); reflexivity.
Qed.
Definition team (s : string) : string := ("team/" ++ s)%string.
Lemma team_one : one_to_one team.
Proof. intros x y E. unfold team in E. cbn [append] in E. inversion E. auto. Qed.
Definition org2 : enforcer := linked_boot (rbac_model (map (map team) org_ps) (map (map team) org_gs)).
Definition org2_rules : list rule := map (map team) org_rules.
Lemma org2_tidy : tidy plain_names 2 (fun r => In r org2_rules).
Proof.
  apply pair_tidy; [repeat constructor|]. intros r r' H H' P. unfold org2_rules in *. apply in_map_iff in H, H'.
  destruct H as [q [<- H]], H' as [q' [<- H']]. f_equal. apply (t_perm _ _ _ org_tidy); auto.
  apply Permutation_map_inv in P. destruct P as [l [E P]]. apply map_one_to_one in E; [|apply team_one]. subst. symmetry. auto.
Qed.
Lemma org2_managed : managed mini plain_names 2 (fun r => In r org2_rules) org2.
Proof.
  eapply (pair_managed _ _ (map (map team) org_ps) (map (map team) org_gs)); [|unfold org2, linked_boot; apply surjective_pairing || (vm_compute; reflexivity)].
  intros r I. unfold org2_rules, org_gs, org_rules in *. cases_in I; simpl; tauto.
Qed.
Lemma org2_standard : standard_rbac mini org2.
Proof.
  constructor; try reflexivity.
  - split; [|exact I]. prove_declares.
  - intros r I. vm_compute in I. cases_in I; reflexivity.
  - eexists. reflexivity.
Qed.
Lemma org2_renamed : renamed_in_order team org org2.
Proof.
  apply renamed_lists; [vm_compute; reflexivity|]. eapply one_g_renamed; [reflexivity|reflexivity|vm_compute; reflexivity].
Qed.
Example C110_case : one_to_one team /\ renamed team org org2 /\ level_of org = level_of org2 /\ tidy plain_names 2 org_rule /\
  managed mini plain_names 2 org_rule org /\ standard_rbac mini org /\ tidy plain_names 2 (fun r => In r org2_rules) /\
  managed mini plain_names 2 (fun r => In r org2_rules) org2 /\ standard_rbac mini org2 /\ reads_rbac mini /\ stored org "p" "p" <> [] /\
  snd (Enforce mini (reqs ["alice"; "data3"; "read"]) org) = Ok true /\
  snd (Enforce mini (reqs ["team/alice"; "team/data3"; "team/read"]) org2) = Ok true /\
  snd (Enforce mini (reqs ["alice"; "data3"; "read"]) org2) = Ok false.
Proof.
  split; [apply team_one|]. split; [apply org2_renamed|]. split; [vm_compute; reflexivity|]. split; [apply org_tidy|].
  split; [apply org_managed|]. split; [apply org_standard|]. split; [apply org2_tidy|]. split; [apply org2_managed|].
  split; [apply org2_standard|]. split; [apply mini_reads_rbac|]. split; [vm_compute; discriminate|]. repeat split; vm_compute; reflexivity.
Qed.

(** With domains the exchange of two domains, and with an effect column that of two users. *)
Definition dorg2 : enforcer :=
  linked_boot (domain_model (map (map (swap "d1" "d2")) dom_ps) (map (map (swap "d1" "d2")) [["alice"; "admin"; "d1"]; ["alice"; "user"; "d2"]; ["bob"; "admin"; "d2"]])).
Definition dom_rule2 (r : rule) : Prop := exists q, In q dom_rules /\ r = map (swap "d1" "d2") q.
Lemma dom_tidy2 : tidy two_doms 3 dom_rule2.
Proof.
  constructor; auto.
  - apply two_doms_apart.
  - intros r [q [H ->]]. unfold dom_rules in H.
    cases_in H; (split; [reflexivity|]); do 3 eexists; (split; [reflexivity|]); split; eexists; split; reflexivity.
  - intros r r' [q [H ->]] [q' [H' ->]] P. f_equal. apply (t_perm _ _ _ dom_tidy); auto.
    apply Permutation_map_inv in P. destruct P as [l [E P]]. apply map_one_to_one in E; [|apply swap_one]. subst. symmetry. auto.
Qed.
Lemma dorg2_managed : managed mini two_doms 3 dom_rule2 dorg2.
Proof.
  apply (managed_built mini two_doms 3 dom_rule2
    (boot (domain_model (map (map (swap "d1" "d2")) dom_ps) (map (map (swap "d1" "d2")) [["alice"; "admin"; "d1"]; ["alice"; "user"; "d2"]; ["bob"; "admin"; "d2"]])))); try reflexivity.
  - eexists. split; reflexivity.
  - split.
    + repeat constructor; simpl; tauto.
    + intros pt a H. simpl in H. destruct (String.eqb pt "g") eqn:E; [|discriminate]. inversion H; subst. split; [reflexivity|].
      apply Forall_forall. intros r I. unfold dom_rule2, dom_rules. simpl in I. cases_in I;
        [exists ["alice"; "admin"; "d1"]|exists ["alice"; "user"; "d2"]|exists ["bob"; "admin"; "d2"]]; (split; [simpl; tauto|reflexivity]).
Qed.
Lemma dorg2_standard : standard mini false fd fd (effect_text AllowOverride) domain_text dorg2.
Proof.
  constructor; try reflexivity; try discriminate.
  - split; [|exact I]. prove_declares.
  - intros r I. vm_compute in I. cases_in I; reflexivity.
Qed.
Example C110_domains_case : one_to_one (swap "d1" "d2") /\ renamed (swap "d1" "d2") dorg dorg2 /\ level_of dorg = level_of dorg2 /\
  tidy two_doms 3 dom_rule2 /\ managed mini two_doms 3 dom_rule2 dorg2 /\ standard mini false fd fd (effect_text AllowOverride) domain_text dorg2 /\
  declared dorg2 "g" "g" /\ stored dorg "p" "p" <> [] /\
  snd (Enforce mini (reqs ["bob"; "d2"; "data2"; "read"]) dorg) = Ok true /\ snd (Enforce mini (reqs ["bob"; "d1"; "data2"; "read"]) dorg2) = Ok true /\
  snd (Enforce mini (reqs ["bob"; "d2"; "data2"; "read"]) dorg2) = Ok false.
Proof.
  split; [apply swap_one|].
  split. { apply renamed_lists; [vm_compute; reflexivity|]. eapply one_g_renamed; [reflexivity|reflexivity|vm_compute; reflexivity]. }
  split; [vm_compute; reflexivity|]. split; [apply dom_tidy2|]. split; [apply dorg2_managed|]. split; [apply dorg2_standard|].
  split; [eexists; reflexivity|]. split; [vm_compute; discriminate|]. repeat split; vm_compute; reflexivity.
Qed.
Definition deny_rules2 : list rule := map (map (swap "alice" "bob")) org_rules.
Definition deny_org2 (pe : policy_effect) : enforcer :=
  linked_boot (deny_model pe (map (map (swap "alice" "bob")) deny_ps) (map (map (swap "alice" "bob")) org_gs)).
Example C110_deny_case : one_to_one (swap "alice" "bob") /\ tidy plain_names 2 (fun r => In r deny_rules2) /\
  forall pe, renamed_in_order (swap "alice" "bob") (deny_org pe) (deny_org2 pe) /\ level_of (deny_org pe) = level_of (deny_org2 pe) /\
    managed mini plain_names 2 (fun r => In r deny_rules2) (deny_org2 pe) /\
    standard mini false f3 f4 (effect_text pe) rbac_matcher (deny_org2 pe) /\ declared (deny_org2 pe) "g" "g" /\ stored (deny_org pe) "p" "p" <> [].
Proof.
  split; [apply swap_one|]. split.
  { apply pair_tidy; [repeat constructor|]. intros r r' H H' P. unfold deny_rules2 in *. apply in_map_iff in H, H'.
    destruct H as [q [<- H]], H' as [q' [<- H']]. f_equal. apply (t_perm _ _ _ org_tidy); auto.
    apply Permutation_map_inv in P. destruct P as [l [E P]]. apply map_one_to_one in E; [|apply swap_one]. subst. symmetry. auto. }
  intros pe. split. { apply renamed_lists; [destruct pe; vm_compute; reflexivity|]. eapply one_g_renamed; [reflexivity|reflexivity|vm_compute; reflexivity]. }
  split; [destruct pe; vm_compute; reflexivity|]. split.
  { apply (managed_built mini plain_names 2 (fun r => In r deny_rules2)
      (boot (deny_model pe (map (map (swap "alice" "bob")) deny_ps) (map (map (swap "alice" "bob")) org_gs)))); try reflexivity.
    - eexists. split; reflexivity.
    - split.
      + repeat constructor; simpl; tauto.
      + intros pt a H. simpl in H. destruct (String.eqb pt "g") eqn:E; [|discriminate]. inversion H; subst. split; [reflexivity|].
        apply Forall_forall. intros r I. unfold deny_rules2, org_rules. simpl in I. cases_in I; simpl; tauto. }
  split.
  { constructor; try reflexivity; try discriminate.
    - split; [|exact I]. prove_declares.
    - intros r I. destruct pe; vm_compute in I; cases_in I; reflexivity. }
  split; [eexists; reflexivity|]. destruct pe; vm_compute; discriminate.
Qed.
Example C110_acl_case : exists e2, one_to_one (swap "alice" "bob") /\ renamed (swap "alice" "bob") acl e2 /\
  standard mini true f3 f3 (effect_text AllowOverride) basic_matcher e2 /\ roleless e2 /\
  snd (Enforce mini (reqs ["alice"; "data1"; "read"]) acl) = Ok true /\ snd (Enforce mini (reqs ["bob"; "data1"; "read"]) e2) = Ok true /\
  snd (Enforce mini (reqs ["alice"; "data1"; "read"]) e2) = Ok false.
Proof.
  exists (boot (basic_hash_model (map (map (swap "alice" "bob")) acl_rules))).
  split; [apply swap_one|]. split. { apply renamed_lists; [vm_compute; reflexivity|]. intros pt. reflexivity. }
  split. { constructor; try reflexivity; [apply basic_hash_ready|]. intros r I. vm_compute in I. cases_in I; reflexivity. }
  split. { intros f [a A]. unfold get_ast in A. simpl in A. discriminate. }
  repeat split; vm_compute; reflexivity.
Qed.

(** ** Names that do carry a meaning *)
(** Two colons join a domain and a name inside the library: after a renaming that introduces
    them bob gains, in domain d, what carol's role in domain e is worth. *)
Definition colons (s : string) : string :=
  swap "bob" "b::c" (swap "e" "a::b" (swap "carol" "c" (swap "boss" "b::admin" (swap "d" "a" s)))).
Theorem C110_colons_refuted : exists e1 e2, one_to_one colons /\ renamed_in_order colons e1 e2 /\ level_of e1 = level_of e2 /\
  standard mini false fd fd (effect_text AllowOverride) domain_text e1 /\ standard mini false fd fd (effect_text AllowOverride) domain_text e2 /\
  map colons ["bob"; "d"; "data"; "read"] = ["b::c"; "a"; "data"; "read"] /\
  snd (Enforce mini (reqs ["bob"; "d"; "data"; "read"]) e1) = Ok false /\ snd (Enforce mini (reqs ["b::c"; "a"; "data"; "read"]) e2) = Ok true.
Proof.
  exists (linked_boot (domain_model [["boss"; "d"; "data"; "read"]] [["carol"; "admin"; "e"]])),
    (linked_boot (domain_model [["b::admin"; "a"; "data"; "read"]] [["c"; "admin"; "a::b"]])).
  split. { unfold colons. intros x y E. repeat apply swap_one in E. exact E. }
  split. { apply renamed_lists; [vm_compute; reflexivity|]. eapply one_g_renamed; [reflexivity|reflexivity|vm_compute; reflexivity]. }
  split; [vm_compute; reflexivity|].
  split. { constructor; try reflexivity; try discriminate; [split; [|exact I]; prove_declares|]. intros r I. vm_compute in I. cases_in I; reflexivity. }
  split. { constructor; try reflexivity; try discriminate; [split; [|exact I]; prove_declares|]. intros r I. vm_compute in I. cases_in I; reflexivity. }
  repeat split; vm_compute; reflexivity.
Qed.
(** The empty name: without rules, a request of empty values is allowed and other requests are
    not. *)
Theorem C110_empty_name_refuted : exists e, one_to_one (swap "" "x") /\ renamed_in_order (swap "" "x") e e /\
  managed mini plain_names 2 (fun _ => False) e /\ standard_rbac mini e /\
  map (swap "" "x") [""; ""; ""] = ["x"; "x"; "x"] /\
  snd (Enforce mini (reqs [""; ""; ""]) e) = Ok true /\ snd (Enforce mini (reqs ["x"; "x"; "x"]) e) = Ok false.
Proof.
  exists (linked_boot (rbac_model [] [])). split; [apply swap_one|].
  split. { apply renamed_lists; [vm_compute; reflexivity|]. eapply one_g_renamed; [reflexivity|reflexivity|vm_compute; reflexivity]. }
  split. { eapply (pair_managed _ [] [] []); auto. }
  split. { constructor; try reflexivity; [split; [|exact I]; prove_declares| |eexists; reflexivity]. intros r I. vm_compute in I. cases_in I. }
  repeat split; vm_compute; reflexivity.
Qed.
(** Bytes after a NUL character are dropped when a rule is looked up. *)
Theorem C110_nul_refuted : exists e1 e2, one_to_one (swap "alice" nul_alice) /\ renamed_in_order (swap "alice" nul_alice) e1 e2 /\
  standard mini true f3 f3 (effect_text AllowOverride) basic_matcher e1 /\ standard mini true f3 f3 (effect_text AllowOverride) basic_matcher e2 /\
  roleless e1 /\ roleless e2 /\
  snd (Enforce mini (reqs ["alice"; "data1"; "read"]) e1) = Ok true /\ snd (Enforce mini (reqs [nul_alice; "data1"; "read"]) e2) = Ok false.
Proof.
  exists (boot (basic_hash_model [["alice"; "data1"; "read"]])), (boot (basic_hash_model [[nul_alice; "data1"; "read"]])).
  split; [apply swap_one|]. split. { apply renamed_lists; [vm_compute; reflexivity|]. intros pt. reflexivity. }
  split. { constructor; try reflexivity; [apply basic_hash_ready|]. intros r I. vm_compute in I. cases_in I; reflexivity. }
  split. { constructor; try reflexivity; [apply basic_hash_ready|]. intros r I. vm_compute in I. cases_in I; reflexivity. }
  split. { intros f [a A]. unfold get_ast in A. simpl in A. discriminate. }
  split. { intros f [a A]. unfold get_ast in A. simpl in A. discriminate. }
  repeat split; vm_compute; reflexivity.
Qed.
Print Assumptions C110_colons_refuted.
Print Assumptions C110_empty_name_refuted.
Print Assumptions C110_nul_refuted.
