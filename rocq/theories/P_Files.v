(** Proofs about enforcers made from files. *)
From Verif Require Import Base P_Base M_Util M_RoleManager M_Effector M_Model M_Persist M_Eval M_Evaluator M_Enforcer M_Matcher M_Config M_Load M_Init
  S_Effect S_Enforce S_Policy S_Persist S_History S_Roles S_Sync S_Rbac S_Standard S_Files
  P_Enforce P_Decide P_Store P_Api P_History P_Nodup P_Persist P_Roles P_Sync P_Ready P_Standard.

Lemma rules_for_In : forall rs pt r, In r (rules_for pt rs) <-> In (pt, r) rs.
Proof.
  intros rs pt r. unfold rules_for. rewrite in_map_iff. split.
  - intros [[k r'] [E I]]. apply filter_In in I. destruct I as [I Q]. simpl in *. apply String.eqb_eq in Q. subst. auto.
  - intros I. exists (pt, r). split; auto. apply filter_In. split; auto. simpl. apply String.eqb_refl.
Qed.
Lemma emplaced : forall l s, (is_hash s = false -> rules_of (fold_left emplace l s) = rules_of s ++ l) /\
  (forall x, In x (rules_of (fold_left emplace l s)) <-> In x (rules_of s) \/ In x l).
Proof.
  induction l as [|r l IH]; simpl; intros s.
  - split; [intros; rewrite app_nil_r; auto|intros; tauto].
  - destruct (IH (emplace s r)) as [A B]. split.
    + intros H. rewrite A; destruct s; try discriminate; simpl; auto. rewrite <- app_assoc. auto.
    + intros x. rewrite B. destruct s as [v|h]; simpl.
      * rewrite in_app_iff. simpl. tauto.
      * destruct (existsb (rule_eqb r) h) eqn:E; simpl; [|rewrite in_app_iff; simpl; tauto].
        apply existsb_exists in E. destruct E as [y [I Q]]. apply rule_eqb_true in Q. subst y. split; [tauto|]. intros [?|[->|?]]; auto.
Qed.

(** ** The names of the role definitions stay *)
Definition g_keys (m : model) : list string := map fst (sec_of m "g").
Lemma g_keys_touch : forall m s, g_keys (touch m s) = g_keys m.
Proof. intros. unfold g_keys. rewrite sec_touch. auto. Qed.
Lemma g_keys_clear : forall m, g_keys (ClearPolicy m) = g_keys m.
Proof.
  intros m. unfold ClearPolicy. set (m3 := touch (aset "p" _ _) "g"). unfold g_keys at 1. unfold sec_of at 1. rewrite aget_aset_same.
  unfold clear_sec. rewrite map_map. cbn [fst]. change (g_keys m3 = g_keys m). unfold m3. rewrite g_keys_touch. unfold g_keys, sec_of.
  rewrite aget_aset_other by discriminate. fold (sec_of (touch m "p") "g"). rewrite sec_touch. reflexivity.
Qed.
Lemma g_keys_rule : forall kr m, NoDup (g_keys m) -> NoDup (g_keys (fst (load_rule kr m))).
Proof.
  intros [k r] m N. unfold load_rule. cbn [fst snd]. rewrite get_touch. destruct (get_ast m (stake 1 k) k) as [a| |]; cbn [fst]; try (rewrite g_keys_touch; auto).
  unfold g_keys, put_policy, put_ast, sec_of. rewrite aget_aset. destruct (String.eqb_spec "g" (stake 1 k)) as [E|E].
  - apply NoDup_keys_aset. rewrite <- E. fold (sec_of (touch m "g") "g"). rewrite sec_touch. exact N.
  - fold (sec_of (touch m (stake 1 k)) "g"). rewrite sec_touch. exact N.
Qed.
Lemma g_keys_rules : forall rs m, NoDup (g_keys m) -> NoDup (g_keys (fst (load_rules rs m))).
Proof.
  induction rs as [|kr rs IH]; intros m N; auto. simpl. pose proof (g_keys_rule kr m N) as H. destruct (load_rule kr m) as [m1 [x|x|x]]; auto.
Qed.

Lemma adapter_load_calm : forall e, calm_adapter (e_adapter e) -> calm_adapter (e_adapter (fst (adapter_load e))).
Proof.
  intros e. unfold adapter_load. destruct (e_adapter e) as [[b p|l|p fd|u]|] eqn:A; intros C.
  - destruct (FileAdapter_LoadPolicy (e_fs e) p (e_model e)). simpl. rewrite A. auto.
  - destruct (StringAdapter_LoadPolicy l (e_model e)). simpl. rewrite A. auto.
  - destruct (Filtered_LoadPolicy (e_fs e) p (e_model e)) as [[fd' m] out']. simpl. auto.
  - destruct (ua_load u (ua_log u)) as [lines ex]. destruct (load_lines lines (e_model e)) as [m [y|y|y]]; simpl; rewrite ?A; auto.
  - simpl. rewrite A. auto.
Qed.

(** ** Loading, before the links are built *)
Lemma load_before : forall e rs, offers e rs -> Forall (known e) rs -> exists e2,
  LoadPolicy e = rebuild_if_auto e2 /\ only_model e e2 /\ (calm_adapter (e_adapter e) -> calm_adapter (e_adapter e2)) /\ (NoDup (g_keys (e_model e)) -> NoDup (g_keys (e_model e2))) /\
  forall sec pt, get_ast (e_model e2) sec pt = filled sec pt rs (get_ast (ClearPolicy (e_model e)) sec pt).
Proof.
  intros e rs O K. set (e1 := set_model (ClearPolicy (e_model e)) e).
  assert (K1 : Forall (m_known (e_model e1)) rs).
  { eapply Forall_impl; [|exact K]. intros kr [a A]. unfold m_known, e1. cbn [set_model e_model]. rewrite clear_get, A. cbn [bind]. eauto. }
  destruct (load_rules_known rs (e_model e1) K1) as [m2 [E2 G2]].
  assert (O1 : offers e1 rs) by exact O. pose proof (adapter_load_offers e1 rs O1) as L. rewrite E2 in L.
  assert (LP : LoadPolicy e = (adapter_load ;;; rebuild_if_auto) e1) by reflexivity.
  pose proof (adapter_load_calm e1) as CA.
  unfold mbind in LP. destruct (adapter_load e1) as [e2 out]. destruct L as [M2 [-> OM]]. exists e2. split; auto. split; [exact OM|]. split; [exact CA|]. split.
  - intros N. rewrite M2. replace m2 with (fst (load_rules rs (e_model e1))) by (rewrite E2; auto). apply g_keys_rules.
    unfold e1. cbn [set_model e_model]. rewrite g_keys_clear. auto.
  - intros. rewrite M2, G2. auto.
Qed.

(** ** Loading a policy that fits *)
Definition same_rest (e e' : enforcer) : Prop :=
  e_rm e' = e_rm e /\ e_ev e' = e_ev e /\ e_enabled e' = e_enabled e /\ e_fs e' = e_fs e.
Lemma rest_rebuild : forall e, same_rest e (fst (rebuild_if_auto e)).
Proof.
  intros e. apply (parts_rebuild_if same_rest); intros; unfold same_rest in *; simpl; intuition congruence.
Qed.

Lemma load_step : forall o names n rules hashed rf pf eft mat e rs, oracle_ext o -> tidy names n rules ->
  plain_rm e -> e_auto_build e = true -> calm_adapter (e_adapter e) -> e_enabled e = true ->
  suits hashed n rf pf eft mat (e_model e) ->
  match e_ev e with None => True | Some ev => wired e /\ S_Enforce.fits o (e_model e) rf pf ev end ->
  offers e rs -> fits_model (e_model e) (List.length pf) rules rs ->
  exists e', LoadPolicy e = (e', Ok tt) /\ managed o names n rules e' /\ standard o hashed rf pf eft mat e' /\
    same_shape e e' /\ p_indexed (e_model e') = p_indexed (e_model e) /\
    (p_indexed (e_model e) = false -> stored e' "p" "p" = rules_for "p" rs) /\
    (forall sec pt r, sec = "p" \/ sec = "g" -> section_of pt = sec -> (In r (stored e' sec pt) <-> In (pt, r) rs)) /\
    (forall l, assigned e' l <-> listed_links rs l) /\ level_of e' = level_of e.
Proof.
  intros o names n rules hashed rf pf eft mat e rs X T PR B C EN [SD SS ST SP] EV O FM.
  assert (K : Forall (known e) rs).
  { apply Forall_forall. intros [pt r] I. destruct (FM pt r I) as [[a A] _]. exists a. auto. }
  destruct (load_before e rs O K) as [e2 [LP [[H1 [H2 [_ [H3 [H4 [H5 [_ [H6 _]]]]]]]] [CA [ND G]]]]].
  assert (G' : forall sec pt, get_ast (e_model e2) sec pt = filled sec pt rs (let! a := get_ast (e_model e) sec pt in
    Ok (if String.eqb sec "p" || String.eqb sec "g" then with_policy a (store_clear (a_policy a)) else a))).
  { intros. rewrite G, clear_get. auto. }
  clear G.
  assert (SIN : forall sec pt r, sec = "p" \/ sec = "g" -> section_of pt = sec -> In r (stored e2 sec pt) -> In (pt, r) rs).
  { intros sec pt r SEC SO I. unfold stored, rules_in in I. rewrite G' in I. destruct (get_ast (e_model e) sec pt) as [a| |]; [|destruct I|destruct I].
    unfold filled in I. cbn [bind] in I. rewrite SO, String.eqb_refl in I.
    assert (Q : String.eqb sec "p" || String.eqb sec "g" = true) by (destruct SEC; subst; reflexivity). rewrite Q in I.
    cbn [with_policy a_policy] in I. apply emplaced in I. destruct I as [I|I]; [|apply rules_for_In; auto].
    destruct (a_policy a); destruct I. }
  assert (SG : forall pt r, section_of pt <> "g" -> ~ In r (stored e2 "g" pt)).
  { intros pt r SO I. unfold stored, rules_in in I. rewrite G' in I. destruct (get_ast (e_model e) "g" pt) as [a| |]; [|destruct I|destruct I].
    unfold filled in I. cbn [bind] in I. destruct (String.eqb_spec (section_of pt) "g"); [congruence|]. cbn [orb String.eqb] in I. simpl in I. destruct (a_policy a); destruct I. }
  assert (SOUT : forall sec pt r, sec = "p" \/ sec = "g" -> section_of pt = sec -> In (pt, r) rs -> In r (stored e2 sec pt)).
  { intros sec pt r SEC SO I. destruct (FM pt r I) as [[a A] _]. rewrite SO in A. unfold stored, rules_in. rewrite G', A. unfold filled. cbn [bind].
    rewrite SO, String.eqb_refl. cbn [with_policy a_policy]. apply emplaced. right. apply rules_for_In. auto. }
  assert (GO : grouping_ok n rules e2).
  { split; [apply ND; exact ST|]. intros pt a A. assert (GA : get_ast (e_model e2) "g" pt = Ok a) by (unfold get_ast; rewrite A; auto).
    pose proof GA as GB. rewrite G' in GB. destruct (get_ast (e_model e) "g" pt) as [a0| |] eqn:G0; try discriminate.
    assert (A0 : aget pt (sec_of (e_model e) "g") = Some a0) by (unfold get_ast in G0; destruct (aget pt (sec_of (e_model e) "g")); inversion G0; auto).
    split.
    - unfold filled in GB. cbn [bind orb String.eqb] in GB. injection GB as <-. rewrite <- (SP _ _ A0).
      destruct (String.eqb (section_of pt) "g"); reflexivity.
    - apply Forall_forall. intros r I. assert (I' : In r (stored e2 "g" pt)) by (unfold stored, rules_in; rewrite GA; auto).
      destruct (string_dec (section_of pt) "g") as [SO|SO]; [|elim (SG _ _ SO I')].
      apply (FM pt r); auto; eapply SIN; eauto. }
  destruct PR as [r0 [R1 R2]].
  destruct (rebuild_any names n rules T e2 r0) as [e' [E' [MI SE]]]; auto; try congruence.
  assert (LP' : LoadPolicy e = (e', Ok tt)). { rewrite LP. unfold rebuild_if_auto. rewrite H6, B. auto. }
  assert (RB : rebuild_if_auto e2 = (e', Ok tt)) by congruence.
  assert (Q : same_asts e2 e') by (pose proof (quiet_rebuild_if e2) as Q; rewrite RB in Q; exact Q).
  assert (RE : same_rest e2 e') by (pose proof (rest_rebuild e2) as Q1; rewrite RB in Q1; exact Q1).
  destruct RE as [RE1 [RE2 [RE3 RE4]]].
  assert (M' : managed o names n rules e').
  { eapply managed_loaded; eauto. exists r0. auto. apply MI. }
  assert (SH : same_shape e e').
  { apply (same_shape_trans e e2 e'); [|apply asts_shape; auto]. intros sec pt. rewrite G'. destruct (get_ast (e_model e) sec pt) as [a| |]; try reflexivity.
    unfold filled, outline. cbn [bind]. destruct (String.eqb sec "p" || String.eqb sec "g"), (String.eqb (section_of pt) sec); reflexivity. }
  assert (PI : p_indexed (e_model e') = p_indexed (e_model e)).
  { destruct (load_policy_spec e rs O K) as [_ [_ [_ [_ HK]]]]. specialize (HK "p" "p"). rewrite LP' in HK. cbn [fst] in HK. unfold kind_of in HK.
    unfold p_indexed. specialize (SH "p" "p"). unfold outline in SH.
    destruct (get_ast (e_model e') "p" "p") as [a| |], (get_ast (e_model e) "p" "p") as [b| |]; try discriminate SH; auto. }
  assert (SIFF : forall sec pt r, sec = "p" \/ sec = "g" -> section_of pt = sec -> (In r (stored e' sec pt) <-> In (pt, r) rs)).
  { intros sec pt r SEC SO. rewrite (same_asts_stored _ _ _ _ Q). split; eauto. }
  exists e'. split; [exact LP'|]. split; [exact M'|]. split.
  { assert (W' : wired e') by apply MI. constructor.
    - split; [eapply shape_declares; eauto|]. rewrite RE2, H4. destruct (e_ev e) as [ev|]; auto. destruct EV as [W F].
      eapply shape_fits; eauto. congruence.
    - rewrite PI. auto.
    - intros r I. apply (SIFF "p" "p") in I; auto. apply (FM "p" r); auto.
    - congruence. }
  split; [exact SH|]. split; [exact PI|]. split.
  { intros PF. destruct (load_policy_spec e rs O K) as [HP _]. specialize (HP "p"). rewrite LP' in HP. cbn [fst] in HP. rewrite HP.
    destruct (d_p _ _ _ _ _ SD) as [a [A _]]. rewrite A. cbn [section_of String.eqb]. unfold p_indexed in PF. rewrite A in PF.
    replace (String.eqb "p" "p") with true by reflexivity. destruct (emplaced (rules_for "p" rs) (store_clear (a_policy a))) as [EM _].
    destruct (a_policy a); try discriminate. rewrite EM; reflexivity. }
  split; [exact SIFF|]. split.
  { intros l. unfold assigned, listed_links. split.
    - intros [pt [r [I L]]]. rewrite (same_asts_stored _ _ _ _ Q) in I. destruct (string_dec (section_of pt) "g") as [SO|SO]; [|elim (SG _ _ SO I)].
      exists pt, r. split; auto. eapply SIN; eauto.
    - intros [pt [r [I [SO L]]]]. exists pt, r. split; auto. apply SIFF; auto. }
  unfold level_of. destruct MI as [[r' [Hr [_ ML]]] _ _ _ _]. rewrite Hr, ML, R1. auto.
Qed.
