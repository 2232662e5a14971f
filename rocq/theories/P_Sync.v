(** Role links follow the grouping policy. *)
From Coq Require Import Permutation.
From Verif Require Import Base P_Base M_Util M_RoleManager M_Model M_Persist M_Evaluator M_Enforcer S_Policy S_History S_Roles S_Sync
  P_Decide P_Store P_Api P_History P_Nodup P_Group P_Roles.

Lemma hget_hset : forall h i r r0, hget h i = Ok r0 -> hget (hset h i r) i = Ok r.
Proof.
  unfold hget. induction h as [|x h IH]; intros [|i] r r0 H; simpl in *; try discriminate; auto.
  destruct (nth_error h i) eqn:E; try discriminate. specialize (IH i r r1). rewrite E in IH. auto.
Qed.
Lemma hset_same : forall h i r, hget h i = Ok r -> hset h i r = h.
Proof.
  unfold hget. induction h as [|x h IH]; intros [|i] r H; simpl in *; try discriminate; auto.
  - inversion H. auto.
  - f_equal. apply IH. destruct (nth_error h i); inversion H; auto.
Qed.
Lemma set_heap_id : forall e, set_heap (e_heap e) e = e.
Proof. intros []. reflexivity. Qed.

(** GetRoles is a read when there is no matching function. *)
Lemma GetRoles_pure : forall r n d, matching r = None -> fst (GetRoles r n d) = r.
Proof.
  intros r n d P. unfold GetRoles. destruct (Nat.ltb 1 (List.length d)); auto.
  unfold HasRole. rewrite P. destruct (ahas (prefixed d n) (all_roles r)) eqn:K; simpl; auto.
  unfold CreateRole. rewrite P. rewrite ainsert_has by auto. destruct r; simpl in *; subst; auto.
Qed.
Lemma rm_GetRoles_pure : forall i n d e r, hget (e_heap e) i = Ok r -> matching r = None ->
  rm_GetRoles i n d e = (e, snd (GetRoles r n d)).
Proof.
  intros i n d e r H P. unfold rm_GetRoles. rewrite H. pose proof (GetRoles_pure r n d P) as F.
  destruct (GetRoles r n d) as [r' out]. simpl in *. subst r'. rewrite hset_same, set_heap_id; auto.
Qed.

Section Links.
  Variable names : node -> Prop.
  Variable n : nat.
  Variable rules : rule -> Prop.
  Hypothesis T : tidy names n rules.
  Let inj := t_names _ _ _ T.

  Definition links_of (rs : list rule) (l : link) : Prop := exists r, In r rs /\ link_of r = Some l.

  Lemma link_of_args : forall r d a b, link_of r = Some (d, a, b) -> r = a :: b :: dom_arg d.
  Proof.
    intros [|x [|y [|z [|w r]]]] d a b H; simpl in H; inversion H; subst; reflexivity.
  Qed.
  Lemma link_rule_args : forall op r ru d a b, rules ru -> link_of ru = Some (d, a, b) ->
    link_rule op n r ru = match op with policy_add => AddLink r a b (dom_arg d) | policy_remove => DeleteLink r a b (dom_arg d) end.
  Proof.
    intros op r ru d a b R L. destruct (t_rule _ _ _ T _ R) as [Hn _]. unfold link_rule.
    rewrite Hn, Nat.ltb_irrefl, <- Hn, firstn_all. rewrite (link_of_args _ _ _ _ L). reflexivity.
  Qed.

  Lemma add_links : forall rs r L, represents names r L -> Forall rules rs ->
    exists r', link_rules policy_add n r rs = (r', Ok tt) /\ max_level r' = max_level r /\
               represents names r' (fun l => L l \/ links_of rs l).
  Proof.
    induction rs as [|ru rs IH]; intros r L P F; simpl.
    - exists r. split; auto. split; auto. eapply rep_ext; eauto. intros l. split; auto. intros [H|[x [[] _]]]; auto.
    - inversion F; subst. destruct (t_rule _ _ _ T _ H1) as [_ [d [a [b [E [Na Nb]]]]]].
      rewrite (link_rule_args policy_add r ru d a b H1 E).
      destruct (rep_add names inj r L d a b P Na Nb) as [P' O].
      assert (ML : max_level (fst (AddLink r a b (dom_arg d))) = max_level r) by (apply (rrun_level r (RAdd d a b))).
      destruct (AddLink r a b (dom_arg d)) as [r1 out]. simpl in *. subst out.
      destruct (IH r1 _ P' H2) as [r' [E' [M' P'']]]. exists r'. rewrite E'. split; auto. split; [congruence|].
      eapply rep_ext; eauto. intros l. split.
      + intros [[->|H]|[x [I H]]]; auto; right; [exists ru|exists x]; simpl; auto.
      + intros [H|[x [[<-|I] H]]]; auto; [|right; exists x; auto]. left. left. congruence.
  Qed.

  (** Names of a rule known to the role manager. *)
  Definition knows (r : role_manager) (ru : rule) : Prop :=
    forall d a b, link_of ru = Some (d, a, b) ->
      ahas (spell (d, a)) (all_roles r) = true /\ ahas (spell (d, b)) (all_roles r) = true.
  Lemma delete_keeps_keys : forall r a b d k, matching r = None -> ahas k (all_roles r) = true ->
    ahas k (all_roles (fst (DeleteLink r a b d))) = true.
  Proof.
    intros r a b d k P H. unfold DeleteLink. destruct (Nat.ltb 1 (List.length d)); auto. destruct (_ || _); auto. simpl.
    rewrite ahas_aset, !create_mono_f by (auto using create_mono_f). apply orb_true_r.
  Qed.
  Lemma remove_links : forall rs r L, represents names r L -> Forall rules rs -> Forall (knows r) rs ->
    exists r', link_rules policy_remove n r rs = (r', Ok tt) /\ max_level r' = max_level r /\
               represents names r' (fun l => L l /\ ~ links_of rs l).
  Proof.
    induction rs as [|ru rs IH]; intros r L P F K; simpl.
    - exists r. split; auto. split; auto. eapply rep_ext; eauto. intros l. split; [|tauto]. intros H. split; auto. intros [x [[] _]].
    - inversion F; subst. inversion K; subst. destruct (t_rule _ _ _ T _ H1) as [_ [d [a [b [E [Na Nb]]]]]].
      rewrite (link_rule_args policy_remove r ru d a b H1 E).
      destruct (rep_delete names inj r L d a b P Na Nb) as [P' O].
      assert (ML : max_level (fst (DeleteLink r a b (dom_arg d))) = max_level r) by (apply (rrun_level r (RDel d a b))).
      assert (KK : Forall (knows (fst (DeleteLink r a b (dom_arg d)))) rs).
      { rewrite Forall_forall in *. intros x I d' a' b' X. destruct (H4 x I d' a' b' X).
        split; apply delete_keeps_keys; auto; apply P. }
      assert (O' : snd (DeleteLink r a b (dom_arg d)) = Ok tt).
      { destruct (H3 d a b E) as [A B]. unfold DeleteLink. rewrite dom_short, !prefixed_spell, !(known_HasRole names r L _ P), A, B. reflexivity. }
      destruct (DeleteLink r a b (dom_arg d)) as [r1 out]. simpl in *. subst out.
      destruct (IH r1 _ P' H2 KK) as [r' [E' [M' P'']]]. exists r'. rewrite E'. split; auto. split; [congruence|].
      eapply rep_ext; eauto. intros l. split.
      + intros [[HL N] NL]. split; auto. intros [x [[<-|I] X]]; [congruence|]. apply NL. exists x. auto.
      + intros [HL N]. split; [split; auto|]; intro Y; apply N; [exists ru; subst; simpl; auto|]. destruct Y as [x [I X]]. exists x. simpl. auto.
  Qed.

  Lemma ast_links_n : forall op value r rs, scount "_" value = n -> ast_links op value r rs = link_rules op n r rs.
  Proof.
    intros op value r rs H. unfold ast_links. rewrite H. pose proof (t_size _ _ _ T). destruct (Nat.ltb_spec n 2); auto. lia.
  Qed.

  (** Links of an association list of grouping definitions. *)
  Definition links_in (am : assertion_map) (l : link) : Prop :=
    exists k a, In (k, a) am /\ links_of (rules_of (a_policy a)) l.

  Lemma build_asts_ok : forall todo h rm r L, hget h rm = Ok r -> represents names r L ->
    (forall k a, In (k, a) todo -> scount "_" (a_value a) = n /\ Forall rules (rules_of (a_policy a))) ->
    exists h' r', build_asts h rm todo = (map (fun kv => (fst kv, with_rm (snd kv) (Some rm))) todo, h', Ok tt) /\
      hget h' rm = Ok r' /\ max_level r' = max_level r /\ represents names r' (fun l => L l \/ links_in todo l).
  Proof.
    induction todo as [|[k a] rest IH]; intros h rm r L H P W; simpl.
    - exists h, r. split; auto. split; auto. split; auto. eapply rep_ext; eauto. intros l. split; auto. intros [|[k [a [[] _]]]]; auto.
    - rewrite H. destruct (W k a (or_introl eq_refl)) as [W1 W2]. rewrite ast_links_n by auto.
      destruct (add_links _ _ _ P W2) as [r1 [E1 [M1 P1]]]. rewrite E1.
      destruct (IH (hset h rm r1) rm r1 _ (hget_hset _ _ _ _ H) P1) as [h' [r' [E' [H' [M' P']]]]].
      { intros k0 a0 I. apply (W k0 a0). simpl. auto. }
      rewrite E'. exists h', r'. split; auto. split; auto. split; [congruence|]. eapply rep_ext; eauto.
      intros l. split.
      + intros [[X|X]|[k0 [a0 [I X]]]]; auto; right; [exists k, a|exists k0, a0]; simpl; auto.
      + intros [X|[k0 [a0 [[I|I] X]]]]; auto; [inversion I; subst; auto|]. right. exists k0, a0. auto.
  Qed.

  (** ** The state of an enforcer *)
  Definition asts (e : enforcer) : assertion_map := sec_of (e_model e) "g".
  Definition wired (e : enforcer) : Prop := forall pt a, aget pt (asts e) = Some a -> a_rm a = Some (e_rm e).
  (** The role manager has exactly the links [L]; the grouping rules are in order. *)
  Record linked_by (lvl : nat) (L : link -> Prop) (e : enforcer) : Prop := mkLinked {
    lb_rm : exists r, hget (e_heap e) (e_rm e) = Ok r /\ represents names r L /\ max_level r = lvl;
    lb_ok : grouping_ok n rules e;
    lb_wired : wired e;
    lb_build : e_auto_build e = true;
    lb_calm : calm_adapter (e_adapter e) }.
  Definition mirror (lvl : nat) (e : enforcer) : Prop := linked_by lvl (assigned e) e.

  Lemma linked_ext : forall lvl L L' e, linked_by lvl L e -> (forall l, L l <-> L' l) -> linked_by lvl L' e.
  Proof.
    intros lvl L L' e [[r [H1 [H2 H3]]]] E. constructor; auto. exists r. split; auto. split; auto. eapply rep_ext; eauto.
  Qed.

  Lemma stored_asts_g : forall e pt, stored e "g" pt = match aget pt (asts e) with Some a => rules_of (a_policy a) | None => [] end.
  Proof. intros. unfold stored, rules_in, get_ast, asts. destruct (aget pt (sec_of (e_model e) "g")); auto. Qed.
  Lemma assigned_asts : forall e l, NoDup (map fst (asts e)) -> (assigned e l <-> links_in (asts e) l).
  Proof.
    intros e l ND. unfold assigned, links_in, links_of. split.
    - intros [pt [r [I E]]]. rewrite stored_asts_g in I. destruct (aget pt (asts e)) as [a|] eqn:A; [|destruct I].
      exists pt, a. split; [apply aget_In; auto|]. eauto.
    - intros [k [a [I [r [J E]]]]]. exists k, r. split; auto. rewrite stored_asts_g, (In_aget k a) by auto. auto.
  Qed.
  Lemma assigned_stored : forall e e', (forall pt, stored e' "g" pt = stored e "g" pt) -> forall l, assigned e l <-> assigned e' l.
  Proof. intros e e' H l. unfold assigned. split; intros [pt [r [I E]]]; exists pt, r; [rewrite H|rewrite <- H]; auto. Qed.

  (** What leaves the links and the grouping rules alone. *)
  Record frame (e e' : enforcer) : Prop := mkFrame {
    fr_heap : hget (e_heap e') (e_rm e') = hget (e_heap e) (e_rm e);
    fr_rm : e_rm e' = e_rm e;
    fr_asts : asts e' = asts e;
    fr_build : e_auto_build e' = e_auto_build e;
    fr_calm : calm_adapter (e_adapter e) -> calm_adapter (e_adapter e') }.
  Lemma frame_refl : forall e, frame e e.
  Proof. intros. constructor; auto. Qed.
  Lemma frame_trans : forall a b c, frame a b -> frame b c -> frame a c.
  Proof. intros a b c [] []. constructor; auto; congruence. Qed.
  Lemma frame_linked : forall lvl L e e', frame e e' -> linked_by lvl L e -> linked_by lvl L e'.
  Proof.
    intros lvl L e e' [F1 FR F2 F3 F4] [[r [H1 [H2 H3]]] [O1 O2] W B C]. constructor; auto; try congruence.
    - exists r. rewrite F1. auto.
    - unfold asts in *. split; rewrite F2; auto.
    - unfold wired. rewrite F2, FR. auto.
  Qed.
  Lemma frame_assigned : forall e e', frame e e' -> forall l, assigned e l <-> assigned e' l.
  Proof. intros e e' [_ _ F _ _]. apply assigned_stored. intros pt. rewrite !stored_asts_g, F. auto. Qed.
  Lemma frame_mirror : forall lvl e e', frame e e' -> mirror lvl e -> mirror lvl e'.
  Proof.
    intros lvl e e' F M. unfold mirror in *. eapply linked_ext; [eapply frame_linked; eauto|]. apply frame_assigned. auto.
  Qed.

  (** Rebuilding puts everything in order. *)
  Lemma rebuild_any : forall e r, hget (e_heap e) (e_rm e) = Ok r -> matching r = None -> grouping_ok n rules e ->
    e_auto_build e = true -> calm_adapter (e_adapter e) ->
    exists e', e_BuildRoleLinks e = (e', Ok tt) /\ mirror (max_level r) e' /\ (forall pt, stored e' "g" pt = stored e "g" pt).
  Proof.
    intros e r H1 H2 [O1 O2] B C. unfold e_BuildRoleLinks. rewrite H1. unfold BuildRoleLinks.
    assert (TT : sec_of (touch (e_model e) "g") "g" = asts e).
    { unfold asts, sec_of, touch. rewrite aget_ainsert. simpl. destruct (aget "g" (e_model e)); auto. }
    rewrite TT.
    assert (RC : represents names (Clear r) (fun _ => False)).
    { unfold Clear, with_roles. rewrite H2. apply rep_empty. }
    destruct (build_asts_ok (asts e) (hset (e_heap e) (e_rm e) (Clear r)) (e_rm e) (Clear r) (fun _ => False)
                (hget_hset _ _ _ _ H1) RC) as [h' [r' [E' [H' [M' P']]]]].
    { intros k a I. apply (O2 k). apply In_aget; auto. }
    rewrite E'. eexists. split; [reflexivity|].
    assert (A1 : forall e', e_model e' = aset "g" (map (fun kv => (fst kv, with_rm (snd kv) (Some (e_rm e)))) (asts e)) (touch (e_model e) "g") ->
                 asts e' = map (fun kv => (fst kv, with_rm (snd kv) (Some (e_rm e)))) (asts e)).
    { intros e' X. unfold asts at 1. rewrite X. unfold sec_of. rewrite aget_aset_same. auto. }
    set (e' := set_heap h' (set_model (aset "g" (map (fun kv => (fst kv, with_rm (snd kv) (Some (e_rm e)))) (asts e)) (touch (e_model e) "g")) e)).
    specialize (A1 e' eq_refl).
    assert (G1 : forall pt, aget pt (asts e') = option_map (fun a => with_rm a (Some (e_rm e))) (aget pt (asts e))).
    { intros pt. rewrite A1. generalize (asts e). induction a as [|[k a] am IH]; simpl; auto. destruct (String.eqb pt k); auto. }
    assert (ST : forall pt, stored e' "g" pt = stored e "g" pt).
    { intros pt. rewrite !stored_asts_g, G1. destruct (aget pt (asts e)); auto. }
    assert (ND : NoDup (map fst (asts e'))).
    { rewrite A1, map_map. simpl. auto. }
    split; [|exact ST].
    constructor; auto.
    - exists r'. split; [exact H'|]. split; [|rewrite M'; reflexivity]. eapply rep_ext; [exact P'|].
        intros l. transitivity (links_in (asts e) l); [tauto|]. rewrite <- assigned_asts by auto. exact (assigned_stored e e' ST l).
    - split; [exact ND|]. intros pt a X. fold (asts e') in X. rewrite G1 in X. destruct (aget pt (asts e)) as [a0|] eqn:Y; simpl in X; inversion X; subst.
        simpl. apply (O2 pt). auto.
    - intros pt a X. fold e' in X. rewrite G1 in X. destruct (aget pt (asts e)) as [a0|] eqn:Y; simpl in X; inversion X; subst. reflexivity.
  Qed.
  Lemma rebuild_mirror : forall lvl L e, linked_by lvl L e ->
    exists e', e_BuildRoleLinks e = (e', Ok tt) /\ mirror lvl e' /\ (forall pt, stored e' "g" pt = stored e "g" pt).
  Proof.
    intros lvl L e [[r [H1 [H2 H3]]] O W B C]. subst lvl. apply rebuild_any; auto. apply H2.
  Qed.

  (** Incremental changes. *)
  Lemma asts_put : forall e pt a e', e_model e' = put_ast (e_model e) "g" pt a -> asts e' = aset pt a (asts e).
  Proof. intros e pt a e' H. unfold asts at 1. rewrite H. unfold put_ast. unfold sec_of at 1. rewrite aget_aset_same. auto. Qed.
  Lemma ok_put : forall e pt a e', e_model e' = put_ast (e_model e) "g" pt a -> grouping_ok n rules e ->
    scount "_" (a_value a) = n -> Forall rules (rules_of (a_policy a)) -> grouping_ok n rules e'.
  Proof.
    intros e pt a e' E [O1 O2] H1 H2. apply asts_put in E. unfold asts in E. split; rewrite E.
    - apply NoDup_keys_aset. auto.
    - intros q b. rewrite aget_aset. destruct (String.eqb_spec q pt); [|apply O2]. intros X. inversion X; subst. auto.
  Qed.
  Lemma stored_put_g : forall e pt a e', e_model e' = put_ast (e_model e) "g" pt a ->
    forall q, stored e' "g" q = if String.eqb q pt then rules_of (a_policy a) else stored e "g" q.
  Proof.
    intros e pt a e' E q. rewrite !stored_asts_g, (asts_put _ _ _ _ E), aget_aset. destruct (String.eqb q pt); auto.
  Qed.
  Lemma get_asts : forall e pt a, get_ast (e_model e) "g" pt = Ok a -> aget pt (asts e) = Some a.
  Proof. intros e pt a. unfold get_ast, asts. destruct (aget pt (sec_of (e_model e) "g")); intros X; inversion X; auto. Qed.

  Lemma incremental : forall op lvl L e pt rs r a,
    linked_by lvl L e -> hget (e_heap e) (e_rm e) = Ok r -> get_ast (e_model e) "g" pt = Ok a -> Forall rules rs ->
    forall r' L', link_rules op n r rs = (r', Ok tt) -> represents names r' L' -> max_level r' = lvl ->
    exists e', e_BuildIncrementalRoleLinks op pt rs e = (e', Ok tt) /\ linked_by lvl L' e' /\
               (forall q, stored e' "g" q = stored e "g" q) /\ declared e' "g" pt.
  Proof.
    intros op lvl L e pt rs r a [RM OK W B C] H G F r' L' LR P ML. unfold e_BuildIncrementalRoleLinks, BuildIncrementalRoleLinks.
    simpl. rewrite G, H. destruct (proj2 OK pt a (get_asts _ _ _ G)) as [W1 W2]. rewrite ast_links_n by auto. rewrite LR.
    set (m' := put_ast (e_model e) "g" pt (with_rm a (Some (e_rm e)))).
    exists (set_heap (hset (e_heap e) (e_rm e) r') (set_model m' e)). split; [reflexivity|]. split; [constructor; auto|].
    - exists r'. simpl. split; auto. eapply hget_hset; eauto.
    - eapply ok_put with (pt := pt) (a := with_rm a (Some (e_rm e))); [reflexivity|auto|auto|auto].
    - unfold wired. rewrite (asts_put e pt (with_rm a (Some (e_rm e)))) by reflexivity. intros q b. rewrite aget_aset.
      destruct (String.eqb q pt); [|apply W]. intros X. inversion X. reflexivity.
    - split; [|exists (with_rm a (Some (e_rm e))); simpl; unfold m'; apply get_put_ast_same].
      intros q. rewrite (stored_put_g e pt (with_rm a (Some (e_rm e)))) by reflexivity.
      destruct (String.eqb_spec q pt); auto. subst. simpl. unfold stored, rules_in. rewrite G. auto.
  Qed.
  Lemma incremental_add : forall lvl L e pt rs, linked_by lvl L e -> declared e "g" pt -> Forall rules rs ->
    exists e', e_BuildIncrementalRoleLinks policy_add pt rs e = (e', Ok tt) /\ linked_by lvl (fun l => L l \/ links_of rs l) e' /\
               (forall q, stored e' "g" q = stored e "g" q) /\ declared e' "g" pt.
  Proof.
    intros lvl L e pt rs LB [a G] F. destruct (lb_rm _ _ _ LB) as [r [H [P ML]]].
    destruct (add_links rs r L P F) as [r' [LR [ML' P']]]. eapply incremental; eauto. congruence.
  Qed.
  Lemma incremental_remove : forall lvl L e pt rs, linked_by lvl L e -> declared e "g" pt -> Forall rules rs ->
    (forall r l, In r rs -> link_of r = Some l -> L l) ->
    exists e', e_BuildIncrementalRoleLinks policy_remove pt rs e = (e', Ok tt) /\ linked_by lvl (fun l => L l /\ ~ links_of rs l) e' /\
               (forall q, stored e' "g" q = stored e "g" q) /\ declared e' "g" pt.
  Proof.
    intros lvl L e pt rs LB [a G] F K. destruct (lb_rm _ _ _ LB) as [r [H [P ML]]].
    destruct (remove_links rs r L P F) as [r' [LR [ML' P']]].
    { rewrite Forall_forall. intros x I d u v E. apply (rep_known _ _ _ P). eapply K; eauto. }
    eapply incremental; eauto. congruence.
  Qed.
  Lemma incremental_undeclared : forall op e pt rs, ~ declared e "g" pt ->
    exists u, e_BuildIncrementalRoleLinks op pt rs e = (e, UB u).
  Proof.
    intros op e pt rs N. unfold e_BuildIncrementalRoleLinks, BuildIncrementalRoleLinks. simpl.
    destruct (get_ast (e_model e) "g" pt) as [a|x|u] eqn:G.
    - destruct N. exists a. auto.
    - exfalso. unfold get_ast in G. destruct (aget pt (sec_of (e_model e) "g")); discriminate.
    - exists u. rewrite set_model_id, set_heap_id. auto.
  Qed.
  Lemma declared_dec : forall e pt, declared e "g" pt \/ ~ declared e "g" pt.
  Proof.
    intros. unfold declared. destruct (get_ast (e_model e) "g" pt) as [a| |]; [left; eauto|right|right]; intros [x X]; discriminate.
  Qed.

  (** Changing the rules of one grouping type. *)
  Lemma edit_linked : forall lvl L e pt a p, linked_by lvl L e -> get_ast (e_model e) "g" pt = Ok a -> Forall rules (rules_of p) ->
    linked_by lvl L (set_model (put_policy (e_model e) "g" pt a p) e) /\
    (forall q, stored (set_model (put_policy (e_model e) "g" pt a p) e) "g" q = if String.eqb q pt then rules_of p else stored e "g" q) /\
    declared (set_model (put_policy (e_model e) "g" pt a p) e) "g" pt.
  Proof.
    intros lvl L e pt a p [RM OK W B C] G F. destruct (proj2 OK pt a (get_asts _ _ _ G)) as [W1 W2].
    split; [constructor; auto|split].
    - eapply ok_put with (pt := pt) (a := with_policy a p); [reflexivity|auto|auto|auto].
    - unfold wired. rewrite (asts_put e pt (with_policy a p)) by reflexivity. intros q b. rewrite aget_aset.
      destruct (String.eqb q pt); [|apply W]. intros X. inversion X. simpl. apply (W pt). apply get_asts. auto.
    - intros q. apply (stored_put_g e pt (with_policy a p)). reflexivity.
    - exists (with_policy a p). simpl. apply get_put_ast_same.
  Qed.

  Lemma autosave_frame : forall c e, frame e (fst (autosave c e)).
  Proof.
    intros c e. unfold autosave. destruct (e_adapter e) as [a|] eqn:A; [|apply frame_refl].
    destruct (e_auto_save e); [|apply frame_refl]. destruct (adapter_call a c) as [a' out] eqn:X.
    assert (frame e (set_adapter (Some a') e)).
    { constructor; auto. rewrite A. simpl. destruct a as [b p|l|p fd|u]; simpl in X; try (inversion X; subst; simpl; auto; fail).
      - destruct c; inversion X; subst; simpl; auto.
      - destruct (is_batch_call c && negb (ua_batch u)); inversion X; subst; simpl; auto. }
    destruct out as [x|x|x]; auto. destruct x; auto.
  Qed.
  Lemma autosave_calm : forall c e, calm_adapter (e_adapter e) -> is_batch_call c = false -> snd (autosave c e) = Ok tt.
  Proof.
    intros c e C B. unfold autosave. destruct (e_adapter e) as [a|]; auto. destruct (e_auto_save e); auto.
    destruct a as [b p|l|p fd|u]; simpl in *; rewrite ?B; simpl; auto.
    - destruct c; simpl in *; auto; discriminate.
    - destruct (C (ua_log u) c) as [->| ->]; auto.
  Qed.
  Lemma notify_frame : forall e, frame e (fst (notify e)).
  Proof. intros e. unfold notify. destruct (e_watcher e); [destruct (e_notify e)|]; simpl; constructor; auto. Qed.
  Lemma notify_ok : forall e, snd (notify e) = Ok tt.
  Proof. intros e. apply notify_core. Qed.
  Lemma tail_frame : forall c e, frame e (fst ((autosave c ;;; notify ;;; ret true) e)).
  Proof.
    intros c e. unfold mbind at 1. pose proof (autosave_frame c e) as F. destruct (autosave c e) as [e1 [x|x|x]]; auto.
    unfold mbind. pose proof (notify_frame e1) as F1. destruct (notify e1) as [e2 [y|y|y]]; simpl in *; eapply frame_trans; eauto.
  Qed.
  Lemma tail_ok : forall c e, calm_adapter (e_adapter e) -> is_batch_call c = false -> snd ((autosave c ;;; notify ;;; ret true) e) = Ok true.
  Proof.
    intros c e C B. unfold mbind at 1. pose proof (autosave_calm c e C B) as F. destruct (autosave c e) as [e1 out]. simpl in F. subst.
    unfold mbind. pose proof (notify_ok e1) as F1. destruct (notify e1) as [e2 out]. simpl in F1. subst. auto.
  Qed.

  (** ** The calls *)
  Lemma assigned_edit : forall e e' pt l' rs,
    (forall q, stored e' "g" q = if String.eqb q pt then l' else stored e "g" q) ->
    (forall x, In x l' <-> In x (stored e "g" pt) \/ In x rs) ->
    forall l, assigned e' l <-> assigned e l \/ links_of rs l.
  Proof.
    intros e e' pt l' rs H1 H2 l. unfold assigned, links_of. split.
    - intros [q [r [I E]]]. rewrite H1 in I. destruct (String.eqb_spec q pt).
      + subst. apply H2 in I. destruct I; [left; exists pt, r|right; exists r]; auto.
      + left. exists q, r. auto.
    - intros [[q [r [I E]]]|[r [I E]]].
      + exists q, r. split; auto. rewrite H1. destruct (String.eqb_spec q pt); auto. subst. apply H2. auto.
      + exists pt, r. split; auto. rewrite H1, eqb_refl_s. apply H2. auto.
  Qed.
  Lemma ok_rules : forall lvl L e pt a, linked_by lvl L e -> get_ast (e_model e) "g" pt = Ok a -> Forall rules (rules_of (a_policy a)).
  Proof. intros lvl L e pt a [_ [_ O] _ _ _] G. apply (O pt). apply get_asts. auto. Qed.
  Lemma get_ast_cases : forall m sec pt, (exists a, get_ast m sec pt = Ok a) \/ get_ast m sec pt = UB NullDeref.
  Proof. intros. unfold get_ast. destruct (aget pt (sec_of m sec)); eauto. Qed.

  Lemma rules_no_anagram : forall l r, Forall rules l -> rules r -> no_anagram r l.
  Proof.
    intros l r F R x I P. rewrite Forall_forall in F. apply Permutation_sym in P. eapply (t_perm _ _ _ T); eauto.
  Qed.

  Lemma step_add_many_gen : forall (w : list rule -> acall) lvl e pt rs, mirror lvl e -> Forall rules rs ->
    forall prog, prog = (added <- on_model (fun m => AddPolicies m "g" pt rs) ;;
      if negb added then ret false
      else when_g "g" (e_BuildIncrementalRoleLinks policy_add pt rs) ;;; autosave (w rs) ;;; notify ;;; ret true) ->
    mirror lvl (fst (prog e)).
  Proof.
    intros w lvl e pt rs Mi F prog ->. unfold mbind at 1, on_model.
    assert (TAIL : forall e1, linked_by lvl (assigned e) e1 -> (forall l, assigned e1 l <-> assigned e l \/ links_of rs l) ->
      (declared e1 "g" pt \/ e1 = e) ->
      mirror lvl (fst ((when_g "g" (e_BuildIncrementalRoleLinks policy_add pt rs) ;;; autosave (w rs) ;;; notify ;;; ret true) e1))).
    { intros e1 LB AS D. unfold when_g. simpl. unfold mbind at 1.
      destruct (declared_dec e1 pt) as [D1|D1].
      - destruct (incremental_add _ _ _ pt rs LB D1 F) as [e2 [-> [LB2 [S2 _]]]].
        eapply frame_mirror; [apply tail_frame|]. unfold mirror. eapply linked_ext; [exact LB2|].
        intros l. rewrite <- AS. apply assigned_stored. auto.
      - destruct (incremental_undeclared policy_add e1 pt rs D1) as [u ->]. simpl. destruct D; [tauto|]. subst. exact LB. }
    unfold AddPolicies. destruct rs as [|r0 rs0].
    - rewrite set_model_id. cbn [negb]. apply TAIL; auto. intros l. split; auto. intros [|[x [[] _]]]; auto.
    - destruct (get_ast_cases (e_model e) "g" pt) as [[a G]|G]; rewrite G; cbn [bind]; [|exact Mi].
      destruct (existsb (has_rule (rules_of (a_policy a))) (r0 :: rs0)) eqn:X.
      + rewrite set_model_id. exact Mi.
      + cbn [negb]. pose proof (ok_rules _ _ _ _ _ Mi G) as FR.
        assert (FE : Forall rules (rules_of (fold_left emplace (r0 :: rs0) (a_policy a)))).
        { rewrite Forall_forall in *. intros x I. apply fold_emplace_in in I. destruct I; auto. }
        destruct (edit_linked _ _ _ _ _ _ Mi G FE) as [LB [S D]]. apply TAIL; auto.
        eapply assigned_edit; [exact S|]. intros x. rewrite fold_emplace_in. unfold stored. rewrite (rules_in_get _ _ _ _ G). tauto.
  Qed.

  Lemma step_add : forall lvl e pt r, mirror lvl e -> rules r ->
    mirror lvl (fst (i_addPolicy "g" pt r e)) /\
    (forall b, snd (i_addPolicy "g" pt r e) = Ok b -> declared (fst (i_addPolicy "g" pt r e)) "g" pt /\ In r (stored (fst (i_addPolicy "g" pt r e)) "g" pt)).
  Proof.
    intros lvl e pt r Mi Rr.
    assert (A2 : forall b, snd (i_addPolicy "g" pt r e) = Ok b ->
      declared (fst (i_addPolicy "g" pt r e)) "g" pt /\ In r (stored (fst (i_addPolicy "g" pt r e)) "g" pt)).
    { intros b O. pose proof (edit_add "g" pt r e) as AE. unfold after_edit, AddPolicy in AE.
      destruct (get_ast_cases (e_model e) "g" pt) as [[a G]|G]; rewrite G in AE; cbn [bind] in AE; [|rewrite AE in O; discriminate].
      pose proof (ok_rules _ _ _ _ _ Mi G) as FR.
      destruct (has_rule (rules_of (a_policy a)) r) eqn:X; destruct AE as [S _].
      - rewrite (stored_asts _ _ _ _ _ S), (rules_in_get _ _ _ _ G), <- has_rule_in by (apply rules_no_anagram; auto).
        split; auto. apply (same_asts_declared _ _ _ _ S). exists a. auto.
      - rewrite (stored_asts _ _ _ _ _ S), rules_in_put, emplace_in. split; auto.
        apply (same_asts_declared _ _ _ _ S). eexists. simpl. apply get_put_ast_same. }
    split; auto. clear A2. unfold i_addPolicy. unfold mbind at 1, on_model, AddPolicy.
    destruct (get_ast_cases (e_model e) "g" pt) as [[a G]|G]; rewrite G; cbn [bind]; [|exact Mi].
    destruct (has_rule (rules_of (a_policy a)) r) eqn:X. { rewrite set_model_id. exact Mi. }
    cbn [negb]. pose proof (ok_rules _ _ _ _ _ Mi G) as FR.
    assert (FE : Forall rules (rules_of (emplace (a_policy a) r))).
    { rewrite Forall_forall in *. intros x I. apply emplace_in in I. destruct I; subst; auto. }
    destruct (edit_linked _ _ _ _ _ _ Mi G FE) as [LB [S D]].
    unfold when_g. simpl. unfold mbind at 1.
    destruct (incremental_add _ _ _ pt [r] LB D) as [e2 [-> [LB2 [S2 _]]]]; auto.
    eapply frame_mirror; [apply tail_frame|]. unfold mirror. eapply linked_ext; [exact LB2|].
    intros l. rewrite <- (assigned_stored _ _ S2 l). symmetry. eapply assigned_edit; [exact S|].
    intros x. rewrite emplace_in. unfold stored. rewrite (rules_in_get _ _ _ _ G). simpl. intuition.
  Qed.
  Lemma step_add_grouping : forall lvl e pt r, mirror lvl e -> rules r -> mirror lvl (fst (AddNamedGroupingPolicy pt r e)).
  Proof.
    intros lvl e pt r Mi Rr. unfold AddNamedGroupingPolicy. unfold mbind at 1. destruct (step_add lvl e pt r Mi Rr) as [M1 A].
    destruct (i_addPolicy "g" pt r e) as [e1 [b|x|u]]; simpl in *; auto. destruct (A b eq_refl) as [D I].
    unfold mbind. rewrite (lb_build _ _ _ M1). destruct (incremental_add _ _ _ pt [r] M1 D) as [e2 [-> [LB2 [S2 _]]]]; auto.
    simpl. unfold mirror. eapply linked_ext; [exact LB2|]. intros l. rewrite <- (assigned_stored _ _ S2 l). split; auto.
    intros [H|[x [[<-|[]] E]]]; auto. exists pt, r. auto.
  Qed.
  Lemma rebuild_if_mirror : forall lvl L e, linked_by lvl L e -> mirror lvl (fst (rebuild_if_auto e)).
  Proof.
    intros lvl L e LB. unfold rebuild_if_auto. rewrite (lb_build _ _ _ LB). destruct (rebuild_mirror _ _ _ LB) as [e' [-> [M' _]]]. auto.
  Qed.

  Lemma step_remove_grouping : forall lvl e pt r, mirror lvl e -> rules r -> mirror lvl (fst (RemoveNamedGroupingPolicy pt r e)).
  Proof.
    intros lvl e pt r Mi Rr. unfold RemoveNamedGroupingPolicy.
    assert (H : (exists u, i_removePolicy "g" pt r e = (e, UB u)) \/
                (exists e1 b L, i_removePolicy "g" pt r e = (e1, Ok b) /\ linked_by lvl L e1)).
    { remember (i_removePolicy "g" pt r e) as q eqn:Q. unfold i_removePolicy in Q. unfold mbind at 1, on_model, RemovePolicy in Q.
      destruct (get_ast_cases (e_model e) "g" pt) as [[a G]|G]; rewrite G in Q; cbn [bind] in Q; [|subst q; eauto].
      right. pose proof (ok_rules _ _ _ _ _ Mi G) as FR.
      destruct (erase_first r (rules_of (a_policy a))) as [l|] eqn:X.
      2:{ rewrite set_model_id in Q. subst q. exists e, false, (assigned e). auto. }
      assert (FE : Forall rules (rules_of (with_rules (a_policy a) l))).
      { rewrite rules_with. rewrite Forall_forall in *. intros x I. apply erase_first_some in X.
        destruct X as [pre [y [post [E1 [E2 _]]]]]. apply FR. subst l. rewrite E1. rewrite in_app_iff in *. simpl. tauto. }
      destruct (edit_linked _ _ _ _ _ _ Mi G FE) as [LB [S D]]. cbn [negb] in Q.
      unfold when_g in Q. simpl in Q. unfold mbind at 1 in Q.
      destruct (incremental_add _ _ _ pt [r] LB D) as [e2 [IA [LB2 [S2 _]]]]; auto. rewrite IA in Q.
      pose proof (tail_frame (CRemove "g" pt r) e2) as TF. pose proof (tail_ok (CRemove "g" pt r) e2 (lb_calm _ _ _ LB2) eq_refl) as TO.
      destruct ((autosave (CRemove "g" pt r) ;;; notify ;;; ret true) e2) as [e3 out]. simpl in *. subst out.
      subst q. eexists e3, true, _. split; [reflexivity|]. eapply frame_linked; eauto. }
    unfold mbind at 1. destruct H as [[u ->]|[e1 [b [L [-> LB]]]]]. { exact Mi. }
    pose proof (rebuild_if_mirror _ _ _ LB) as RB. unfold mbind. destruct (rebuild_if_auto e1) as [e2 [x|x|x]]; auto.
  Qed.

  Lemma partition_effects : forall i vals l eff tmp x, partition_rules i vals l = Ok (eff, tmp) -> In x eff \/ In x tmp -> In x l.
  Proof.
    intros i vals l eff tmp x P I. pose proof (partition_filter _ _ _ _ _ P) as F. apply filter_rules_spec in F.
    apply partition_rules_spec in P. destruct I as [I|I].
    - apply (selects_in _ _ _ _ F) in I. tauto.
    - destruct P as [_ P]. apply (selects_in _ _ _ _ P) in I. tauto.
  Qed.
  Lemma step_remove_filtered_grouping : forall lvl e pt i vals, mirror lvl e -> mirror lvl (fst (RemoveFilteredNamedGroupingPolicy pt i vals e)).
  Proof.
    intros lvl e pt i vals Mi. unfold RemoveFilteredNamedGroupingPolicy.
    assert (H : (exists u, i_removeFilteredPolicy "g" pt i vals e = (e, u) /\ forall b, u <> Ok b) \/
                (exists e1 b L, i_removeFilteredPolicy "g" pt i vals e = (e1, Ok b) /\ linked_by lvl L e1)).
    { remember (i_removeFilteredPolicy "g" pt i vals e) as q eqn:Q. unfold i_removeFilteredPolicy in Q. unfold mbind at 1, on_model, RemoveFilteredPolicy in Q.
      destruct (get_ast_cases (e_model e) "g" pt) as [[a G]|G]; rewrite G in Q; cbn [bind] in Q.
      2:{ left. subst q. eexists. split; [reflexivity|]. discriminate. }
      destruct (partition_rules i vals (rules_of (a_policy a))) as [[eff tmp]|t|u] eqn:P; cbn [bind] in Q;
        try (left; subst q; eexists; split; [reflexivity|]; discriminate).
      right. pose proof (ok_rules _ _ _ _ _ Mi G) as FR. rewrite Forall_forall in FR.
      assert (FE : Forall rules tmp) by (rewrite Forall_forall; intros x I; apply FR; eapply partition_effects; eauto).
      assert (FF : Forall rules eff) by (rewrite Forall_forall; intros x I; apply FR; eapply partition_effects; eauto).
      destruct (edit_linked _ _ _ _ _ (Vec tmp) Mi G FE) as [LB [S D]]. destruct eff as [|x0 eff]. { cbn in Q. subst q. eexists _, false, _. split; [reflexivity|exact LB]. }
      cbn [negb] in Q. unfold when_g in Q. simpl in Q. unfold mbind at 1 in Q.
      destruct (incremental_remove _ _ _ pt (x0 :: eff) LB D FF) as [e2 [IA [LB2 [S2 _]]]].
      { intros x l I E. exists pt, x. split; auto. unfold stored. rewrite (rules_in_get _ _ _ _ G). eapply partition_effects; eauto. }
      rewrite IA in Q. set (c := CRemoveFiltered "g" pt i vals).
      fold c in Q. pose proof (tail_frame c e2) as TF. pose proof (tail_ok c e2 (lb_calm _ _ _ LB2) eq_refl) as TO.
      destruct ((autosave c ;;; notify ;;; ret true) e2) as [e3 out]. simpl in *. subst out.
      subst q. eexists e3, true, _. split; [reflexivity|]. eapply frame_linked; eauto. }
    unfold mbind at 1. destruct H as [[u [-> N]]|[e1 [b [L [-> LB]]]]].
    { destruct u; [exfalso; eapply N; eauto|exact Mi|exact Mi]. }
    pose proof (rebuild_if_mirror _ _ _ LB) as RB. unfold mbind. destruct (rebuild_if_auto e1) as [e2 [x|x|x]]; auto.
  Qed.

  Ltac fb := intros; apply keeps_bind; [exact frame_trans| |].
  Ltac fr := intros; first [apply keeps_ret|apply keeps_fail|apply keeps_undef|apply keeps_lift|apply keeps_read]; exact frame_refl.

  Lemma frame_model : forall m e, sec_of m "g" = asts e -> frame e (set_model m e).
  Proof. intros. constructor; auto. Qed.
  Lemma writes_frame : forall e m pt, writes (e_model e) m "p" pt -> frame e (set_model m e).
  Proof.
    intros e m pt [->|[a [p [G ->]]]]; apply frame_model; auto. unfold put_policy, put_ast, sec_of at 1. rewrite aget_aset_other by discriminate. auto.
  Qed.
  Lemma sec_touch : forall m s q, sec_of (touch m s) q = sec_of m q.
  Proof. intros. unfold sec_of, touch. rewrite aget_ainsert. seqb q s; auto. subst. destruct (aget s m); auto. Qed.

  Lemma frame_tail : forall c, keeps frame (autosave c ;;; notify ;;; ret true).
  Proof. intros c e. apply tail_frame. Qed.
  Lemma frame_p : forall A (f : model -> res (model * A)) pt (k : A -> M bool),
    (forall m m' a, f m = Ok (m', a) -> writes m m' "p" pt) -> (forall a, keeps frame (k a)) -> keeps frame (mbind (on_model f) k).
  Proof.
    intros A f pt k W K. fb; auto. apply keeps_on_model; [exact frame_refl|]. intros e m a E. eapply writes_frame. eapply W. eauto.
  Qed.
  Ltac fp w := eapply frame_p; [intros; eapply w; eauto|].
  Lemma frame_ptail : forall c (p : M unit), keeps frame (when_g "p" p ;;; autosave c ;;; notify ;;; ret true).
  Proof. intros c p. fb; [unfold when_g; simpl; fr|]. intros. apply frame_tail. Qed.
  Lemma frame_add : forall pt r, keeps frame (i_addPolicy "p" pt r).
  Proof. intros. fp writes_add. intros []; simpl; [apply frame_ptail|fr]. Qed.
  Lemma frame_add_many : forall pt r, keeps frame (i_addPolicies "p" pt r).
  Proof. intros. fp writes_add_many. intros []; simpl; [apply frame_ptail|fr]. Qed.
  Lemma frame_remove : forall pt r, keeps frame (i_removePolicy "p" pt r).
  Proof. intros. fp writes_remove. intros []; simpl; [apply frame_ptail|fr]. Qed.
  Lemma frame_remove_many : forall pt r, keeps frame (i_removePolicies "p" pt r).
  Proof. intros. fp writes_add_many. intros []; simpl; [apply frame_ptail|fr]. Qed.
  Lemma frame_remove_filtered : forall pt i vals, keeps frame (i_removeFilteredPolicy "p" pt i vals).
  Proof. intros. fp writes_remove_filtered. intros [[] eff]; simpl; [apply frame_ptail|fr]. Qed.
  Lemma frame_notify_tail : forall (p : M unit), keeps frame (when_g "p" p ;;; notify ;;; ret true).
  Proof. intros p. fb; [unfold when_g; simpl; fr|]. fb; [intros e; apply notify_frame|fr]. Qed.
  Lemma frame_update : forall pt old new, keeps frame (i_updatePolicy "p" pt old new).
  Proof. intros. fp writes_update. intros []; simpl; [apply frame_notify_tail|fr]. Qed.
  Lemma frame_update_many : forall pt olds news, keeps frame (i_updatePolicies "p" pt olds news).
  Proof. intros. fp writes_update_many. intros []; simpl; [apply frame_notify_tail|fr]. Qed.
  Lemma frame_all_types : forall sec i, keeps frame (all_types sec i).
  Proof. intros sec i e. unfold all_types. simpl. apply frame_model. apply sec_touch. Qed.
  Lemma frame_ev : forall v e, frame e (set_ev v e).
  Proof. intros. constructor; auto. Qed.
  Lemma frame_enforce : forall o matcher params, keeps frame (EnforceWithMatcher o matcher params).
  Proof. fb; [|fr]. intros e. destruct (EnforceEx_frame o matcher params e) as [ev ->]. apply frame_ev. Qed.
  Lemma frame_enforceMap : forall o matcher params, keeps frame (EnforceWithMatcherMap o matcher params).
  Proof. fb; [|fr]. intros e. destruct (EnforceExMap_frame o matcher params e) as [ev ->]. apply frame_ev. Qed.
  Lemma frame_batch : forall o matcher reqs, keeps frame (BatchEnforceWithMatcher o matcher reqs).
  Proof.
    induction reqs; simpl. { fr. }
    fb. { apply frame_enforce. } fb; [auto|try fr].
  Qed.
  Lemma frame_allowed : forall o perm subs, keeps frame (allowed_subjects o perm subs).
  Proof.
    induction subs; simpl. { fr. }
    fb. { fr. } intros. fb. { fr. } intros. fb. { apply frame_enforce. } intros. fb; [auto|try fr].
  Qed.
  Lemma frame_implicit_users : forall o perm, keeps frame (GetImplicitUsersForPermission o perm).
  Proof.
    intros. unfold GetImplicitUsersForPermission. do 3 (fb; [apply frame_all_types|]; intros).
    fb. { apply frame_allowed. } fr.
  Qed.
  Lemma frame_adapter_save : keeps frame adapter_save.
  Proof.
    intros e. unfold adapter_save. destruct (e_adapter e) as [[b p|l|p fd|u]|] eqn:A; try apply frame_refl.
    - unfold FileAdapter_SavePolicy. destruct (String.eqb p ""). { simpl. constructor; try reflexivity; simpl; rewrite ?A; auto. }
      destruct (policy_text (touch (touch (e_model e) "p") "g")) as [t|t|t]; simpl;
        try (constructor; [reflexivity|reflexivity|unfold asts; simpl; rewrite !sec_touch; reflexivity|reflexivity|simpl; rewrite ?A; auto]).
      destruct (SavePolicyFile (e_fs e) p t). simpl. constructor; [reflexivity|reflexivity|unfold asts; simpl; rewrite !sec_touch; reflexivity|reflexivity|simpl; rewrite ?A; auto].
    - unfold StringAdapter_SavePolicy. destruct (String.eqb l ""). { simpl. constructor; try reflexivity; simpl; rewrite ?A; auto. }
      destruct (policy_text (touch (touch (e_model e) "p") "g")) as [t|t|t]; simpl;
        (constructor; [reflexivity|reflexivity|unfold asts; simpl; rewrite !sec_touch; reflexivity|reflexivity|simpl; auto]).
  Qed.
  Lemma frame_save : keeps frame SavePolicy.
  Proof.
    fb.
    - intros e. unfold IsFiltered. destruct (e_adapter e); apply frame_refl.
    - intros []. { fr. } fb. { apply frame_adapter_save. } intros u e. unfold notify_always. destruct (e_watcher e); simpl; constructor; auto.
  Qed.

  Section Mirror.
    Variable lvl : nat.
    Definition MR (e e' : enforcer) : Prop := mirror lvl e -> mirror lvl e'.
    Lemma MR_refl : forall e, MR e e.
    Proof. intros e H. exact H. Qed.
    Lemma MR_trans : forall a b c, MR a b -> MR b c -> MR a c.
    Proof. unfold MR. auto. Qed.
    Lemma MR_frame : forall A (c : M A), keeps frame c -> keeps MR c.
    Proof. intros A c H e. unfold MR. apply frame_mirror. apply H. Qed.

    Lemma hget_hset_other : forall h i j r, i <> j -> hget (hset h i r) j = hget h j.
    Proof.
      unfold hget. induction h as [|x h IH]; intros [|i] [|j] r N; simpl; auto; try congruence.
    Qed.
    Lemma MR_GetRoles : forall i name d, keeps MR (rm_GetRoles i name d).
    Proof.
      intros i name d e Mi. destruct (lb_rm _ _ _ Mi) as [r [H [P _]]].
      destruct (Nat.eq_dec i (e_rm e)) as [->|N].
      - rewrite (rm_GetRoles_pure _ _ _ _ r H) by apply P. exact Mi.
      - unfold rm_GetRoles. destruct (hget (e_heap e) i) as [r'|t|u]; [|exact Mi|exact Mi].
        destruct (GetRoles r' name d) as [r2 out]. simpl. eapply frame_mirror; [|exact Mi].
        constructor; auto. simpl. apply hget_hset_other. auto.
    Qed.
    Lemma MR_GetRolesForUser : forall name d, keeps MR (GetRolesForUser name d).
    Proof. intros name d e. unfold GetRolesForUser. destruct (g_rm e); try apply MR_refl. apply MR_GetRoles. Qed.
    Lemma MR_implicit_loop : forall fuel d q seen acc, keeps MR (implicit_loop fuel d q seen acc).
    Proof.
      induction fuel as [|k IH]; intros d [|x q] seen acc; simpl; try (apply keeps_ret; exact MR_refl); try (apply keeps_undef; exact MR_refl).
      apply keeps_bind; [exact MR_trans| |auto]. intros e. apply MR_GetRoles.
    Qed.
    Lemma MR_implicit_roles : forall name d, keeps MR (GetImplicitRolesForUser name d).
    Proof.
      intros name d e. unfold GetImplicitRolesForUser. destruct (hget (e_heap e) (e_rm e)); try apply MR_refl. apply MR_implicit_loop.
    Qed.
    Lemma frame_perms_of : forall d roles, keeps frame (perms_of d roles).
    Proof.
      induction roles as [|r rs IH]; simpl. { fr. }
      fb. { destruct d; fr. } fb; [auto|try fr].
    Qed.
    Lemma MR_implicit_perms : forall name d, keeps MR (GetImplicitPermissionsForUser name d).
    Proof.
      intros. apply keeps_bind; [exact MR_trans|apply MR_implicit_roles|]. intros roles.
      destruct (Nat.ltb 1 (List.length d)); [apply keeps_fail; exact MR_refl|]. apply MR_frame, frame_perms_of.
    Qed.
    Lemma MR_add_roles : forall user roles f, Forall (fun r => rules [user; r]) roles -> keeps MR (add_roles user roles f).
    Proof.
      induction roles as [|r rs IH]; simpl; intros f F. { apply keeps_ret; exact MR_refl. }
      inversion F; subst. apply keeps_bind; [exact MR_trans| |auto].
      intros e Mi. apply step_add_grouping; auto.
    Qed.

    Lemma run_mirror : forall o c, safe_call rules c -> keeps MR (run o c).
    Proof.
      intros o c S. destruct c; simpl in S |- *; try tauto; try (apply keeps_drop; [exact MR_refl|exact MR_trans|]).
      - apply MR_frame, frame_add.
      - apply MR_frame, frame_add_many.
      - apply MR_frame, frame_remove.
      - apply MR_frame, frame_remove_many.
      - apply MR_frame, frame_remove_filtered.
      - apply MR_frame, frame_update.
      - apply MR_frame, frame_update_many.
      - intros e Mi. apply step_add_grouping; auto.
      - intros e Mi. eapply (step_add_many_gen (CAddMany "g" pt)); eauto. reflexivity.
      - intros e Mi. apply step_remove_grouping; auto.
      - intros e Mi. eapply (step_add_many_gen (CRemoveMany "g" pt)); eauto. reflexivity.
      - intros e Mi. apply step_remove_filtered_grouping; auto.
      - apply MR_add_roles; auto.
      - apply keeps_bind; [exact MR_trans|intros e Mi; apply step_remove_filtered_grouping; auto|]. intros.
        apply keeps_bind; [exact MR_trans|apply MR_frame, frame_remove_filtered|]. intros. apply keeps_ret. exact MR_refl.
      - apply keeps_bind; [exact MR_trans|intros e Mi; apply step_remove_filtered_grouping; auto|]. intros.
        apply keeps_bind; [exact MR_trans|apply MR_frame, frame_remove_filtered|]. intros. apply keeps_ret. exact MR_refl.
      - apply MR_frame, frame_all_types.
      - apply MR_GetRolesForUser.
      - apply MR_implicit_roles.
      - apply MR_implicit_perms.
      - apply MR_frame, frame_implicit_users.
      - apply MR_frame, frame_enforce.
      - apply MR_frame, frame_enforceMap.
      - apply MR_frame, frame_batch.
      - apply MR_frame, frame_save.
      - intros e Mi. destruct (rebuild_mirror _ _ _ Mi) as [e' [-> [M' _]]]. exact M'.
      - intros e Mi. eapply frame_mirror; [|exact Mi]. constructor; auto.
      - intros e Mi. eapply frame_mirror; [|exact Mi]. constructor; auto.
      - intros e Mi. eapply frame_mirror; [|exact Mi]. constructor; auto.
      - subst b. intros e Mi. eapply frame_mirror; [|exact Mi]. constructor; auto. simpl. symmetry. apply Mi.
      - intros e Mi. eapply frame_mirror; [|exact Mi]. constructor; auto.
      - intros e Mi. eapply frame_mirror; [|exact Mi]. constructor; auto.
      - intros e Mi. eapply frame_mirror; [|exact Mi]. constructor; auto.
    Qed.
    Lemma reaches_mirror : forall o cs e e', Forall (safe_call rules) cs -> reaches o e cs e' -> mirror lvl e -> mirror lvl e'.
    Proof.
      intros o cs e e' F H. induction H; auto. inversion F; subst. intros Mi. apply IHreaches; auto.
      pose proof (run_mirror o c H4 e Mi) as K. rewrite H in K. exact K.
    Qed.
  End Mirror.

  Lemma mirror_level : forall lvl e, mirror lvl e -> level_of e = lvl.
  Proof. intros lvl e [[r [H [P ML]]] _ _ _ _]. unfold level_of. rewrite H. auto. Qed.
  Lemma mirror_in_sync : forall lvl e, mirror lvl e -> in_sync names e.
  Proof.
    intros lvl e Mi. pose proof (mirror_level _ _ Mi) as LV. destruct Mi as [[r [H [P ML]]] _ _ _ _]. exists r. split; auto. intros d a Na. split.
    - apply (rep_GetRoles names); auto.
    - intros b Nb. rewrite LV, <- ML. apply (rep_HasLink names); auto.
  Qed.

  (** ** Updates *)
  Lemma link_of_inj : forall r r' l, rules r -> rules r' -> link_of r = Some l -> link_of r' = Some l -> r = r'.
  Proof.
    intros r r' [[d a] b] R R' E E'. rewrite (link_of_args _ _ _ _ E), (link_of_args _ _ _ _ E'). auto.
  Qed.
  Lemma step_update : forall lvl e pt old new, mirror lvl e -> rules old -> rules new ->
    NoDup (stored e "g" pt) -> (In new (stored e "g" pt) -> new = old) ->
    (forall q r, In r (stored e "g" q) -> link_of r = link_of old -> q = pt) ->
    mirror lvl (fst (UpdateNamedGroupingPolicy pt old new e)).
  Proof.
    intros lvl e pt old new Mi Ro Rn ND NI UQ. unfold UpdateNamedGroupingPolicy, i_updatePolicy. unfold mbind at 1, on_model, UpdatePolicy.
    destruct (get_ast_cases (e_model e) "g" pt) as [[a G]|G]; rewrite G; cbn [bind]; [|exact Mi].
    pose proof (ok_rules _ _ _ _ _ Mi G) as FR.
    assert (ST : stored e "g" pt = rules_of (a_policy a)) by (unfold stored; apply rules_in_get; auto). rewrite ST in *.
    destruct (erase_first old (rules_of (a_policy a))) as [l|] eqn:E.
    2:{ rewrite set_model_id. exact Mi. }
    apply erase_first_some in E. destruct E as [pre [x [post [E1 [E2 [P N]]]]]].
    assert (x = old).
    { apply (rules_no_anagram (rules_of (a_policy a)) old); auto. rewrite E1, in_app_iff. simpl. auto. }
    subst x. rewrite E1 in ND. pose proof (NoDup_remove_2 _ _ _ ND) as NO. rewrite <- E2 in NO.
    assert (INC : forall x, In x l <-> In x (rules_of (a_policy a)) /\ x <> old).
    { intros x. rewrite E1, in_app_iff. simpl. split.
      - intros I. split; [rewrite E2, in_app_iff in I; tauto|]. intros ->. auto.
      - intros [[I|[I|I]] D]; try congruence; rewrite E2, in_app_iff; auto. }
    assert (FL : Forall rules l).
    { rewrite Forall_forall in *. intros x I. apply FR. apply INC in I. tauto. }
    assert (HN : has_rule l new = false).
    { apply has_rule_false; [apply rules_no_anagram; auto|]. intros I. apply INC in I. destruct I as [I D]. auto. }
    rewrite HN. cbn [negb].
    assert (FE : Forall rules (rules_of (emplace (with_rules (a_policy a) l) new))).
    { rewrite Forall_forall in *. intros x I. apply emplace_in in I. rewrite rules_with in I. destruct I; subst; auto. }
    destruct (edit_linked _ _ _ _ _ _ Mi G FE) as [LB [S D]].
    set (e1 := set_model (put_policy (e_model e) "g" pt a (emplace (with_rules (a_policy a) l) new)) e) in *.
    unfold when_g. simpl String.eqb. cbv iota. unfold mbind at 1. unfold mbind at 1.
    destruct (incremental_remove _ _ _ pt [old] LB D) as [e2 [-> [LB2 [S2 D2]]]]; auto.
    { intros r l0 [<-|[]] EL. exists pt, old. split; auto. rewrite ST, E1, in_app_iff. simpl. auto. }
    destruct (incremental_add _ _ _ pt [new] LB2 D2) as [e3 [-> [LB3 [S3 D3]]]]; auto.
    eapply frame_mirror.
    { unfold mbind. pose proof (notify_frame e3) as NF. destruct (notify e3) as [e4 [?|?|?]]; exact NF. }
    unfold mirror. eapply linked_ext; [exact LB3|]. intros k.
    assert (S4 : forall q, stored e3 "g" q = stored e1 "g" q) by (intros; rewrite S3; auto).
    rewrite <- (assigned_stored e1 e3 S4 k). unfold links_of. split.
    - intros [[[q [r [I EL]]] N2]|[r [[<-|[]] EL]]].
      + exists q, r. split; auto. rewrite S. destruct (String.eqb_spec q pt); auto. subst q.
        rewrite emplace_in, rules_with. right. apply INC. rewrite ST in I. split; auto. intros ->. apply N2. exists old. simpl. auto.
      + exists pt, new. split; auto. rewrite S, eqb_refl_s, emplace_in. auto.
    - intros [q [r [I EL]]]. rewrite S in I. destruct (String.eqb_spec q pt).
      + subst q. rewrite emplace_in, rules_with in I. destruct I as [->|I]; [right; exists new; simpl; auto|].
        apply INC in I. destruct I as [I DI]. left. split; [exists pt, r; rewrite ST; auto|].
        intros [y [[<-|[]] EY]]. apply DI. rewrite Forall_forall in FR. eapply link_of_inj; eauto.
      + left. split; [exists q, r; auto|]. intros [y [[<-|[]] EY]]. apply n0. apply (UQ q r I). congruence.
  Qed.

  (** ** Loading *)
  Lemma build_asts_keys : forall todo h rm am h', build_asts h rm todo = (am, h', Ok tt) ->
    am = map (fun kv => (fst kv, with_rm (snd kv) (Some rm))) todo.
  Proof.
    induction todo as [|[k a] rest IH]; simpl; intros h rm am h' H. { inversion H. auto. }
    destruct (hget h rm) as [r|t|u]; try discriminate.
    destruct (ast_links policy_add (a_value a) r (rules_of (a_policy a))) as [r' [x|t|u]]; try discriminate.
    destruct (build_asts (hset h rm r') rm rest) as [[am' h2] out] eqn:B. inversion H; subst. f_equal. eapply IH. eauto.
  Qed.
  Lemma rebuild_ok_inv : forall e e', e_BuildRoleLinks e = (e', Ok tt) -> grouping_ok n rules e' -> grouping_ok n rules e.
  Proof.
    intros e e' H [O1 O2]. unfold e_BuildRoleLinks in H. destruct (hget (e_heap e) (e_rm e)) as [r|t|u]; try discriminate.
    unfold BuildRoleLinks in H. rewrite sec_touch in H. fold (asts e) in H.
    destruct (build_asts (hset (e_heap e) (e_rm e) (Clear r)) (e_rm e) (asts e)) as [[am h'] out] eqn:B. inversion H; subst.
    apply build_asts_keys in B. simpl in *. unfold sec_of in O1, O2. rewrite aget_aset_same in O1, O2. subst am.
    rewrite map_map in O1. simpl in O1. split; auto. intros pt a X. fold (asts e) in X.
    specialize (O2 pt (with_rm a (Some (e_rm e)))). simpl in O2. apply O2.
    clear - X. induction (asts e) as [|[k b] am IH]; simpl in *; [discriminate|]. destruct (String.eqb pt k); auto. inversion X. auto.
  Qed.
  Lemma load_mirror : forall (pre : M unit) e e', (forall e1 out, pre e = (e1, out) ->
      e_heap e1 = e_heap e /\ e_rm e1 = e_rm e /\ e_auto_build e1 = e_auto_build e /\
      (calm_adapter (e_adapter e) -> calm_adapter (e_adapter e1))) ->
    plain_rm e -> e_auto_build e = true -> calm_adapter (e_adapter e) -> (pre ;;; rebuild_if_auto) e = (e', Ok tt) ->
    grouping_ok n rules e' -> exists lvl, mirror lvl e'.
  Proof.
    intros pre e e' PRE [r [H1 H2]] B C H O. unfold mbind in H. destruct (pre e) as [e1 [x|x|x]] eqn:E; try discriminate.
    destruct (PRE e1 _ eq_refl) as [P1 [P2 [P3 P4]]]. unfold rebuild_if_auto in H. rewrite P3, B in H.
    destruct (rebuild_any e1 r) as [e2 [E2 [M2 _]]]; auto; try congruence.
    - eapply rebuild_ok_inv; eauto.
    - rewrite H in E2. inversion E2; subst. eauto.
  Qed.
  Lemma load_lines_frame : forall e m, e_heap (set_model m e) = e_heap e.
  Proof. reflexivity. Qed.
  Lemma load_policy_mirror : forall e e', plain_rm e -> e_auto_build e = true -> calm_adapter (e_adapter e) ->
    LoadPolicy e = (e', Ok tt) -> grouping_ok n rules e' -> exists lvl, mirror lvl e'.
  Proof.
    intros e e' P B C H O. apply (load_mirror (e_ClearPolicy ;;; adapter_load) e e'); auto.
    - intros e1 out X. unfold mbind in X. simpl in X. unfold adapter_load in X. simpl in X.
      destruct (e_adapter e) as [[b p|l|p fd|u]|] eqn:A.
      + destruct (FileAdapter_LoadPolicy (e_fs e) p (ClearPolicy (e_model e))). inversion X; subst. simpl. rewrite ?A. auto.
      + destruct (StringAdapter_LoadPolicy l (ClearPolicy (e_model e))). inversion X; subst. simpl. rewrite ?A. auto.
      + destruct (Filtered_LoadPolicy (e_fs e) p (ClearPolicy (e_model e))) as [[fd' m] out']. inversion X; subst. simpl. auto.
      + destruct (ua_load u (ua_log u)) as [lines ex]. destruct (load_lines lines (ClearPolicy (e_model e))) as [m [y|y|y]]; inversion X; subst; simpl; rewrite ?A; auto.
      + inversion X; subst. simpl. rewrite A. auto.
  Qed.
  Lemma load_filtered_mirror : forall e e' flt, plain_rm e -> e_auto_build e = true -> calm_adapter (e_adapter e) ->
    e_LoadFilteredPolicy flt e = (e', Ok tt) -> grouping_ok n rules e' -> exists lvl, mirror lvl e'.
  Proof.
    intros e e' flt P B C H O. unfold e_LoadFilteredPolicy in H.
    match type of H with (_ ;;; ?x ;;; _) _ = _ => apply (load_mirror (e_ClearPolicy ;;; x) e e'); auto end.
    - intros e1 out X. unfold mbind in X. simpl in X.
      destruct (e_adapter e) as [a|] eqn:A; [|inversion X; subst; simpl; rewrite A; auto].
      destruct (negb (adapter_filtered a)). { inversion X; subst; simpl; rewrite A; auto. }
      destruct a as [b p|l|p fd|u]; try (inversion X; subst; simpl; rewrite A; auto; fail).
      destruct (LoadFilteredPolicy (e_fs e) p fd flt (ClearPolicy (e_model e))) as [[fd' m] out']. inversion X; subst. simpl. auto.
  Qed.

  Lemma managed_mirror : forall o e, managed o names n rules e -> mirror (level_of e) e.
  Proof.
    intros o e H. assert (X : exists lvl, mirror lvl e).
    { induction H.
      - destruct H as [r [H H']]. destruct (rebuild_any e r H H' H2 H0 H1) as [e2 [E [M2 _]]]. rewrite H3 in E. inversion E; subst. eauto.
      - eapply load_policy_mirror; eauto.
      - eapply load_filtered_mirror; eauto.
      - destruct IHmanaged as [lvl IH]. exists lvl. pose proof (run_mirror lvl o c H0 e IH) as K. rewrite H1 in K. exact K.
      - destruct IHmanaged as [lvl IH]. exists lvl. pose proof (step_update lvl e pt old new IH H0 H1 H2 H3 H4) as K. rewrite H5 in K. exact K. }
    destruct X as [lvl M]. rewrite (mirror_level _ _ M). auto.
  Qed.
End Links.
