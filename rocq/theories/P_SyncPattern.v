(** Role links with a matching function follow the grouping policy. *)
From Coq Require Import Permutation.
From Verif Require Import Base P_Base M_Util M_RoleManager M_Model M_Persist M_Evaluator M_Enforcer S_Policy S_History S_Roles S_Sync S_Pattern
  P_Decide P_Store P_Api P_History P_Nodup P_Group P_Roles P_Sync P_Pattern.
Local Arguments spell : simpl never.

Lemma grouped_dec : forall R x, {grouped R x} + {~ grouped R x}.
Proof.
  induction R as [|r R IH]; intros x. { right. intros [r [d [a [b [[] _]]]]]. }
  assert (D : {exists d a b, link_of r = Some (d, a, b) /\ (x = (d, a) \/ x = (d, b))} + {~ exists d a b, link_of r = Some (d, a, b) /\ (x = (d, a) \/ x = (d, b))}).
  { destruct (link_of r) as [[[d a] b]|].
    - destruct (node_dec x (d, a)) as [->|N1]; [left; exists d, a, b; auto|].
      destruct (node_dec x (d, b)) as [->|N2]; [left; exists d, a, b; auto|].
      right. intros [d' [a' [b' [E [F|F]]]]]; inversion E; subst; tauto.
    - right. intros [d' [a' [b' [E _]]]]. discriminate. }
  destruct D as [D|D]. { left. destruct D as [d [a [b [E F]]]]. exists r, d, a, b. simpl. auto. }
  destruct (IH x) as [H|H].
  - left. destruct H as [r' [d [a [b [I H]]]]]. exists r', d, a, b. simpl. auto.
  - right. intros [r' [d [a [b [[<-|I] X]]]]]; [apply D; exists d, a, b; auto|]. apply H. exists r', d, a, b. auto.
Qed.

Section Links.
  Variable f : string -> string -> bool.
  Variable names : node -> Prop.
  Variable n : nat.
  Variable R : list rule.
  Let rules (r : rule) : Prop := In r R.
  Hypothesis T : tidy names n rules.
  Hypothesis PO : patterns_ok f names R.
  Let inj := t_names _ _ _ T.

  Lemma ends_grouped : forall r d a b, rules r -> link_of r = Some (d, a, b) -> grouped R (d, a) /\ grouped R (d, b).
  Proof. intros r d a b I E. split; exists r, d, a, b; auto. Qed.
  Lemma grouped_names : forall x, grouped R x -> names x.
  Proof.
    intros x [r [d [a [b [I [E H]]]]]]. destruct (t_rule _ _ _ T r I) as [_ [d' [a' [b' [E' [A B]]]]]].
    rewrite E' in E. inversion E; subst. destruct H; subst; auto.
  Qed.
  Let f_refl : forall x, names x -> f (spell x) (spell x) = true := fun x H => proj1 (PO x x H H).
  Let f_apart : forall x y, names x -> names y -> f (spell x) (spell y) = true -> x = y \/ ~ grouped R x /\ grouped R y :=
    fun x y A B => proj2 (PO x y A B).
  Let keeps := keeps_links f names (grouped R).

  Definition ends_of (L : link -> Prop) (x : node) : Prop := exists d a b, L (d, a, b) /\ (x = (d, a) \/ x = (d, b)).

  Lemma add_links_m : forall rs r K L, keeps r K L -> Forall rules rs ->
    exists r', link_rules policy_add n r rs = (r', Ok tt) /\ max_level r' = max_level r /\
               keeps r' (fun x => K x \/ ends_of (links_of rs) x) (fun l => L l \/ links_of rs l).
  Proof.
    induction rs as [|ru rs IH]; intros r K L P F; simpl.
    - exists r. split; auto. split; auto. eapply kl_ext; [exact P| |].
      + intros x. split; auto. intros [H|[d [a [b [[y [[] _]] _]]]]]; auto.
      + intros l. split; auto. intros [H|[x [[] _]]]; auto.
    - inversion F; subst. destruct (t_rule _ _ _ T _ H1) as [_ [d [a [b [E [Na Nb]]]]]].
      rewrite (link_rule_args _ _ _ T policy_add r ru d a b H1 E).
      destruct (ends_grouped _ _ _ _ H1 E) as [Ga Gb].
      pose proof (kl_add f names (grouped R) inj grouped_names f_apart r K L d a b P Ga Gb) as P'.
      assert (O : snd (AddLink r a b (dom_arg d)) = Ok tt) by (unfold AddLink; rewrite dom_short; reflexivity).
      assert (ML : max_level (fst (AddLink r a b (dom_arg d))) = max_level r) by (apply (rrun_level r (RAdd d a b))).
      destruct (AddLink r a b (dom_arg d)) as [r1 out]. cbn [fst snd] in *. subst out.
      destruct (IH r1 _ _ P' H2) as [r' [E' [M' P'']]]. exists r'. rewrite E'. split; auto. split; [congruence|].
      eapply kl_ext; [exact P''| |].
      + intros x. simpl. split.
        * intros [[->|[->|H]]|[d' [a' [b' [[y [I H]] H']]]]]; auto; right.
          -- exists d, a, b. split; auto. exists ru. simpl. auto.
          -- exists d, a, b. split; auto. exists ru. simpl. auto.
          -- exists d', a', b'. split; auto. exists y. simpl. auto.
        * intros [H|[d' [a' [b' [[y [[<-|I] H]] H']]]]]; auto.
          -- rewrite E in H. inversion H; subst. left. tauto.
          -- right. exists d', a', b'. split; auto. exists y. auto.
      + intros l. simpl. split.
        * intros [[->|H]|[x [I H]]]; auto; right; [exists ru|exists x]; simpl; auto.
        * intros [H|[x [[<-|I] H]]]; auto; [|right; exists x; auto]. left. left. congruence.
  Qed.

  Lemma remove_links_m : forall rs r K L, keeps r K L -> Forall rules rs ->
    (forall ru d a b, In ru rs -> link_of ru = Some (d, a, b) -> K (d, a) /\ K (d, b)) ->
    exists r', link_rules policy_remove n r rs = (r', Ok tt) /\ max_level r' = max_level r /\
               keeps r' K (fun l => L l /\ ~ links_of rs l).
  Proof.
    induction rs as [|ru rs IH]; intros r K L P F KN; simpl.
    - exists r. split; auto. split; auto. eapply kl_ext; [exact P|tauto|]. intros l. split; [|tauto]. intros H. split; auto. intros [x [[] _]].
    - inversion F; subst. destruct (t_rule _ _ _ T _ H1) as [_ [d [a [b [E [Na Nb]]]]]].
      rewrite (link_rule_args _ _ _ T policy_remove r ru d a b H1 E).
      destruct (ends_grouped _ _ _ _ H1 E) as [Ga Gb].
      pose proof (kl_delete f names (grouped R) inj grouped_names f_refl f_apart r K L d a b P Ga Gb) as P'.
      assert (ML : max_level (fst (DeleteLink r a b (dom_arg d))) = max_level r) by (apply (rrun_level r (RDel d a b))).
      assert (O' : snd (DeleteLink r a b (dom_arg d)) = Ok tt).
      { destruct (KN ru d a b (or_introl eq_refl) E) as [A B]. unfold DeleteLink. rewrite dom_short, !prefixed_spell.
        apply (kl_HasRole_link f names (grouped R) inj grouped_names f_refl f_apart r K L _ P Ga) in A.
        apply (kl_HasRole_link f names (grouped R) inj grouped_names f_refl f_apart r K L _ P Gb) in B. rewrite A, B. reflexivity. }
      destruct (DeleteLink r a b (dom_arg d)) as [r1 out]. cbn [fst snd] in *. subst out.
      destruct (IH r1 _ _ P' H2) as [r' [E' [M' P'']]]. { intros x d' a' b' I. apply KN. simpl. auto. }
      exists r'. rewrite E'. split; auto. split; [congruence|].
      eapply kl_ext; [exact P''|tauto|]. intros l. simpl. split.
      + intros [[HL N] NL]. split; auto. intros [x [[<-|I] X]]; [congruence|]. apply NL. exists x. auto.
      + intros [HL N]. split; [split; auto|]; intro Y; apply N; [exists ru; subst; simpl; auto|]. destruct Y as [x [I X]]. exists x. simpl. auto.
  Qed.

  Lemma build_asts_m : forall todo h rm r K L, hget h rm = Ok r -> keeps r K L ->
    (forall k a, In (k, a) todo -> scount "_" (a_value a) = n /\ Forall rules (rules_of (a_policy a))) ->
    exists h' r', build_asts h rm todo = (map (fun kv => (fst kv, with_rm (snd kv) (Some rm))) todo, h', Ok tt) /\
      hget h' rm = Ok r' /\ max_level r' = max_level r /\
      keeps r' (fun x => K x \/ ends_of (links_in todo) x) (fun l => L l \/ links_in todo l).
  Proof.
    induction todo as [|[k a] rest IH]; intros h rm r K L H P W; simpl.
    - exists h, r. split; auto. split; auto. split; auto. eapply kl_ext; [exact P| |].
      + intros x. split; auto. intros [|[d [u [v [[k [a [[] _]]] _]]]]]; auto.
      + intros l. split; auto. intros [|[k [a [[] _]]]]; auto.
    - rewrite H. destruct (W k a (or_introl eq_refl)) as [W1 W2]. rewrite (ast_links_n _ _ _ T) by auto.
      destruct (add_links_m _ _ _ _ P W2) as [r1 [E1 [M1 P1]]]. rewrite E1.
      destruct (IH (hset h rm r1) rm r1 _ _ (hget_hset _ _ _ _ H) P1) as [h' [r' [E' [H' [M' P']]]]].
      { intros k0 a0 I. apply (W k0 a0). simpl. auto. }
      rewrite E'. exists h', r'. split; auto. split; auto. split; [congruence|].
      assert (LI : forall l, links_in ((k, a) :: rest) l <-> links_of (rules_of (a_policy a)) l \/ links_in rest l).
      { intros l. split.
        - intros [k0 [a0 [[I|I] X]]]; [inversion I; subst; auto|]. right. exists k0, a0. auto.
        - intros [X|[k0 [a0 [I X]]]]; [exists k, a|exists k0, a0]; simpl; auto. }
      eapply kl_ext; [exact P'| |].
      + intros x. unfold ends_of. split.
        * intros [[X|[d [u [v [Y Z]]]]]|[d [u [v [Y Z]]]]]; auto; right; exists d, u, v; rewrite LI; auto.
        * intros [X|[d [u [v [Y Z]]]]]; auto. rewrite LI in Y. destruct Y as [Y|Y]; [left; right|right]; exists d, u, v; auto.
      + intros l. rewrite LI. tauto.
  Qed.

  (** The role manager has exactly the links [L]; the grouping rules are in order. *)
  Record linked_m (lvl : nat) (K : node -> Prop) (L : link -> Prop) (e : enforcer) : Prop := mkLM {
    lm_rm : exists r, hget (e_heap e) (e_rm e) = Ok r /\ keeps r K L /\ max_level r = lvl;
    lm_ok : grouping_ok n rules e;
    lm_wired : wired e;
    lm_build : e_auto_build e = true;
    lm_calm : calm_adapter (e_adapter e) }.
  Definition mirror_m (lvl : nat) (e : enforcer) : Prop := linked_m lvl (listed_name e) (assigned e) e.

  Lemma linked_m_ext : forall lvl K K' L L' e, linked_m lvl K L e -> (forall x, K x <-> K' x) -> (forall l, L l <-> L' l) -> linked_m lvl K' L' e.
  Proof.
    intros lvl K K' L L' e [[r [H1 [H2 H3]]]] EK E. constructor; auto. exists r. split; auto. split; auto. eapply kl_ext; eauto.
  Qed.
  Lemma listed_ext : forall e e', (forall l, assigned e l <-> assigned e' l) -> forall x, listed_name e x <-> listed_name e' x.
  Proof. intros e e' H x. unfold listed_name. split; intros [d [a [b [A B]]]]; exists d, a, b; split; auto; apply H; auto. Qed.
  Lemma mirror_ext : forall lvl e0 e, linked_m lvl (listed_name e0) (assigned e0) e -> (forall l, assigned e0 l <-> assigned e l) -> mirror_m lvl e.
  Proof. intros lvl e0 e H E. unfold mirror_m. eapply linked_m_ext; eauto. apply listed_ext. auto. Qed.
  Lemma frame_linked_m : forall lvl K L e e', frame e e' -> linked_m lvl K L e -> linked_m lvl K L e'.
  Proof.
    intros lvl K L e e' [F1 FR F2 F3 F4] [[r [H1 [H2 H3]]] [O1 O2] W B C]. constructor; auto; try congruence.
    - exists r. rewrite F1. auto.
    - unfold asts in *. split; rewrite F2; auto.
    - unfold wired. rewrite F2, FR. auto.
  Qed.
  Lemma frame_mirror_m : forall lvl e e', frame e e' -> mirror_m lvl e -> mirror_m lvl e'.
  Proof. intros lvl e e' F M. eapply mirror_ext; [eapply frame_linked_m; eauto|]. apply frame_assigned. auto. Qed.

  (** Rebuilding puts everything in order. *)
  Lemma rebuild_any_m : forall e r, hget (e_heap e) (e_rm e) = Ok r -> matching r = Some f -> grouping_ok n rules e ->
    e_auto_build e = true -> calm_adapter (e_adapter e) ->
    exists e', e_BuildRoleLinks e = (e', Ok tt) /\ mirror_m (max_level r) e' /\ (forall pt, stored e' "g" pt = stored e "g" pt).
  Proof.
    intros e r H1 H2 [O1 O2] B C. unfold e_BuildRoleLinks. rewrite H1. unfold BuildRoleLinks.
    assert (TT : sec_of (touch (e_model e) "g") "g" = asts e).
    { unfold asts, sec_of, touch. rewrite aget_ainsert. simpl. destruct (aget "g" (e_model e)); auto. }
    rewrite TT.
    assert (RC : keeps (Clear r) (fun _ => False) (fun _ => False)).
    { unfold Clear, with_roles. rewrite H2. apply kl_empty. }
    destruct (build_asts_m (asts e) (hset (e_heap e) (e_rm e) (Clear r)) (e_rm e) (Clear r) _ _
                (hget_hset _ _ _ _ H1) RC) as [h' [r' [E' [H' [M' P']]]]].
    { intros k a I. apply (O2 k). apply In_aget; auto. }
    rewrite E'. eexists. split; [reflexivity|].
    assert (A1 : forall e', e_model e' = aset "g" (map (fun kv => (fst kv, with_rm (snd kv) (Some (e_rm e)))) (asts e)) (touch (e_model e) "g") ->
                 asts e' = map (fun kv => (fst kv, with_rm (snd kv) (Some (e_rm e)))) (asts e)).
    { intros e' X. unfold asts at 1. rewrite X. unfold sec_of. rewrite aget_aset_same. auto. }
    set (e' := set_heap h' (set_model (aset "g" (map (fun kv => (fst kv, with_rm (snd kv) (Some (e_rm e)))) (asts e)) (touch (e_model e) "g")) e)).
    specialize (A1 e' eq_refl).
    assert (G1 : forall pt, aget pt (asts e') = option_map (fun a => with_rm a (Some (e_rm e))) (aget pt (asts e))).
    { intros pt. rewrite A1. generalize (asts e). induction a as [|[k a] am IH]; simpl; auto. destruct (String.eqb pt k); auto. }
    assert (ST : forall pt, stored e' "g" pt = stored e "g" pt).
    { intros pt. rewrite !stored_asts_g, G1. destruct (aget pt (asts e)); auto. }
    assert (ND : NoDup (map fst (asts e'))).
    { rewrite A1, map_map. simpl. auto. }
    split; [|exact ST].
    assert (AS : forall l, links_in (asts e) l <-> assigned e' l).
    { intros l. rewrite <- assigned_asts by auto. exact (assigned_stored e e' ST l). }
    constructor; auto.
    - exists r'. split; [exact H'|]. split; [|rewrite M'; reflexivity]. eapply kl_ext; [exact P'| |].
      + intros x. unfold ends_of, listed_name. split.
        * intros [[]|[d [a [b [X Y]]]]]. exists d, a, b. split; auto. apply AS. auto.
        * intros [d [a [b [X Y]]]]. right. exists d, a, b. split; auto. apply AS. auto.
      + intros l. transitivity (links_in (asts e) l); [tauto|apply AS].
    - split; [exact ND|]. intros pt a X. fold (asts e') in X. rewrite G1 in X. destruct (aget pt (asts e)) as [a0|] eqn:Y; simpl in X; inversion X; subst.
        simpl. apply (O2 pt). auto.
    - intros pt a X. fold e' in X. rewrite G1 in X. destruct (aget pt (asts e)) as [a0|] eqn:Y; simpl in X; inversion X; subst. reflexivity.
  Qed.
  Lemma rebuild_mirror_m : forall lvl K L e, linked_m lvl K L e ->
    exists e', e_BuildRoleLinks e = (e', Ok tt) /\ mirror_m lvl e' /\ (forall pt, stored e' "g" pt = stored e "g" pt).
  Proof.
    intros lvl K L e [[r [H1 [H2 H3]]] O W B C]. subst lvl. apply rebuild_any_m; auto. apply H2.
  Qed.

  (** Incremental changes. *)
  Lemma incremental_m : forall op lvl K L e pt rs r a,
    linked_m lvl K L e -> hget (e_heap e) (e_rm e) = Ok r -> get_ast (e_model e) "g" pt = Ok a -> Forall rules rs ->
    forall r' K' L', link_rules op n r rs = (r', Ok tt) -> keeps r' K' L' -> max_level r' = lvl ->
    exists e', e_BuildIncrementalRoleLinks op pt rs e = (e', Ok tt) /\ linked_m lvl K' L' e' /\
               (forall q, stored e' "g" q = stored e "g" q) /\ declared e' "g" pt.
  Proof.
    intros op lvl K L e pt rs r a [RM OK W B C] H G F r' K' L' LR P ML. unfold e_BuildIncrementalRoleLinks, BuildIncrementalRoleLinks.
    simpl. rewrite G, H. destruct (proj2 OK pt a (get_asts _ _ _ G)) as [W1 W2]. rewrite (ast_links_n _ _ _ T) by auto. rewrite LR.
    set (m' := put_ast (e_model e) "g" pt (with_rm a (Some (e_rm e)))).
    exists (set_heap (hset (e_heap e) (e_rm e) r') (set_model m' e)). split; [reflexivity|]. split; [constructor; auto|].
    - exists r'. simpl. split; auto. eapply hget_hset; eauto.
    - eapply (ok_put _ _ _ T) with (pt := pt) (a := with_rm a (Some (e_rm e))); [reflexivity|auto|auto|auto].
    - unfold wired. rewrite (asts_put e pt (with_rm a (Some (e_rm e)))) by reflexivity. intros q b. rewrite aget_aset.
      destruct (String.eqb q pt); [|apply W]. intros X. inversion X. reflexivity.
    - split; [|exists (with_rm a (Some (e_rm e))); simpl; unfold m'; apply get_put_ast_same].
      intros q. rewrite (stored_put_g e pt (with_rm a (Some (e_rm e)))) by reflexivity.
      destruct (String.eqb_spec q pt); auto. subst. simpl. unfold stored, rules_in. rewrite G. auto.
  Qed.
  Lemma incremental_add_m : forall lvl K L e pt rs, linked_m lvl K L e -> declared e "g" pt -> Forall rules rs ->
    exists e', e_BuildIncrementalRoleLinks policy_add pt rs e = (e', Ok tt) /\
               linked_m lvl (fun x => K x \/ ends_of (links_of rs) x) (fun l => L l \/ links_of rs l) e' /\
               (forall q, stored e' "g" q = stored e "g" q) /\ declared e' "g" pt.
  Proof.
    intros lvl K L e pt rs LB [a G] F. destruct (lm_rm _ _ _ _ LB) as [r [H [P ML]]].
    destruct (add_links_m rs r K L P F) as [r' [LR [ML' P']]]. eapply incremental_m; eauto. congruence.
  Qed.
  Lemma incremental_remove_m : forall lvl K L e pt rs, linked_m lvl K L e -> declared e "g" pt -> Forall rules rs ->
    (forall r l, In r rs -> link_of r = Some l -> L l) ->
    exists e', e_BuildIncrementalRoleLinks policy_remove pt rs e = (e', Ok tt) /\ linked_m lvl K (fun l => L l /\ ~ links_of rs l) e' /\
               (forall q, stored e' "g" q = stored e "g" q) /\ declared e' "g" pt.
  Proof.
    intros lvl K L e pt rs LB [a G] F KN. destruct (lm_rm _ _ _ _ LB) as [r [H [P ML]]].
    destruct (remove_links_m rs r K L P F) as [r' [LR [ML' P']]].
    { intros ru d u v I E. apply (kl_known _ _ _ _ _ _ P). eapply KN; eauto. }
    eapply incremental_m; eauto. congruence.
  Qed.
  (** The new links are exactly those of the new rules. *)
  Lemma added_mirror : forall lvl e0 e rs, linked_m lvl (fun x => listed_name e0 x \/ ends_of (links_of rs) x) (fun l => assigned e0 l \/ links_of rs l) e ->
    (forall l, assigned e l <-> assigned e0 l \/ links_of rs l) -> mirror_m lvl e.
  Proof.
    intros lvl e0 e rs H E. unfold mirror_m. eapply linked_m_ext; [exact H| |intros l; symmetry; apply E].
    intros x. unfold listed_name, ends_of. split.
    - intros [[d [a [b [A B]]]]|[d [a [b [A B]]]]]; exists d, a, b; split; auto; apply E; auto.
    - intros [d [a [b [A B]]]]. apply E in A. destruct A; [left|right]; exists d, a, b; auto.
  Qed.

  Lemma edit_linked_m : forall lvl K L e pt a p, linked_m lvl K L e -> get_ast (e_model e) "g" pt = Ok a -> Forall rules (rules_of p) ->
    linked_m lvl K L (set_model (put_policy (e_model e) "g" pt a p) e) /\
    (forall q, stored (set_model (put_policy (e_model e) "g" pt a p) e) "g" q = if String.eqb q pt then rules_of p else stored e "g" q) /\
    declared (set_model (put_policy (e_model e) "g" pt a p) e) "g" pt.
  Proof.
    intros lvl K L e pt a p [RM OK W B C] G F. destruct (proj2 OK pt a (get_asts _ _ _ G)) as [W1 W2].
    split; [constructor; auto|split].
    - eapply (ok_put _ _ _ T) with (pt := pt) (a := with_policy a p); [reflexivity|auto|auto|auto].
    - unfold wired. rewrite (asts_put e pt (with_policy a p)) by reflexivity. intros q b. rewrite aget_aset.
      destruct (String.eqb q pt); [|apply W]. intros X. inversion X. simpl. apply (W pt). apply get_asts. auto.
    - intros q. apply (stored_put_g e pt (with_policy a p)). reflexivity.
    - exists (with_policy a p). simpl. apply get_put_ast_same.
  Qed.

  (** ** The calls *)
  Lemma ok_rules_m : forall lvl K L e pt a, linked_m lvl K L e -> get_ast (e_model e) "g" pt = Ok a -> Forall rules (rules_of (a_policy a)).
  Proof. intros lvl K L e pt a [_ [_ O] _ _ _] G. apply (O pt). apply get_asts. auto. Qed.

  Lemma step_add_many_m : forall (w : list rule -> acall) lvl e pt rs, mirror_m lvl e -> Forall rules rs ->
    forall prog, prog = (added <- on_model (fun m => AddPolicies m "g" pt rs) ;;
      if negb added then ret false
      else when_g "g" (e_BuildIncrementalRoleLinks policy_add pt rs) ;;; autosave (w rs) ;;; notify ;;; ret true) ->
    mirror_m lvl (fst (prog e)).
  Proof.
    intros w lvl e pt rs Mi F prog ->. unfold mbind at 1, on_model.
    assert (TAIL : forall e1, linked_m lvl (listed_name e) (assigned e) e1 -> (forall l, assigned e1 l <-> assigned e l \/ links_of rs l) ->
      (declared e1 "g" pt \/ e1 = e) ->
      mirror_m lvl (fst ((when_g "g" (e_BuildIncrementalRoleLinks policy_add pt rs) ;;; autosave (w rs) ;;; notify ;;; ret true) e1))).
    { intros e1 LB AS D. unfold when_g. simpl. unfold mbind at 1.
      destruct (declared_dec e1 pt) as [D1|D1].
      - destruct (incremental_add_m _ _ _ _ pt rs LB D1 F) as [e2 [-> [LB2 [S2 _]]]].
        eapply frame_mirror_m; [apply tail_frame|]. eapply added_mirror; [exact LB2|].
        intros l. rewrite <- AS. symmetry. apply assigned_stored. auto.
      - destruct (incremental_undeclared policy_add e1 pt rs D1) as [u ->]. simpl. destruct D; [tauto|]. subst. exact LB. }
    unfold AddPolicies. destruct rs as [|r0 rs0].
    - rewrite set_model_id. cbn [negb]. apply TAIL; auto. intros l. split; auto. intros [|[x [[] _]]]; auto.
    - destruct (get_ast_cases (e_model e) "g" pt) as [[a G]|G]; rewrite G; cbn [bind]; [|exact Mi].
      destruct (existsb (has_rule (rules_of (a_policy a))) (r0 :: rs0)) eqn:X.
      + rewrite set_model_id. exact Mi.
      + cbn [negb]. pose proof (ok_rules_m _ _ _ _ _ _ Mi G) as FR.
        assert (FE : Forall rules (rules_of (fold_left emplace (r0 :: rs0) (a_policy a)))).
        { rewrite Forall_forall in *. intros x I. apply fold_emplace_in in I. destruct I; auto. }
        destruct (edit_linked_m _ _ _ _ _ _ _ Mi G FE) as [LB [S D]]. apply TAIL; auto.
        eapply assigned_edit; [exact S|]. intros x. rewrite fold_emplace_in. unfold stored. rewrite (rules_in_get _ _ _ _ G). tauto.
  Qed.

  Lemma step_add_m : forall lvl e pt r, mirror_m lvl e -> rules r ->
    mirror_m lvl (fst (i_addPolicy "g" pt r e)) /\
    (forall b, snd (i_addPolicy "g" pt r e) = Ok b -> declared (fst (i_addPolicy "g" pt r e)) "g" pt /\ In r (stored (fst (i_addPolicy "g" pt r e)) "g" pt)).
  Proof.
    intros lvl e pt r Mi Rr.
    assert (A2 : forall b, snd (i_addPolicy "g" pt r e) = Ok b ->
      declared (fst (i_addPolicy "g" pt r e)) "g" pt /\ In r (stored (fst (i_addPolicy "g" pt r e)) "g" pt)).
    { intros b O. pose proof (edit_add "g" pt r e) as AE. unfold after_edit, AddPolicy in AE.
      destruct (get_ast_cases (e_model e) "g" pt) as [[a G]|G]; rewrite G in AE; cbn [bind] in AE; [|rewrite AE in O; discriminate].
      pose proof (ok_rules_m _ _ _ _ _ _ Mi G) as FR.
      destruct (has_rule (rules_of (a_policy a)) r) eqn:X; destruct AE as [S _].
      - rewrite (stored_asts _ _ _ _ _ S), (rules_in_get _ _ _ _ G), <- has_rule_in by (apply (rules_no_anagram _ _ _ T); auto).
        split; auto. apply (same_asts_declared _ _ _ _ S). exists a. auto.
      - rewrite (stored_asts _ _ _ _ _ S), rules_in_put, emplace_in. split; auto.
        apply (same_asts_declared _ _ _ _ S). eexists. simpl. apply get_put_ast_same. }
    split; auto. clear A2. unfold i_addPolicy. unfold mbind at 1, on_model, AddPolicy.
    destruct (get_ast_cases (e_model e) "g" pt) as [[a G]|G]; rewrite G; cbn [bind]; [|exact Mi].
    destruct (has_rule (rules_of (a_policy a)) r) eqn:X. { rewrite set_model_id. exact Mi. }
    cbn [negb]. pose proof (ok_rules_m _ _ _ _ _ _ Mi G) as FR.
    assert (FE : Forall rules (rules_of (emplace (a_policy a) r))).
    { rewrite Forall_forall in *. intros x I. apply emplace_in in I. destruct I; subst; auto. }
    destruct (edit_linked_m _ _ _ _ _ _ _ Mi G FE) as [LB [S D]].
    unfold when_g. simpl. unfold mbind at 1.
    destruct (incremental_add_m _ _ _ _ pt [r] LB D) as [e2 [-> [LB2 [S2 _]]]]; auto.
    eapply frame_mirror_m; [apply tail_frame|]. eapply added_mirror; [exact LB2|].
    intros l. rewrite <- (assigned_stored _ _ S2 l). eapply assigned_edit; [exact S|].
    intros x. rewrite emplace_in. unfold stored. rewrite (rules_in_get _ _ _ _ G). simpl. intuition.
  Qed.
  Lemma step_add_grouping_m : forall lvl e pt r, mirror_m lvl e -> rules r -> mirror_m lvl (fst (AddNamedGroupingPolicy pt r e)).
  Proof.
    intros lvl e pt r Mi Rr. unfold AddNamedGroupingPolicy. unfold mbind at 1. destruct (step_add_m lvl e pt r Mi Rr) as [M1 A].
    destruct (i_addPolicy "g" pt r e) as [e1 [b|x|u]]; simpl in *; auto. destruct (A b eq_refl) as [D I].
    unfold mbind. rewrite (lm_build _ _ _ _ M1). destruct (incremental_add_m _ _ _ _ pt [r] M1 D) as [e2 [-> [LB2 [S2 _]]]]; auto.
    simpl. eapply added_mirror; [exact LB2|]. intros l. rewrite <- (assigned_stored _ _ S2 l). split; auto.
    intros [H|[x [[<-|[]] E]]]; auto. exists pt, r. auto.
  Qed.
  Lemma rebuild_if_m : forall lvl K L e, linked_m lvl K L e -> mirror_m lvl (fst (rebuild_if_auto e)).
  Proof.
    intros lvl K L e LB. unfold rebuild_if_auto. rewrite (lm_build _ _ _ _ LB). destruct (rebuild_mirror_m _ _ _ _ LB) as [e' [-> [M' _]]]. auto.
  Qed.

  Lemma step_remove_grouping_m : forall lvl e pt r, mirror_m lvl e -> rules r -> mirror_m lvl (fst (RemoveNamedGroupingPolicy pt r e)).
  Proof.
    intros lvl e pt r Mi Rr. unfold RemoveNamedGroupingPolicy.
    assert (H : (exists u, i_removePolicy "g" pt r e = (e, UB u)) \/
                (exists e1 b K L, i_removePolicy "g" pt r e = (e1, Ok b) /\ linked_m lvl K L e1)).
    { remember (i_removePolicy "g" pt r e) as q eqn:Q. unfold i_removePolicy in Q. unfold mbind at 1, on_model, RemovePolicy in Q.
      destruct (get_ast_cases (e_model e) "g" pt) as [[a G]|G]; rewrite G in Q; cbn [bind] in Q; [|subst q; eauto].
      right. pose proof (ok_rules_m _ _ _ _ _ _ Mi G) as FR.
      destruct (erase_first r (rules_of (a_policy a))) as [l|] eqn:X.
      2:{ rewrite set_model_id in Q. subst q. exists e, false, (listed_name e), (assigned e). auto. }
      assert (FE : Forall rules (rules_of (with_rules (a_policy a) l))).
      { rewrite rules_with. rewrite Forall_forall in *. intros x I. apply erase_first_some in X.
        destruct X as [pre [y [post [E1 [E2 _]]]]]. apply FR. subst l. rewrite E1. rewrite in_app_iff in *. simpl. tauto. }
      destruct (edit_linked_m _ _ _ _ _ _ _ Mi G FE) as [LB [S D]]. cbn [negb] in Q.
      unfold when_g in Q. simpl in Q. unfold mbind at 1 in Q.
      destruct (incremental_add_m _ _ _ _ pt [r] LB D) as [e2 [IA [LB2 [S2 _]]]]; auto. rewrite IA in Q.
      pose proof (tail_frame (CRemove "g" pt r) e2) as TF. pose proof (tail_ok (CRemove "g" pt r) e2 (lm_calm _ _ _ _ LB2) eq_refl) as TO.
      destruct ((autosave (CRemove "g" pt r) ;;; notify ;;; ret true) e2) as [e3 out]. simpl in *. subst out.
      subst q. eexists e3, true, _, _. split; [reflexivity|]. eapply frame_linked_m; eauto. }
    unfold mbind at 1. destruct H as [[u ->]|[e1 [b [K [L [-> LB]]]]]]. { exact Mi. }
    pose proof (rebuild_if_m _ _ _ _ LB) as RB. unfold mbind. destruct (rebuild_if_auto e1) as [e2 [x|x|x]]; auto.
  Qed.
  Lemma step_remove_filtered_grouping_m : forall lvl e pt i vals, mirror_m lvl e -> mirror_m lvl (fst (RemoveFilteredNamedGroupingPolicy pt i vals e)).
  Proof.
    intros lvl e pt i vals Mi. unfold RemoveFilteredNamedGroupingPolicy.
    assert (H : (exists u, i_removeFilteredPolicy "g" pt i vals e = (e, u) /\ forall b, u <> Ok b) \/
                (exists e1 b K L, i_removeFilteredPolicy "g" pt i vals e = (e1, Ok b) /\ linked_m lvl K L e1)).
    { remember (i_removeFilteredPolicy "g" pt i vals e) as q eqn:Q. unfold i_removeFilteredPolicy in Q. unfold mbind at 1, on_model, RemoveFilteredPolicy in Q.
      destruct (get_ast_cases (e_model e) "g" pt) as [[a G]|G]; rewrite G in Q; cbn [bind] in Q.
      2:{ left. subst q. eexists. split; [reflexivity|]. discriminate. }
      destruct (partition_rules i vals (rules_of (a_policy a))) as [[eff tmp]|t|u] eqn:P; cbn [bind] in Q;
        try (left; subst q; eexists; split; [reflexivity|]; discriminate).
      right. pose proof (ok_rules_m _ _ _ _ _ _ Mi G) as FR. rewrite Forall_forall in FR.
      assert (FE : Forall rules tmp) by (rewrite Forall_forall; intros x I; apply FR; eapply partition_effects; eauto).
      assert (FF : Forall rules eff) by (rewrite Forall_forall; intros x I; apply FR; eapply partition_effects; eauto).
      destruct (edit_linked_m _ _ _ _ _ _ (Vec tmp) Mi G FE) as [LB [S D]]. destruct eff as [|x0 eff]. { cbn in Q. subst q. eexists _, false, _, _. split; [reflexivity|exact LB]. }
      cbn [negb] in Q. unfold when_g in Q. simpl in Q. unfold mbind at 1 in Q.
      destruct (incremental_remove_m _ _ _ _ pt (x0 :: eff) LB D FF) as [e2 [IA [LB2 [S2 _]]]].
      { intros x l I E. exists pt, x. split; auto. unfold stored. rewrite (rules_in_get _ _ _ _ G). eapply partition_effects; eauto. }
      rewrite IA in Q. set (c := CRemoveFiltered "g" pt i vals).
      fold c in Q. pose proof (tail_frame c e2) as TF. pose proof (tail_ok c e2 (lm_calm _ _ _ _ LB2) eq_refl) as TO.
      destruct ((autosave c ;;; notify ;;; ret true) e2) as [e3 out]. simpl in *. subst out.
      subst q. eexists e3, true, _, _. split; [reflexivity|]. eapply frame_linked_m; eauto. }
    unfold mbind at 1. destruct H as [[u [-> N]]|[e1 [b [K [L [-> LB]]]]]].
    { destruct u; [exfalso; eapply N; eauto|exact Mi|exact Mi]. }
    pose proof (rebuild_if_m _ _ _ _ LB) as RB. unfold mbind. destruct (rebuild_if_auto e1) as [e2 [x|x|x]]; auto.
  Qed.

  Section Mirror.
    Variable lvl : nat.
    Definition MM (e e' : enforcer) : Prop := mirror_m lvl e -> mirror_m lvl e'.
    Lemma MM_refl : forall e, MM e e.
    Proof. intros e H. exact H. Qed.
    Lemma MM_trans : forall a b c, MM a b -> MM b c -> MM a c.
    Proof. unfold MM. auto. Qed.
    Lemma MM_frame : forall A (c : M A), P_History.keeps frame c -> P_History.keeps MM c.
    Proof. intros A c H e. unfold MM. apply frame_mirror_m. apply H. Qed.

    Lemma MM_GetRoles : forall i name ds, match ds with [] => names (None, name) | [d] => names (Some d, name) | _ => True end ->
      P_History.keeps MM (rm_GetRoles i name ds).
    Proof.
      intros i name ds N e Mi. destruct Mi as [[r [H [P ML]]] O W B C] eqn:EM. clear EM.
      destruct (Nat.eq_dec i (e_rm e)) as [->|NE].
      - unfold rm_GetRoles. rewrite H. destruct (GetRoles r name ds) as [r2 out] eqn:G. cbn [fst].
        assert (P2 : keeps r2 (listed_name e) (assigned e) /\ max_level r2 = max_level r).
        { replace r2 with (fst (GetRoles r name ds)) by (rewrite G; reflexivity). unfold GetRoles.
          destruct ds as [|d [|d' ds]]; simpl; auto.
          - destruct (HasRole r name) eqn:HR; simpl; auto. rewrite create_level. split; auto.
            apply (kl_ask f names (grouped R) inj grouped_names f_refl f_apart r _ _ (None, name) P N HR).
          - destruct (HasRole r (d ++ String ":" (String ":" name))%string) eqn:HR; simpl; auto. rewrite create_level. split; auto.
            apply (kl_ask f names (grouped R) inj grouped_names f_refl f_apart r _ _ (Some d, name) P N HR). }
        destruct P2 as [P2 M2]. constructor; auto.
        + exists r2. simpl. split; [eapply hget_hset; eauto|]. split; auto. congruence.
      - unfold rm_GetRoles. destruct (hget (e_heap e) i) as [r'|t|u]; [|constructor; eauto|constructor; eauto].
        destruct (GetRoles r' name ds) as [r2 out]. simpl. eapply frame_mirror_m with (e := e).
        + constructor; auto. simpl. apply hget_hset_other. auto.
        + constructor; eauto.
    Qed.
    Lemma MM_add_roles : forall user roles b, Forall (fun r => rules [user; r]) roles -> P_History.keeps MM (add_roles user roles b).
    Proof.
      induction roles as [|r rs IH]; simpl; intros b F. { apply keeps_ret; exact MM_refl. }
      inversion F; subst. apply keeps_bind; [exact MM_trans| |auto].
      intros e Mi. apply step_add_grouping_m; auto.
    Qed.

    Lemma run_mirror_m : forall o c, safe_call rules c -> asks_names names c -> P_History.keeps MM (run o c).
    Proof.
      intros o c S N. destruct c; simpl in S, N |- *; try tauto; try (apply keeps_drop; [exact MM_refl|exact MM_trans|]).
      - apply MM_frame, frame_add.
      - apply MM_frame, frame_add_many.
      - apply MM_frame, frame_remove.
      - apply MM_frame, frame_remove_many.
      - apply MM_frame, frame_remove_filtered.
      - apply MM_frame, frame_update.
      - apply MM_frame, frame_update_many.
      - intros e Mi. apply step_add_grouping_m; auto.
      - intros e Mi. eapply (step_add_many_m (CAddMany "g" pt)); eauto. reflexivity.
      - intros e Mi. apply step_remove_grouping_m; auto.
      - intros e Mi. eapply (step_add_many_m (CRemoveMany "g" pt)); eauto. reflexivity.
      - intros e Mi. apply step_remove_filtered_grouping_m; auto.
      - apply MM_add_roles; auto.
      - apply keeps_bind; [exact MM_trans|intros e Mi; apply step_remove_filtered_grouping_m; auto|]. intros.
        apply keeps_bind; [exact MM_trans|apply MM_frame, frame_remove_filtered|]. intros. apply keeps_ret. exact MM_refl.
      - apply keeps_bind; [exact MM_trans|intros e Mi; apply step_remove_filtered_grouping_m; auto|]. intros.
        apply keeps_bind; [exact MM_trans|apply MM_frame, frame_remove_filtered|]. intros. apply keeps_ret. exact MM_refl.
      - apply MM_frame, frame_all_types.
      - intros e. unfold GetRolesForUser. destruct (g_rm e); try apply MM_refl. apply MM_GetRoles. auto.
      - apply MM_frame, frame_implicit_users.
      - apply MM_frame, frame_enforce.
      - apply MM_frame, frame_enforceMap.
      - apply MM_frame, frame_batch.
      - apply MM_frame, frame_save.
      - intros e Mi. destruct (rebuild_mirror_m _ _ _ _ Mi) as [e' [-> [M' _]]]. exact M'.
      - intros e Mi. eapply frame_mirror_m; [|exact Mi]. constructor; auto.
      - intros e Mi. eapply frame_mirror_m; [|exact Mi]. constructor; auto.
      - intros e Mi. eapply frame_mirror_m; [|exact Mi]. constructor; auto.
      - subst b. intros e Mi. eapply frame_mirror_m; [|exact Mi]. constructor; auto. simpl. symmetry. apply Mi.
      - intros e Mi. eapply frame_mirror_m; [|exact Mi]. constructor; auto.
      - intros e Mi. eapply frame_mirror_m; [|exact Mi]. constructor; auto.
      - intros e Mi. eapply frame_mirror_m; [|exact Mi]. constructor; auto.
    Qed.
  End Mirror.

  Lemma mirror_m_level : forall lvl e, mirror_m lvl e -> level_of e = lvl.
  Proof. intros lvl e [[r [H [_ L]]] _ _ _ _]. unfold level_of. rewrite H. auto. Qed.
  Lemma matched_mirror : forall o e, matched o f names n R e -> mirror_m (level_of e) e.
  Proof.
    intros o e H. assert (X : exists lvl, mirror_m lvl e).
    { induction H.
      - destruct H as [r [H H']]. destruct (rebuild_any_m e r H H' H2 H0 H1) as [e2 [E [M2 _]]]. rewrite H3 in E. inversion E; subst. eauto.
      - destruct H as [r [H H']]. unfold LoadPolicy, mbind in H2. simpl in H2.
        assert (PRE : forall e1 out, adapter_load (set_model (ClearPolicy (e_model e)) e) = (e1, out) ->
          e_heap e1 = e_heap e /\ e_rm e1 = e_rm e /\ e_auto_build e1 = e_auto_build e /\ calm_adapter (e_adapter e1)).
        { intros e1 out X. unfold adapter_load in X. simpl in X. destruct (e_adapter e) as [[b p|l|p fd|u]|] eqn:A.
          - destruct (FileAdapter_LoadPolicy (e_fs e) p (ClearPolicy (e_model e))). inversion X; subst. simpl. rewrite ?A. auto.
          - destruct (StringAdapter_LoadPolicy l (ClearPolicy (e_model e))). inversion X; subst. simpl. rewrite ?A. auto.
          - destruct (Filtered_LoadPolicy (e_fs e) p (ClearPolicy (e_model e))) as [[fd' m] out']. inversion X; subst. simpl. auto.
          - destruct (ua_load u (ua_log u)) as [lines ex]. destruct (load_lines lines (ClearPolicy (e_model e))) as [m [y|y|y]]; inversion X; subst; simpl; rewrite ?A; auto.
          - inversion X; subst. simpl. rewrite A. auto. }
        destruct (adapter_load (set_model (ClearPolicy (e_model e)) e)) as [e1 [x|x|x]] eqn:E; try discriminate.
        destruct (PRE e1 _ eq_refl) as [P1 [P2 [P3 P4]]]. unfold rebuild_if_auto in H2. rewrite P3, H0 in H2.
        destruct (rebuild_any_m e1 r) as [e2 [E2 [M2 _]]]; auto; try congruence.
        + eapply rebuild_ok_inv; eauto.
        + rewrite H2 in E2. inversion E2; subst. eauto.
      - destruct IHmatched as [lvl IH]. exists lvl. pose proof (run_mirror_m lvl o c H0 H1 e IH) as K. rewrite H2 in K. exact K. }
    destruct X as [lvl M]. rewrite (mirror_m_level _ _ M). auto.
  Qed.
  Lemma matched_answer : forall o e d a b, matched o f names n R e -> names (d, a) -> names (d, b) ->
    exists rm v, hget (e_heap e) (e_rm e) = Ok rm /\ snd (HasLink rm a b (dom_arg d)) = Ok v /\
      (v = true <-> inherits_by f (listed_name e) (assigned e) d (level_of e) a b).
  Proof.
    intros o e d a b M Na Nb. destruct (matched_mirror o e M) as [[r [H [P ML]]] _ _ _ _].
    destruct (kl_HasLink f names (grouped R) inj (grouped_dec R) grouped_names f_refl f_apart r _ _ d a b P Na Nb) as [v [E V]].
    exists r, v. rewrite ML in V. auto.
  Qed.
End Links.
