(** The role manager implements the set of links. *)
From Verif Require Import Base P_Base M_RoleManager S_Roles.

Lemma prefixed_spell : forall d n, prefixed (dom_arg d) n = spell (d, n).
Proof. intros [d|] n; reflexivity. Qed.
Lemma dom_short : forall d, Nat.ltb 1 (List.length (dom_arg d)) = false.
Proof. intros [d|]; reflexivity. Qed.

Lemma roles_of_ainsert : forall g n k, roles_of (ainsert n [] g) k = roles_of g k.
Proof.
  intros. unfold roles_of. rewrite aget_ainsert. seqb k n; auto. subst. destruct (aget n g); auto.
Qed.
Lemma roles_of_aset : forall g n l k, roles_of (aset n l g) k = if String.eqb k n then l else roles_of g k.
Proof. intros. unfold roles_of. rewrite aget_aset. destruct (String.eqb k n); auto. Qed.
Lemma Role_AddRole_in : forall l x y, In y (Role_AddRole l x) <-> y = x \/ In y l.
Proof.
  intros. unfold Role_AddRole. destruct (existsb (fun z => String.eqb z x) l) eqn:E.
  - apply existsb_eqb_true in E. split; [tauto|]. intros [->|]; auto.
  - rewrite in_app_iff. simpl. intuition.
Qed.
Lemma Role_AddRole_nodup : forall l x, NoDup l -> NoDup (Role_AddRole l x).
Proof.
  intros. unfold Role_AddRole. destruct (existsb (fun z => String.eqb z x) l) eqn:E; auto.
  apply NoDup_app; auto. { repeat constructor. simpl. tauto. }
  intros y I [<-|[]]. assert (existsb (fun z => String.eqb z x) l = true); [|congruence]. apply existsb_eqb_true. auto.
Qed.
Lemma Role_DeleteRole_notin : forall n l x, List.length l <= n -> ~ In x l -> Role_DeleteRole l x = l.
Proof.
  induction n; intros [|y l] x L N; simpl in *; auto; try lia.
  destruct (String.eqb_spec y x) as [->|V]; [tauto|]. rewrite IHn; auto. lia.
Qed.
Lemma Role_DeleteRole_in : forall l x y, NoDup l -> (In y (Role_DeleteRole l x) <-> In y l /\ y <> x).
Proof.
  induction l as [|z l IH]; intros x y N; simpl; [tauto|]. inversion N; subst.
  destruct (String.eqb_spec z x) as [->|V].
  - destruct l as [|w ws]. { simpl. split; [tauto|]. intros [[->|[]] C]; tauto. }
    assert (~ In x ws) by (simpl in H1; tauto). rewrite (Role_DeleteRole_notin (List.length ws)) by auto.
    simpl. split.
    + intros [<-|I]; split; auto; intros ->; simpl in H1; tauto.
    + intros [[->|I] C]; tauto.
  - simpl. rewrite IH by auto. split; [intros [<-|[I C]]; auto|intros [[->|I] C]; auto].
Qed.
Lemma Role_DeleteRole_nodup : forall l x, NoDup l -> NoDup (Role_DeleteRole l x).
Proof.
  induction l as [|z l IH]; intros x N; simpl; [constructor|]. inversion N; subst.
  destruct (String.eqb_spec z x) as [->|V].
  - destruct l as [|w ws]. { constructor. }
    assert (~ In x ws) by (simpl in H1; tauto). rewrite (Role_DeleteRole_notin (List.length ws)) by auto. auto.
  - constructor; auto. rewrite Role_DeleteRole_in by auto. tauto.
Qed.

Lemma spell_same_dom : forall d a b, spell (d, a) = spell (d, b) -> a = b.
Proof. intros [d|] a b H; simpl in H; auto. apply app_inj_s in H. inversion H. auto. Qed.

Local Arguments spell : simpl never.
(** [M] holds the names in play, no two of which are spelled alike. *)
Section Inv.
  Variable M : node -> Prop.
  Hypothesis M_inj : forall n1 n2, M n1 -> M n2 -> spell n1 = spell n2 -> n1 = n2.

  Record represents (r : role_manager) (L : link -> Prop) : Prop := mkRep {
    rep_plain : matching r = None;
    rep_keys : NoDup (map fst (all_roles r));
    rep_key : forall k, In k (map fst (all_roles r)) -> exists n, M n /\ k = spell n;
    rep_sound : forall k x, In x (roles_of (all_roles r) k) ->
      exists d a b, k = spell (d, a) /\ x = spell (d, b) /\ L (d, a, b);
    rep_complete : forall d a b, L (d, a, b) -> In (spell (d, b)) (roles_of (all_roles r) (spell (d, a)));
    rep_named : forall d a b, L (d, a, b) -> M (d, a) /\ M (d, b);
    rep_known : forall d a b, L (d, a, b) -> ahas (spell (d, a)) (all_roles r) = true /\ ahas (spell (d, b)) (all_roles r) = true;
    rep_nodup : forall k, NoDup (roles_of (all_roles r) k) }.

  Lemma rep_ext : forall r L L', represents r L -> (forall l, L l <-> L' l) -> represents r L'.
  Proof.
    intros r L L' [] E. constructor; auto.
    - intros k x I. destruct (rep_sound0 k x I) as [d [a [b [H1 [H2 H3]]]]]. exists d, a, b. rewrite <- E. auto.
    - intros. apply rep_complete0, E, H.
    - intros. apply (rep_named0 d a b), E, H.
    - intros. apply (rep_known0 d a b), E, H.
  Qed.

  Lemma rep_create : forall r L n, represents r L -> M n -> represents (CreateRole r (spell n)) L.
  Proof.
    intros r L n [] Mn. unfold CreateRole. rewrite rep_plain0. constructor; cbn [all_roles with_roles matching Clear new_rm map aget]; auto.
    - apply NoDup_keys_ainsert. auto.
    - intros k. rewrite keys_ainsert. destruct (ahas (spell n) (all_roles r)); auto.
      rewrite in_app_iff. simpl. intros [I|[<-|[]]]; eauto.
    - intros k x. rewrite roles_of_ainsert. auto.
    - intros d a b H. rewrite roles_of_ainsert. apply (rep_complete0 d a b H).
    - intros d a b H. destruct (rep_known0 d a b H) as [A B]. unfold ahas in *. rewrite !aget_ainsert.
      destruct (String.eqb (spell (d, a)) (spell n)), (String.eqb (spell (d, b)) (spell n)); split; auto;
        destruct (aget (spell n) (all_roles r)); auto.
    - intros k. rewrite roles_of_ainsert. auto.
  Qed.
  Lemma create_has : forall r n, ahas n (all_roles (CreateRole r n)) = true \/ matching r <> None.
  Proof.
    intros. unfold CreateRole. destruct (matching r); [right; discriminate|left]. simpl.
    unfold ahas. rewrite aget_ainsert, eqb_refl_s. destruct (aget n (all_roles r)); auto.
  Qed.
  Lemma create_plain : forall r n, matching (CreateRole r n) = matching r.
  Proof. intros. unfold CreateRole. destruct (matching r) eqn:E; simpl; auto. Qed.
  Lemma create_level : forall r n, max_level (CreateRole r n) = max_level r.
  Proof. intros. unfold CreateRole. destruct (matching r) eqn:E; simpl; auto. Qed.
  Lemma create_roles : forall r n k, matching r = None -> roles_of (all_roles (CreateRole r n)) k = roles_of (all_roles r) k.
  Proof. intros. unfold CreateRole. rewrite H. simpl. apply roles_of_ainsert. Qed.
  Lemma create_mono : forall r n k, matching r = None -> ahas k (all_roles r) = true -> ahas k (all_roles (CreateRole r n)) = true.
  Proof.
    intros. unfold CreateRole. rewrite H. simpl. unfold ahas in *. rewrite aget_ainsert.
    destruct (String.eqb k n); auto. destruct (aget n (all_roles r)); auto.
  Qed.

  (** Changing the roles of one known name. *)
  Lemma rep_aset : forall r L d a l L', represents r L -> M (d, a) -> NoDup l ->
    ahas (spell (d, a)) (all_roles r) = true ->
    (forall b, L' (d, a, b) <-> exists x, In x l /\ x = spell (d, b) /\ M (d, b)) ->
    (forall x, In x l -> exists b, x = spell (d, b) /\ M (d, b) /\ ahas x (all_roles r) = true) ->
    (forall d' a' b', (d', a') <> (d, a) -> (L' (d', a', b') <-> L (d', a', b'))) ->
    represents (with_roles r (aset (spell (d, a)) l (all_roles r))) L'.
  Proof.
    intros r L d a l L' [] Ma NDl Ka HL HB HO. constructor; cbn [all_roles with_roles matching Clear new_rm map aget]; auto.
    - apply NoDup_keys_aset. auto.
    - intros k. rewrite keys_aset_in. intros [->|I]; eauto.
    - intros k x. rewrite roles_of_aset. destruct (String.eqb_spec k (spell (d, a))) as [->|V].
      + intros I. destruct (HB x I) as [b [Hx [Mb _]]]. exists d, a, b. repeat split; auto. apply HL. eauto.
      + intros I. destruct (rep_sound0 k x I) as [d' [a' [b' [H1 [H2 H3]]]]]. exists d', a', b'. repeat split; auto.
        apply HO; auto. intros E. inversion E; subst. tauto.
    - intros d' a' b' H. rewrite roles_of_aset. destruct (String.eqb_spec (spell (d', a')) (spell (d, a))) as [V|V].
      + assert (C : (d', a') = (d, a) \/ (d', a') <> (d, a)).
        { destruct d' as [x|], d as [y|]; try (right; congruence);
            destruct (string_dec a' a); try (right; congruence); subst; auto.
          destruct (string_dec x y); [left|right]; congruence. }
        destruct C as [C|C].
        * inversion C; subst. apply HL in H. destruct H as [x [I [-> _]]]. auto.
        * exfalso. apply C. apply M_inj; auto. apply HO in H; [|exact C || congruence]. apply (rep_named0 _ _ _ H).
      + apply rep_complete0. apply HO in H; [|exact C || congruence]. congruence.
    - intros d' a' b' H.
      assert (C : (d', a') = (d, a) \/ (d', a') <> (d, a)).
      { destruct d' as [x|], d as [y|]; try (right; congruence);
          destruct (string_dec a' a); try (right; congruence); subst; auto.
        destruct (string_dec x y); [left|right]; congruence. }
      destruct C as [C|C].
      + inversion C; subst. split; auto. apply HL in H. destruct H as [x [_ [_ Mb]]]. auto.
      + apply HO in H; [|exact C || congruence]. apply (rep_named0 _ _ _ H).
    - intros d' a' b' H. rewrite !ahas_aset.
      assert (C : (d', a') = (d, a) \/ (d', a') <> (d, a)).
      { destruct d' as [x|], d as [y|]; try (right; congruence);
          destruct (string_dec a' a); try (right; congruence); subst; auto.
        destruct (string_dec x y); [left|right]; congruence. }
      destruct C as [C|C].
      + inversion C; subst. rewrite eqb_refl_s. split; auto. apply HL in H. destruct H as [x [I [-> _]]].
        destruct (HB _ I) as [b [Hx [_ K]]]. rewrite K. apply orb_true_r.
      + apply HO in H; [|exact C || congruence]. destruct (rep_known0 _ _ _ H) as [A B]. rewrite A, B, !orb_true_r. auto.
    - intros k. rewrite roles_of_aset. destruct (String.eqb k (spell (d, a))); auto.
  Qed.

  Lemma rep_add : forall r L d a b, represents r L -> M (d, a) -> M (d, b) ->
    represents (fst (AddLink r a b (dom_arg d))) (links_step L (RAdd d a b)) /\ snd (AddLink r a b (dom_arg d)) = Ok tt.
  Proof.
    intros r L d a b R Ma Mb. unfold AddLink. rewrite dom_short, !prefixed_spell. simpl. split; auto.
    pose proof (rep_create _ _ _ R Ma) as R1. pose proof (rep_create _ _ _ R1 Mb) as R2.
    set (r1 := CreateRole r (spell (d, a))) in *. set (r2 := CreateRole r1 (spell (d, b))) in *.
    assert (P1 : matching r1 = None) by (unfold r1; rewrite create_plain; apply R).
    assert (Kb : ahas (spell (d, b)) (all_roles r2) = true)
      by (destruct (create_has r1 (spell (d, b))); [auto|congruence]).
    assert (Ka : ahas (spell (d, a)) (all_roles r2) = true).
    { apply create_mono; auto. destruct (create_has r (spell (d, a))); auto. exfalso. apply H. apply R. }
    change (all_roles (with_roles ?x ?y)) with y.
    apply rep_aset with (L := L); auto.
    - apply Role_AddRole_nodup. apply R2.
    - intros b'. simpl. split.
      + intros [E|H].
        * inversion E; subst. exists (spell (d, b)). rewrite Role_AddRole_in. auto.
        * exists (spell (d, b')). rewrite Role_AddRole_in. split; [right; apply R2; auto|]. split; auto. apply (rep_named _ _ R _ _ _ H).
      + intros [x [I [-> Mb']]]. rewrite Role_AddRole_in in I. destruct I as [E|I].
        * left. assert ((d, b') = (d, b)) by (apply M_inj; auto). congruence.
        * right. destruct (rep_sound _ _ R2 _ _ I) as [d1 [a1 [b1 [E1 [E2 H]]]]].
          destruct (rep_named _ _ R2 _ _ _ H) as [M1 M2].
          apply M_inj in E1; auto. apply M_inj in E2; auto. congruence.
    - intros x I. rewrite Role_AddRole_in in I. destruct I as [->|I]; [eauto|].
      destruct (rep_sound _ _ R2 _ _ I) as [d1 [a1 [b1 [E1 [-> H]]]]].
      destruct (rep_named _ _ R2 _ _ _ H) as [M1 M2]. apply M_inj in E1; auto. inversion E1; subst.
      exists b1. split; auto. split; auto. apply (rep_known _ _ R2 _ _ _ H).
    - intros d' a' b' N. simpl. split; [intros [E|H]; auto; congruence|auto].
  Qed.

  Lemma known_HasRole : forall r L n, represents r L -> HasRole r n = ahas n (all_roles r).
  Proof. intros r L n R. unfold HasRole. rewrite (rep_plain _ _ R). reflexivity. Qed.

  Lemma rep_delete : forall r L d a b, represents r L -> M (d, a) -> M (d, b) ->
    represents (fst (DeleteLink r a b (dom_arg d))) (links_step L (RDel d a b)) /\
    (snd (DeleteLink r a b (dom_arg d)) = Ok tt \/
     snd (DeleteLink r a b (dom_arg d)) = Throw CasbinRBAC /\ ~ L (d, a, b) /\ fst (DeleteLink r a b (dom_arg d)) = r).
  Proof.
    intros r L d a b R Ma Mb. unfold DeleteLink. rewrite dom_short, !prefixed_spell.
    rewrite !(known_HasRole _ _ _ R).
    destruct (negb (ahas (spell (d, a)) (all_roles r)) || negb (ahas (spell (d, b)) (all_roles r))) eqn:K; simpl.
    - assert (N : ~ L (d, a, b)).
      { intro H. destruct (rep_known _ _ R _ _ _ H) as [A B]. rewrite A, B in K. discriminate. }
      split; [|auto]. apply rep_ext with (L := L); auto. intros l. simpl. split; [|tauto].
      intros H. split; auto. intros ->. tauto.
    - split; auto. apply orb_false_iff in K. destruct K as [Ka0 Kb0]. apply negb_false_iff in Ka0, Kb0.
      pose proof (rep_create _ _ _ R Ma) as R1. pose proof (rep_create _ _ _ R1 Mb) as R2.
      set (r1 := CreateRole r (spell (d, a))) in *. set (r2 := CreateRole r1 (spell (d, b))) in *.
      assert (P1 : matching r1 = None) by (unfold r1; rewrite create_plain; apply R).
      assert (Ka : ahas (spell (d, a)) (all_roles r2) = true).
      { apply create_mono; auto. apply create_mono; auto. apply R. }
      change (all_roles (with_roles ?x ?y)) with y.
      apply rep_aset with (L := L); auto.
      + apply Role_DeleteRole_nodup. apply R2.
      + intros b'. simpl. split.
        * intros [H N]. exists (spell (d, b')). destruct (rep_named _ _ R _ _ _ H) as [_ Mb'].
          rewrite Role_DeleteRole_in by apply R2. repeat split; auto; [apply R2; auto|].
          intros E. apply M_inj in E; auto. congruence.
        * intros [x [I [-> Mb']]]. rewrite Role_DeleteRole_in in I by apply R2. destruct I as [I N].
          destruct (rep_sound _ _ R2 _ _ I) as [d1 [a1 [b1 [E1 [E2 H]]]]].
          destruct (rep_named _ _ R2 _ _ _ H) as [M1 M2].
          apply M_inj in E1; auto. apply M_inj in E2; auto. inversion E1; inversion E2; subst.
          split; auto. congruence.
      + intros x I. rewrite Role_DeleteRole_in in I by apply R2. destruct I as [I N].
        destruct (rep_sound _ _ R2 _ _ I) as [d1 [a1 [b1 [E1 [-> H]]]]].
        destruct (rep_named _ _ R2 _ _ _ H) as [M1 M2]. apply M_inj in E1; auto. inversion E1; subst.
        exists b1. split; auto. split; auto. apply (rep_known _ _ R2 _ _ _ H).
      + intros d' a' b' N. simpl. split; [tauto|]. intros H. split; auto. congruence.
  Qed.

  Lemma rep_empty : forall level, represents (mkRM [] None level) (fun _ => False).
  Proof.
    intros. constructor; simpl; auto; try tauto.
    - constructor.
    - intros k. unfold roles_of. simpl. constructor.
  Qed.
  Lemma rep_clear : forall r L, represents r L -> represents (Clear r) (fun _ => False).
  Proof. intros r L []. unfold Clear, with_roles. rewrite rep_plain0. apply rep_empty. Qed.
  Lemma rep_new : forall level, represents (new_rm level) (fun _ => False).
  Proof. intros. apply rep_empty. Qed.

  Lemma rep_step : forall r L c, represents r L -> (forall n, mentions c n -> M n) -> represents (rrun r c) (links_step L c).
  Proof.
    intros r L c R H. destruct c; simpl in *.
    - apply rep_add; auto.
    - apply rep_delete; auto.
    - eapply rep_clear; eauto.
    - unfold HasLink. rewrite dom_short, !prefixed_spell.
      destruct (String.eqb (spell (d, a)) (spell (d, b))); auto.
      destruct (negb (HasRole r (spell (d, a))) || negb (HasRole r (spell (d, b)))); auto.
      apply rep_create; auto.
    - unfold GetRoles. rewrite dom_short, !prefixed_spell.
      destruct (negb (HasRole r (spell (d, a)))); auto. apply rep_create; auto.
    - auto.
  Qed.
  Lemma rep_after : forall cs r L, represents r L -> (forall c n, In c cs -> mentions c n -> M n) ->
    represents (fold_left rrun cs r) (fold_left links_step cs L).
  Proof.
    induction cs as [|c cs IH]; simpl; intros; auto. apply IH; [|eauto]. apply rep_step; eauto.
  Qed.

  (** Queries *)
  Lemma rep_direct : forall r L d a, represents r L -> M (d, a) -> forall x,
    In x (roles_of (all_roles r) (spell (d, a))) <-> exists b, x = spell (d, b) /\ L (d, a, b).
  Proof.
    intros r L d a R Ma x. split.
    - intros I. destruct (rep_sound _ _ R _ _ I) as [d1 [a1 [b1 [E1 [-> H]]]]].
      destruct (rep_named _ _ R _ _ _ H) as [M1 M2]. apply M_inj in E1; auto. inversion E1; subst. eauto.
    - intros [b [-> H]]. apply R. auto.
  Qed.

  Lemma rep_direct_b : forall d a r L, represents r L -> M (d, a) -> forall b,
    In (spell (d, b)) (roles_of (all_roles r) (spell (d, a))) <-> L (d, a, b).
  Proof.
    intros d a r L R Ma b. split; [|apply R].
    intros I. destruct (rep_sound _ _ R _ _ I) as [d1 [a1 [b1 [E1 [E2 H]]]]].
    destruct (rep_named _ _ R _ _ _ H) as [M1 M2]. apply M_inj in E1; auto. inversion E1; subst.
    apply spell_same_dom in E2. subst. auto.
  Qed.

  Lemma rep_HasRole : forall r L, represents r L -> forall n d a b, M (d, a) -> M (d, b) ->
    (Role_HasRole (all_roles r) (spell (d, a)) (spell (d, b)) n = true <-> within L d n a b).
  Proof.
    intros r L R. induction n; intros d a b Ma Mb; simpl.
    - destruct (String.eqb_spec (spell (d, a)) (spell (d, b))) as [E|E].
      + apply M_inj in E; auto. inversion E; subst. split; auto. constructor.
      + split; [discriminate|]. intros W. inversion W; subst. tauto.
    - destruct (String.eqb_spec (spell (d, a)) (spell (d, b))) as [E|E].
      + apply M_inj in E; auto. inversion E; subst. split; auto. constructor.
      + rewrite existsb_exists. split.
        * intros [x [I H]]. apply (rep_direct _ _ _ _ R Ma) in I. destruct I as [c [-> H1]].
          destruct (rep_named _ _ R _ _ _ H1) as [_ Mc]. apply IHn in H; auto. econstructor; eauto.
        * intros W. inversion W; subst; [tauto|]. exists (spell (d, b0)).
          destruct (rep_named _ _ R _ _ _ H0) as [_ Mc]. split; [apply R; auto|]. apply IHn; auto.
  Qed.

  Lemma within_known : forall L d n a b, within L d n a b -> a = b \/ ((exists x, L (d, a, x)) /\ exists y, L (d, y, b)).
  Proof.
    intros L d n a b W. induction W; auto. right. split; [eauto|].
    destruct IHW as [->|[_ [y Y]]]; eauto.
  Qed.

  Lemma rep_HasLink : forall r L d a b, represents r L -> M (d, a) -> M (d, b) ->
    exists v, snd (HasLink r a b (dom_arg d)) = Ok v /\ (v = true <-> within L d (max_level r) a b).
  Proof.
    intros r L d a b R Ma Mb. unfold HasLink. rewrite dom_short, !prefixed_spell.
    destruct (String.eqb_spec (spell (d, a)) (spell (d, b))) as [E|E].
    - apply M_inj in E; auto. inversion E; subst. exists true. split; auto. split; auto. constructor.
    - rewrite !(known_HasRole _ _ _ R).
      destruct (negb (ahas (spell (d, a)) (all_roles r)) || negb (ahas (spell (d, b)) (all_roles r))) eqn:K; simpl.
      + exists false. split; auto. split; [discriminate|]. intros W. exfalso. apply within_known in W.
        destruct W as [->|[[x X] [y Y]]]; [tauto|].
        destruct (rep_known _ _ R _ _ _ X) as [A _]. destruct (rep_known _ _ R _ _ _ Y) as [_ B]. rewrite A, B in K. discriminate.
      + eexists. split; [reflexivity|]. rewrite create_level.
        pose proof (rep_create _ _ _ R Ma) as R1. apply (rep_HasRole _ _ R1 (max_level r) d a b Ma Mb).
  Qed.

  Lemma unprefix_spell : forall d b, unprefix (dom_arg d) (spell (d, b)) = Ok b.
  Proof.
    intros [d|] b; simpl; auto. unfold spell. rewrite !length_app_s. simpl.
    destruct (Nat.ltb_spec (String.length d + S (S (String.length b))) (String.length d + 2)); [lia|].
    change (d ++ String ":" (String ":" b))%string with (d ++ ("::" ++ b))%string.
    rewrite <- app_assoc_s. replace (String.length d + 2) with (String.length (d ++ "::")%string) by (rewrite length_app_s; auto). rewrite sdrop_app. auto.
  Qed.
  Lemma mapr_unprefix : forall d (l : list string), (forall x, In x l -> exists b, x = spell (d, b)) ->
    exists bs, mapr (unprefix (dom_arg d)) l = Ok bs /\ l = map (fun b => spell (d, b)) bs.
  Proof.
    induction l as [|x l IH]; simpl; intros H. { exists []. auto. }
    destruct (H x (or_introl eq_refl)) as [b ->]. rewrite unprefix_spell. cbn [bind].
    destruct IH as [bs [-> ->]]. { auto. } exists (b :: bs). auto.
  Qed.
  Lemma rep_GetRoles : forall r L d a, represents r L -> M (d, a) ->
    exists bs, snd (GetRoles r a (dom_arg d)) = Ok bs /\ NoDup bs /\ forall b, In b bs <-> L (d, a, b).
  Proof.
    intros r L d a R Ma. unfold GetRoles. rewrite dom_short, !prefixed_spell, (known_HasRole _ _ _ R).
    destruct (ahas (spell (d, a)) (all_roles r)) eqn:K; simpl.
    - rewrite create_roles by apply R.
      destruct (mapr_unprefix d (roles_of (all_roles r) (spell (d, a)))) as [bs [E1 E2]].
      { intros x I. apply (rep_direct _ _ _ _ R Ma) in I. destruct I as [b [-> _]]. eauto. }
      exists bs. split; auto. split.
      + pose proof (rep_nodup _ _ R (spell (d, a))) as N. rewrite E2 in N. apply NoDup_map_inv in N. auto.
      + intros b. rewrite <- (rep_direct_b d a r L R Ma b). rewrite E2, in_map_iff. split.
        * intros I. exists b. auto.
        * intros [b' [E I]]. apply spell_same_dom in E. subst. auto.
    - exists []. split; auto. split; [constructor|]. intros b. split; [intros []|]. intros H.
      destruct (rep_known _ _ R _ _ _ H) as [A _]. congruence.
  Qed.
  Lemma rep_users : forall r L d b, represents r L -> M (d, b) -> forall k,
    In k (map fst (filter (fun kv => Role_HasDirectRole (snd kv) (spell (d, b))) (all_roles r))) <->
    exists a, k = spell (d, a) /\ L (d, a, b).
  Proof.
    intros r L d b R Mb k. rewrite in_map_iff. split.
    - intros [[k' l] [E I]]. simpl in E. subst k'. apply filter_In in I. destruct I as [I H]. simpl in H.
      apply existsb_eqb_true in H.
      assert (Hr : roles_of (all_roles r) k = l) by (unfold roles_of; rewrite (In_aget k l); auto; apply R).
      rewrite <- Hr in H. destruct (rep_sound _ _ R _ _ H) as [d1 [a1 [b1 [E1 [E2 H1]]]]].
      destruct (rep_named _ _ R _ _ _ H1) as [M1 M2]. apply M_inj in E2; auto. inversion E2; subst. eauto.
    - intros [a [-> H]]. destruct (rep_known _ _ R _ _ _ H) as [A _]. apply ahas_true in A.
      apply in_map_iff in A. destruct A as [[k' l] [E I]]. simpl in E. subst k'.
      exists (spell (d, a), l). split; auto. apply filter_In. split; auto. simpl. apply existsb_eqb_true.
      pose proof (rep_complete _ _ R _ _ _ H) as C. unfold roles_of in C. rewrite (In_aget _ l) in C; auto. apply R.
  Qed.
  Lemma NoDup_keys_filter : forall (f : string * list string -> bool) l, NoDup (map fst l) -> NoDup (map fst (filter f l)).
  Proof.
    induction l as [|[k v] l IH]; simpl; intros N; auto. inversion N; subst. destruct (f (k, v)); auto. simpl.
    constructor; auto. intros I. apply H1. apply in_map_iff in I. destruct I as [x [E I]]. apply filter_In in I.
    apply in_map_iff. exists x. tauto.
  Qed.
  Lemma rep_GetUsers : forall r L d b, represents r L -> M (d, b) ->
    match GetUsers r b (dom_arg d) with
    | Ok us => NoDup us /\ forall u, In u us <-> L (d, u, b)
    | Throw e => e = CasbinRBAC /\ forall u, ~ L (d, u, b)
    | UB _ => False
    end.
  Proof.
    intros r L d b R Mb. unfold GetUsers. rewrite dom_short, !prefixed_spell, (known_HasRole _ _ _ R).
    destruct (ahas (spell (d, b)) (all_roles r)) eqn:K; cbn [negb].
    - set (ks := map fst (filter _ (all_roles r))).
      assert (U : forall k, In k ks <-> exists a, k = spell (d, a) /\ L (d, a, b)) by (intros; apply rep_users; auto).
      destruct (mapr_unprefix d ks) as [bs [E1 E2]].
      { intros x I. apply U in I. destruct I as [a [-> _]]. eauto. }
      rewrite E1. split.
      + assert (N : NoDup ks) by (apply NoDup_keys_filter; apply R). rewrite E2 in N. apply NoDup_map_inv in N. auto.
      + intros u. split.
        * intros I. assert (I' : In (spell (d, u)) ks) by (rewrite E2; apply in_map_iff; eauto).
          apply U in I'. destruct I' as [a [E H]]. apply spell_same_dom in E. subst. auto.
        * intros H. assert (I' : In (spell (d, u)) ks) by (apply U; eauto). rewrite E2 in I'.
          apply in_map_iff in I'. destruct I' as [a [E I]]. apply spell_same_dom in E. subst. auto.
    - split; auto. intros u H. destruct (rep_known _ _ R _ _ _ H). congruence.
  Qed.
End Inv.

Lemma rrun_level : forall r c, max_level (rrun r c) = max_level r.
Proof.
  intros r c. destruct c as [d a b|d a b| |d a b|d a|d b]; simpl; auto.
  - unfold AddLink. destruct (Nat.ltb _ _); auto. simpl. rewrite !create_level. auto.
  - unfold DeleteLink. destruct (Nat.ltb _ _); auto. destruct (_ || _); auto. simpl. rewrite !create_level. auto.
  - unfold HasLink. destruct (Nat.ltb _ _); auto. destruct (String.eqb _ _); auto. destruct (_ || _); auto.
    apply create_level.
  - unfold GetRoles. destruct (Nat.ltb _ _); auto. destruct (negb _); auto. apply create_level.
Qed.
Lemma rm_after_level : forall level cs, max_level (rm_after level cs) = level.
Proof.
  intros. unfold rm_after. change level with (max_level (new_rm level)) at 2. generalize (new_rm level).
  induction cs as [|c cs IH]; intros r; simpl; auto. rewrite IH. apply rrun_level.
Qed.

Definition named (cs : list rcall) (n : node) : Prop := exists c, In c cs /\ mentions c n.
Lemma named_inj : forall cs, apart cs -> forall n1 n2, named cs n1 -> named cs n2 -> spell n1 = spell n2 -> n1 = n2.
Proof. intros cs A n1 n2 [c1 [I1 H1]] [c2 [I2 H2]]. eauto. Qed.
Lemma after_represents : forall level cs extra, apart (cs ++ extra) ->
  represents (named (cs ++ extra)) (rm_after level cs) (links cs).
Proof.
  intros level cs extra A. apply rep_after.
  - apply named_inj; auto.
  - apply rep_new.
  - intros c n I H. exists c. rewrite in_app_iff. auto.
Qed.
Lemma named_extra : forall cs c n, mentions c n -> named (cs ++ [c]) n.
Proof. intros cs c n H. exists c. rewrite in_app_iff. simpl. auto. Qed.


(** Names without colons, or without domains, are never spelled alike. *)
Lemma colon_cut : forall d1 d2 s1 s2, smem ":" s1 = false -> smem ":" s2 = false ->
  (d1 ++ String ":" s1)%string = (d2 ++ String ":" s2)%string -> d1 = d2 /\ s1 = s2.
Proof.
  assert (H : forall d s1 s2, smem ":" s1 = false -> s1 = (d ++ String ":" s2)%string -> False).
  { induction d as [|c d IH]; intros s1 s2 A E; subst; simpl in A; [discriminate|].
    apply orb_false_iff in A. eapply IH; [|reflexivity]. apply A. }
  induction d1 as [|c d1 IH]; intros [|c' d2] s1 s2 A B E; simpl in E; inversion E; auto.
  - exfalso. eapply H; [|eassumption]. auto.
  - exfalso. eapply H; [|symmetry; eassumption]. auto.
  - destruct (IH _ _ _ A B H2). subst. auto.
Qed.
Lemma no_colons_apart : forall cs, no_colons cs -> apart cs.
Proof.
  intros cs H c1 c2 [d1 s1] [d2 s2] I1 I2 M1 M2 E. apply H in M1; auto. apply H in M2; auto. simpl in *.
  destruct d1 as [d1|], d2 as [d2|]; unfold spell in E.
  - assert (E' : ((d1 ++ ":") ++ String ":" s1 = (d2 ++ ":") ++ String ":" s2)%string)
      by (rewrite !app_assoc_s; exact E).
    apply colon_cut in E'; auto. destruct E' as [E' ->]. change ((d1 ++ String ":" "") = (d2 ++ String ":" ""))%string in E'.
    apply colon_cut in E'; auto. destruct E'. subst. auto.
  - exfalso. rewrite <- E in M2. clear - M2. induction d1; simpl in M2; [discriminate|]. apply orb_false_iff in M2. tauto.
  - exfalso. rewrite E in M1. clear - M1. induction d2; simpl in M1; [discriminate|]. apply orb_false_iff in M1. tauto.
  - subst. auto.
Qed.
Lemma no_domains_apart : forall cs, no_domains cs -> apart cs.
Proof.
  intros cs H c1 c2 [d1 s1] [d2 s2] I1 I2 M1 M2 E. apply H in M1; auto. apply H in M2; auto. simpl in *. subst.
  unfold spell in E. subst. auto.
Qed.

(** Matching functions *)
Lemma fold_AddRole : forall hits l, NoDup l ->
  NoDup (fold_left Role_AddRole hits l) /\ forall x, In x (fold_left Role_AddRole hits l) -> In x hits \/ In x l.
Proof.
  induction hits as [|h hits IH]; simpl; intros l N; auto.
  destruct (IH (Role_AddRole l h) (Role_AddRole_nodup _ _ N)) as [N' I]. split; auto.
  intros x X. apply I in X. rewrite Role_AddRole_in in X. intuition.
Qed.
Lemma ainsert_keeps : forall (k n : string) (g : list (string * list string)), ahas k g = true -> ahas k (ainsert n [] g) = true.
Proof. intros k n g H. unfold ainsert. destruct (ahas n g); auto. unfold ahas in *. rewrite aget_app. destruct (aget k g); auto. discriminate. Qed.
Lemma ainsert_has_key : forall (n : string) (g : list (string * list string)), ahas n (ainsert n [] g) = true.
Proof.
  intros. unfold ainsert. destruct (ahas n g) eqn:E; auto. unfold ahas in *. rewrite aget_app.
  destruct (aget n g); auto. simpl. rewrite eqb_refl_s. auto.
Qed.
Section Matching.
  Variable f : string -> string -> bool.
  Hypothesis f_refl : forall x, f x x = true.
  Record sound_with (r : role_manager) (L : link -> Prop) : Prop := mkSW {
    sw_match : matching r = Some f;
    sw_sound : forall k x, In x (roles_of (all_roles r) k) -> L (None, k, x) \/ f k x = true;
    sw_known : forall k x, In x (roles_of (all_roles r) k) -> ahas k (all_roles r) = true /\ ahas x (all_roles r) = true;
    sw_nodup : forall k, NoDup (roles_of (all_roles r) k) }.
  Lemma sw_has : forall r L n, sound_with r L -> ahas n (all_roles r) = true -> HasRole r n = true.
  Proof.
    intros r L n [] H. unfold HasRole. rewrite sw_match0. apply ahas_true in H. apply in_map_iff in H.
    destruct H as [kv [E I]]. apply existsb_exists. exists kv. split; auto. rewrite E. auto.
  Qed.
  Lemma create_mono_f : forall r n k, ahas k (all_roles r) = true -> ahas k (all_roles (CreateRole r n)) = true.
  Proof.
    intros r n k H. unfold CreateRole. destruct (matching r); simpl; [rewrite ahas_aset|]; rewrite ainsert_keeps by auto; auto using orb_true_r.
  Qed.
  Lemma create_has_f : forall r n, ahas n (all_roles (CreateRole r n)) = true.
  Proof.
    intros r n. unfold CreateRole. destruct (matching r); simpl; [rewrite ahas_aset, eqb_refl_s; auto|]. apply ainsert_has_key.
  Qed.
  Lemma sw_create : forall r L n, sound_with r L -> sound_with (CreateRole r n) L.
  Proof.
    intros r L n S. pose proof (create_mono_f r n) as CM. pose proof (create_has_f r n) as CH. destruct S. unfold CreateRole in *. rewrite sw_match0 in *.
    assert (N : NoDup (roles_of (ainsert n [] (all_roles r)) n)) by (rewrite roles_of_ainsert; auto).
    destruct (fold_AddRole (filter (fun k => f n k && negb (String.eqb n k)) (map fst (ainsert n [] (all_roles r)))) _ N) as [N' I].
    constructor; cbn [matching with_roles all_roles] in *; auto.
    - intros k x. rewrite roles_of_aset. destruct (String.eqb_spec k n) as [->|V].
      + intros X. apply I in X. destruct X as [X|X].
        * apply filter_In in X. destruct X as [_ X]. apply andb_true_iff in X. tauto.
        * rewrite roles_of_ainsert in X. auto.
      + rewrite roles_of_ainsert. auto.
    - intros k x. rewrite roles_of_aset. destruct (String.eqb_spec k n) as [->|V].
      + intros X. split; auto. apply I in X. destruct X as [X|X].
        * apply filter_In in X. destruct X as [X _]. rewrite ahas_aset. apply ahas_true in X. rewrite X. apply orb_true_r.
        * rewrite roles_of_ainsert in X. apply sw_known0 in X. apply CM. tauto.
      + rewrite roles_of_ainsert. intros X. apply sw_known0 in X. split; apply CM; tauto.
    - intros k. rewrite roles_of_aset. destruct (String.eqb k n); auto. rewrite roles_of_ainsert. auto.
  Qed.
  Lemma sw_step : forall r L c, (forall n, mentions c n -> fst n = None) -> sound_with r L -> sound_with (rrun r c) (links_step L c).
  Proof.
    intros r L c P S. destruct c as [d a b|d a b| |d a b|d a|d b]; simpl in *.
    - assert (d = None) by (apply (P (d, a)); auto). subst d. unfold AddLink. simpl.
      pose proof (create_has_f (CreateRole r a) b) as Kb. pose proof (create_mono_f _ b _ (create_has_f r a)) as Ka.
      pose proof (sw_create _ _ b (sw_create _ _ a S)) as [M1 M2 M2k M3].
      set (r2 := CreateRole (CreateRole r a) b) in *. constructor; cbn [matching with_roles all_roles]; auto.
      + intros k x. rewrite roles_of_aset. destruct (String.eqb_spec k a) as [->|V].
        * rewrite Role_AddRole_in. intros [->|X]; auto. apply M2 in X. intuition.
        * intros X. apply M2 in X. intuition.
      + intros k x. rewrite roles_of_aset, !ahas_aset. destruct (String.eqb_spec k a) as [->|V].
        * rewrite Role_AddRole_in. intros [->|X]; [|apply M2k in X; destruct X as [X ->]]; rewrite ?Kb, ?orb_true_r; auto.
        * intros X. apply M2k in X. destruct X as [-> ->]. rewrite !orb_true_r. auto.
      + intros k. rewrite roles_of_aset. destruct (String.eqb k a); auto. apply Role_AddRole_nodup. auto.
    - assert (d = None) by (apply (P (d, a)); auto). subst d. unfold DeleteLink. simpl.
      destruct (negb (HasRole r a) || negb (HasRole r b)) eqn:K; simpl.
      + pose proof (sw_has r L) as SH. destruct S as [M1 M2 M2k M3]. constructor; auto. intros k x X.
        destruct (M2 k x X) as [V|V]; auto.
        destruct (string_dec k a) as [->|W]; [|left; split; auto; congruence].
        destruct (string_dec x b) as [->|W]; [|left; split; auto; congruence].
        exfalso. apply M2k in X. destruct X as [X1 X2]. rewrite (SH a), (SH b) in K; auto; try discriminate; constructor; auto.
      + pose proof (sw_create _ _ b (sw_create _ _ a S)) as [M1 M2 M2k M3].
        set (r2 := CreateRole (CreateRole r a) b) in *. constructor; cbn [matching with_roles all_roles]; auto.
        * intros k x. rewrite roles_of_aset. destruct (String.eqb_spec k a) as [->|V].
          -- rewrite Role_DeleteRole_in by auto. intros [X C]. apply M2 in X. destruct X; auto. left. split; auto. congruence.
          -- intros X. apply M2 in X. destruct X; auto. left. split; auto. congruence.
        * intros k x. rewrite roles_of_aset, !ahas_aset. destruct (String.eqb_spec k a) as [->|V].
          -- rewrite Role_DeleteRole_in by auto. intros [X C]. apply M2k in X. destruct X as [-> ->]. rewrite !orb_true_r. auto.
          -- intros X. apply M2k in X. destruct X as [-> ->]. rewrite !orb_true_r. auto.
        * intros k. rewrite roles_of_aset. destruct (String.eqb k a); auto. apply Role_DeleteRole_nodup. auto.
    - destruct S. constructor; simpl; auto; intros k; unfold roles_of; simpl; try tauto. constructor.
    - assert (d = None) by (apply (P (d, a)); auto). subst d. unfold HasLink. simpl.
      destruct (String.eqb a b); auto. destruct (_ || _); auto. apply sw_create. auto.
    - assert (d = None) by (apply (P (d, a)); auto). subst d. unfold GetRoles. simpl.
      destruct (negb _); auto. apply sw_create. auto.
    - auto.
  Qed.
  Lemma sw_after : forall level cs, no_domains cs -> sound_with (rm_after_matching f level cs) (links cs).
  Proof.
    intros level cs H. unfold rm_after_matching, links.
    assert (S : sound_with (AddMatchingFunc f (new_rm level)) (fun _ => False)).
    { constructor; simpl; auto; intros k; unfold roles_of; simpl; try tauto. constructor. }
    revert S. generalize (AddMatchingFunc f (new_rm level)). generalize (fun _ : link => False).
    induction cs as [|c cs IH]; simpl; intros L r S; auto. apply IH.
    - intros c' n I. apply H. simpl. auto.
    - apply sw_step; auto. intros n. apply H. simpl. auto.
  Qed.
  Lemma sw_HasRole : forall r L, sound_with r L -> forall n a b,
    Role_HasRole (all_roles r) a b n = true -> within_matching f L n a b.
  Proof.
    intros r L S. induction n; intros a b; simpl; destruct (String.eqb_spec a b) as [->|V]; try discriminate;
      try (intros _; constructor).
    rewrite existsb_exists. intros [x [I H]]. destruct (sw_sound _ _ S _ _ I).
    - eapply matching_link; eauto.
    - eapply matching_step; eauto.
  Qed.
  Lemma sw_HasLink : forall r L a b, sound_with r L -> snd (HasLink r a b []) = Ok true -> within_matching f L (max_level r) a b.
  Proof.
    intros r L a b S. unfold HasLink. simpl. destruct (String.eqb_spec a b) as [->|V]; [intros _; constructor|].
    destruct (_ || _); simpl; [discriminate|]. intros H. inversion H. rewrite create_level in H1.
    eapply sw_HasRole; [apply sw_create; eauto|eauto].
  Qed.
  Lemma rm_after_matching_level : forall level cs, max_level (rm_after_matching f level cs) = level.
  Proof.
    intros. unfold rm_after_matching. change level with (max_level (AddMatchingFunc f (new_rm level))) at 2. generalize (AddMatchingFunc f (new_rm level)).
    induction cs as [|c cs IH]; intros r; simpl; auto. rewrite IH. apply rrun_level.
  Qed.
End Matching.

Lemma within_ext : forall L L' d, (forall a b, L (d, a, b) <-> L' (d, a, b)) -> forall n a b, within L d n a b <-> within L' d n a b.
Proof.
  intros L L' d H n a b. split; intros W; induction W; try constructor; econstructor; eauto; apply H; auto.
Qed.
Lemma same_domain_true : forall d d', same_domain d d' = true <-> d = d'.
Proof.
  intros [d|] [d'|]; simpl; try (split; congruence). destruct (String.eqb_spec d d'); split; congruence.
Qed.
Lemma links_of_domain_from : forall d cs L L', (forall a b, L (d, a, b) <-> L' (d, a, b)) ->
  forall a b, fold_left links_step cs L (d, a, b) <-> fold_left links_step (filter (concerns d) cs) L' (d, a, b).
Proof.
  induction cs as [|c cs IH]; intros L L' H a b; simpl; auto.
  destruct c as [d' x y|d' x y| |d' x y|d' x|d' y]; simpl; try (destruct (same_domain d d') eqn:E; simpl; apply IH; intros; simpl).
  - rewrite H. tauto.
  - split; [|rewrite H; auto]. intros [Q|Q]; [|apply H; auto]. inversion Q; subst.
    assert (same_domain d' d' = true) by (apply same_domain_true; auto). congruence.
  - rewrite H. tauto.
  - rewrite H. split; [tauto|]. intros Q. split; auto. intros Z. inversion Z; subst.
    assert (same_domain d' d' = true) by (apply same_domain_true; auto). congruence.
  - apply IH. tauto.
  - auto.
  - auto.
  - auto.
  - auto.
  - auto.
  - auto.
Qed.
Lemma links_of_domain : forall d cs a b, links cs (d, a, b) <-> links (filter (concerns d) cs) (d, a, b).
Proof. intros. apply links_of_domain_from. tauto. Qed.
Lemma apart_filter : forall p cs extra, apart (cs ++ extra) -> apart (filter p cs ++ extra).
Proof.
  intros p cs extra A c1 c2 n1 n2 I1 I2. apply A; rewrite in_app_iff in *; rewrite filter_In in *; tauto.
Qed.
