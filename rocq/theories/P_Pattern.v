(** Role managers with a matching function implement [inherits]. *)
From Verif Require Import Base P_Base M_RoleManager S_Roles P_Roles S_Pattern.
Local Arguments spell : simpl never.

Lemma fold_AddRole_in : forall hits l x, In x (fold_left Role_AddRole hits l) <-> In x hits \/ In x l.
Proof.
  induction hits as [|h hits IH]; simpl; intros l x; [tauto|]. rewrite IH, Role_AddRole_in. intuition.
Qed.
Lemma node_dec : forall n1 n2 : node, {n1 = n2} + {n1 <> n2}.
Proof. decide equality; [apply string_dec|]. decide equality. apply string_dec. Qed.
Lemma link_call_dec : forall c n, {link_call c n} + {~ link_call c n}.
Proof.
  intros [d a b|d a b| |d a b|d a|d b] n; simpl; auto;
    (destruct (node_dec n (d, a)) as [->|]; [left; auto|]; destruct (node_dec n (d, b)) as [->|]; [left; auto|right; tauto]).
Qed.
Lemma link_name_dec : forall cs n, {link_name cs n} + {~ link_name cs n}.
Proof.
  induction cs as [|c cs IH]; intros n.
  - right. intros [c [[] _]].
  - destruct (link_call_dec c n) as [H|H]. { left. exists c. simpl. auto. }
    destruct (IH n) as [H'|H'].
    + left. destruct H' as [c' [I C]]. exists c'. simpl. auto.
    + right. intros [c' [[<-|I] C]]; auto. apply H'. exists c'. auto.
Qed.

Section Pattern.
  Variable f : string -> string -> bool.
  Variables M LN : node -> Prop.
  Hypothesis M_inj : forall n1 n2, M n1 -> M n2 -> spell n1 = spell n2 -> n1 = n2.
  Hypothesis LN_dec : forall n, {LN n} + {~ LN n}.
  Hypothesis LN_M : forall n, LN n -> M n.
  Hypothesis f_refl : forall n, M n -> f (spell n) (spell n) = true.
  Hypothesis f_apart : forall n1 n2, M n1 -> M n2 -> f (spell n1) (spell n2) = true -> n1 = n2 \/ ~ LN n1 /\ LN n2.

  Record keeps_links (r : role_manager) (K : node -> Prop) (L : link -> Prop) : Prop := mkKL {
    kl_match : matching r = Some f;
    kl_key : forall k, ahas k (all_roles r) = true -> exists n, M n /\ k = spell n /\ (LN n -> K n);
    kl_has : forall n, K n -> LN n /\ ahas (spell n) (all_roles r) = true;
    kl_link : forall d a, LN (d, a) -> forall x,
      In x (roles_of (all_roles r) (spell (d, a))) <-> exists b, x = spell (d, b) /\ L (d, a, b);
    kl_hit : forall n, M n -> ~ LN n -> forall x, In x (roles_of (all_roles r) (spell n)) ->
      exists y, K y /\ x = spell y /\ f (spell n) (spell y) = true;
    kl_known : forall d a b, L (d, a, b) -> K (d, a) /\ K (d, b);
    kl_nodup : forall k, NoDup (roles_of (all_roles r) k) }.

  Definition with_name (K : node -> Prop) (n m : node) : Prop := K m \/ m = n /\ LN n.

  Lemma kl_ext : forall r K K' L L', keeps_links r K L -> (forall n, K n <-> K' n) -> (forall l, L l <-> L' l) -> keeps_links r K' L'.
  Proof.
    intros r K K' L L' [] EK EL. constructor; auto.
    - intros k H. destruct (kl_key0 k H) as [n [A [B C]]]. exists n. repeat split; auto. intros X. apply EK. auto.
    - intros n H. apply kl_has0, EK, H.
    - intros d a H x. rewrite (kl_link0 d a H x). split; intros [b [-> X]]; exists b; split; auto; apply EL; auto.
    - intros n A B x X. destruct (kl_hit0 n A B x X) as [y [C D]]. exists y. split; auto. apply EK. auto.
    - intros d a b H. rewrite <- !EK. apply kl_known0, EL, H.
  Qed.

  Lemma create_match : forall r n, matching (CreateRole r n) = matching r.
  Proof. intros. unfold CreateRole. destruct (matching r) eqn:E; simpl; auto. Qed.

  (** The names that [n] matches after it is created. *)
  Lemma kl_hits : forall r K L n x, keeps_links r K L -> M n ->
    (In x (filter (fun k => f (spell n) k && negb (String.eqb (spell n) k)) (map fst (ainsert (spell n) [] (all_roles r)))) <->
     exists y, K y /\ x = spell y /\ ~ LN n /\ f (spell n) (spell y) = true).
  Proof.
    intros r K L n x [] Mn. rewrite filter_In, andb_true_iff, negb_true_iff. split.
    - intros [I [F N]]. apply ahas_true in I. unfold ahas in I. rewrite aget_ainsert in I.
      destruct (String.eqb_spec x (spell n)) as [->|V]. { rewrite eqb_refl_s in N. discriminate. }
      destruct (kl_key0 x I) as [y [My [-> Ky]]]. destruct (f_apart n y Mn My F) as [->|[A B]]; [tauto|].
      exists y. auto.
    - intros [y [Ky [-> [Nn F]]]]. destruct (kl_has0 y Ky) as [Ly Hy]. split.
      + apply ahas_true. apply ainsert_keeps. auto.
      + split; auto. destruct (String.eqb_spec (spell n) (spell y)) as [E|]; auto.
        apply M_inj in E; auto. subst. tauto.
  Qed.

  Lemma kl_create : forall r K L n, keeps_links r K L -> M n -> keeps_links (CreateRole r (spell n)) (with_name K n) L.
  Proof.
    intros r K L n S Mn. pose proof (kl_hits r K L n) as HH. pose proof S as S'. destruct S'.
    pose proof (create_mono_f r (spell n)) as CM. pose proof (create_has_f r (spell n)) as CH.
    unfold CreateRole in *. rewrite kl_match0 in *.
    set (hits := filter _ (map fst (ainsert (spell n) [] (all_roles r)))) in *.
    assert (ND : NoDup (roles_of (ainsert (spell n) [] (all_roles r)) (spell n))) by (rewrite roles_of_ainsert; auto).
    constructor; cbn [matching with_roles all_roles] in *; auto.
    - intros k. rewrite ahas_aset. destruct (String.eqb_spec k (spell n)) as [->|V]; simpl.
      + intros _. exists n. repeat split; auto. intros X. right. auto.
      + unfold ahas. rewrite aget_ainsert. destruct (String.eqb_spec k (spell n)); [tauto|]. intros X.
        destruct (kl_key0 k X) as [m [A [B C]]]. exists m. repeat split; auto. intros Y. left. auto.
    - intros m [H|[-> H]]; [|auto]. destruct (kl_has0 m H). auto.
    - intros d a H x. rewrite roles_of_aset. destruct (String.eqb_spec (spell (d, a)) (spell n)) as [E|V].
      + apply M_inj in E; auto. subst n. rewrite fold_AddRole_in, roles_of_ainsert, (HH x S Mn), (kl_link0 d a H x).
        split; [intros [[y [_ [_ [X _]]]]|X]; tauto|auto].
      + rewrite roles_of_ainsert. apply kl_link0. auto.
    - intros m Mm Nm x. rewrite roles_of_aset. destruct (String.eqb_spec (spell m) (spell n)) as [E|V].
      + apply M_inj in E; auto. subst m. rewrite fold_AddRole_in, roles_of_ainsert, (HH x S Mn).
        intros [[y [A [B [_ C]]]]|X].
        * exists y. split; [left|]; auto.
        * destruct (kl_hit0 n Mn Nm x X) as [y [A B]]. exists y. split; [left|]; auto.
      + rewrite roles_of_ainsert. intros X. destruct (kl_hit0 m Mm Nm x X) as [y [A B]]. exists y. split; [left|]; auto.
    - intros d a b H. destruct (kl_known0 d a b H). split; left; auto.
    - intros k. rewrite roles_of_aset. destruct (String.eqb k (spell n)); [|rewrite roles_of_ainsert; auto].
      apply (fold_AddRole hits _ ND).
  Qed.
  (** After it is created, a concrete name has exactly the names it matches. *)
  Lemma kl_created : forall r K L n, keeps_links r K L -> M n -> ~ LN n -> forall x,
    In x (roles_of (all_roles (CreateRole r (spell n))) (spell n)) <-> exists y, K y /\ x = spell y /\ f (spell n) (spell y) = true.
  Proof.
    intros r K L n S Mn Nn x. pose proof (kl_hits r K L n x S Mn) as HH. pose proof S as S'. destruct S'.
    unfold CreateRole. rewrite kl_match0. cbn [matching with_roles all_roles].
    rewrite roles_of_aset, eqb_refl_s, fold_AddRole_in, roles_of_ainsert, HH. split.
    - intros [[y [A [B [_ C]]]]|X]; [exists y; auto|]. eapply kl_hit0; eauto.
    - intros [y [A [B C]]]. left. exists y. auto.
  Qed.

  Lemma kl_HasRole : forall r K L n, keeps_links r K L -> M n ->
    (HasRole r (spell n) = true <-> ahas (spell n) (all_roles r) = true \/ exists y, K y /\ f (spell n) (spell y) = true).
  Proof.
    intros r K L n [] Mn. unfold HasRole. rewrite kl_match0, existsb_exists. split.
    - intros [[k l] [I F]]. simpl in F. assert (A : ahas k (all_roles r) = true).
      { apply ahas_true, in_map_iff. exists (k, l). auto. }
      destruct (kl_key0 k A) as [y [My [-> Ky]]]. destruct (f_apart n y Mn My F) as [->|[B C]]; auto. right. exists y. auto.
    - intros H. assert (A : exists k, ahas k (all_roles r) = true /\ f (spell n) k = true).
      { destruct H as [H|[y [Ky F]]]. { exists (spell n). auto. } exists (spell y). split; auto. apply kl_has0. auto. }
      destruct A as [k [A F]]. apply ahas_true, in_map_iff in A. destruct A as [kv [E I]]. exists kv. rewrite E. auto.
  Qed.
  Lemma kl_HasRole_link : forall r K L n, keeps_links r K L -> LN n -> (HasRole r (spell n) = true <-> K n).
  Proof.
    intros r K L n S H. rewrite (kl_HasRole r K L n S (LN_M _ H)). destruct S. split.
    - intros [A|[y [Ky F]]].
      + destruct (kl_key0 _ A) as [m [Mm [E Km]]]. apply M_inj in E; auto. subst. auto.
      + assert (My : M y) by (apply LN_M, kl_has0, Ky). destruct (f_apart n y (LN_M _ H) My F) as [->|[N _]]; tauto.
    - intros Kn. left. apply kl_has0. auto.
  Qed.

  (** A query about a name changes nothing that later answers depend on. *)
  Lemma kl_ask : forall r K L n, keeps_links r K L -> M n -> HasRole r (spell n) = true -> keeps_links (CreateRole r (spell n)) K L.
  Proof.
    intros r K L n S Mn H. eapply kl_ext; [apply kl_create; eauto| |reflexivity].
    intros m. unfold with_name. split; auto. intros [X|[-> X]]; auto. apply (kl_HasRole_link r K L n S X). auto.
  Qed.

  Lemma kl_aset : forall r K L d a l L', keeps_links r K L -> K (d, a) -> NoDup l ->
    (forall x, In x l <-> exists b, x = spell (d, b) /\ L' (d, a, b)) ->
    (forall b, L' (d, a, b) -> K (d, b)) ->
    (forall d' a' b', (d', a') <> (d, a) -> (L' (d', a', b') <-> L (d', a', b'))) ->
    keeps_links (with_roles r (aset (spell (d, a)) l (all_roles r))) K L'.
  Proof.
    intros r K L d a l L' [] Ka ND HL HK HO. destruct (kl_has0 _ Ka) as [La Ha].
    constructor; cbn [all_roles with_roles matching]; auto.
    - intros k. rewrite ahas_aset. destruct (String.eqb_spec k (spell (d, a))) as [->|V]; simpl; auto.
    - intros n Kn. destruct (kl_has0 n Kn) as [A B]. rewrite ahas_aset, B. split; auto using orb_true_r.
    - intros d' a' H x. rewrite roles_of_aset. destruct (String.eqb_spec (spell (d', a')) (spell (d, a))) as [E|V].
      + apply M_inj in E; auto. inversion E; subst. apply HL.
      + rewrite (kl_link0 d' a' H x). split; intros [b [-> X]]; exists b; split; auto; apply HO; auto; intros E; congruence.
    - intros n Mn Nn x. rewrite roles_of_aset. destruct (String.eqb_spec (spell n) (spell (d, a))) as [E|V]; auto.
      apply M_inj in E; auto. subst. tauto.
    - intros d' a' b' H. destruct (node_dec (d', a') (d, a)) as [E|N].
      + inversion E; subst. auto.
      + apply kl_known0. apply HO; auto.
    - intros k. rewrite roles_of_aset. destruct (String.eqb k (spell (d, a))); auto.
  Qed.

  Lemma kl_add : forall r K L d a b, keeps_links r K L -> LN (d, a) -> LN (d, b) ->
    keeps_links (fst (AddLink r a b (dom_arg d))) (introduced_step K (RAdd d a b)) (links_step L (RAdd d a b)).
  Proof.
    intros r K L d a b S La Lb. unfold AddLink. rewrite dom_short, !prefixed_spell. cbn [fst].
    pose proof (kl_create _ _ _ _ (kl_create _ _ _ _ S (LN_M _ La)) (LN_M _ Lb)) as S2.
    apply (kl_ext _ _ (introduced_step K (RAdd d a b)) _ L) in S2; [|intros n; unfold with_name; simpl; intuition (subst; auto)|tauto].
    set (r2 := CreateRole (CreateRole r (spell (d, a))) (spell (d, b))) in *.
    apply kl_aset with (L := L); auto.
    - simpl. auto.
    - apply Role_AddRole_nodup. apply S2.
    - intros x. rewrite Role_AddRole_in, (kl_link _ _ _ S2 d a La x). simpl. split.
      + intros [->|[c [-> H]]]; eauto.
      + intros [c [-> [E|H]]]; [|eauto]. inversion E; subst. auto.
    - intros c [E|H]; simpl. { inversion E; subst. auto. } right. right. apply S in H. tauto.
    - intros d' a' b' N. simpl. split; [intros [E|H]; auto; congruence|auto].
  Qed.
  Lemma kl_delete : forall r K L d a b, keeps_links r K L -> LN (d, a) -> LN (d, b) ->
    keeps_links (fst (DeleteLink r a b (dom_arg d))) K (links_step L (RDel d a b)).
  Proof.
    intros r K L d a b S La Lb. unfold DeleteLink. rewrite dom_short, !prefixed_spell.
    destruct (negb (HasRole r (spell (d, a))) || negb (HasRole r (spell (d, b)))) eqn:E; cbn [fst].
    - eapply kl_ext; [exact S|tauto|]. intros l. simpl. split; [|tauto]. intros H. split; auto. intros ->.
      apply S in H. destruct H as [Ka Kb]. apply (kl_HasRole_link r K L _ S La) in Ka. apply (kl_HasRole_link r K L _ S Lb) in Kb.
      rewrite Ka, Kb in E. discriminate.
    - apply orb_false_iff in E. destruct E as [Ea Eb]. apply negb_false_iff in Ea, Eb.
      apply (kl_HasRole_link r K L _ S La) in Ea. apply (kl_HasRole_link r K L _ S Lb) in Eb.
      pose proof (kl_create _ _ _ _ (kl_create _ _ _ _ S (LN_M _ La)) (LN_M _ Lb)) as S2.
      apply (kl_ext _ _ K _ L) in S2; [|intros n; unfold with_name; intuition (subst; auto)|tauto].
      set (r2 := CreateRole (CreateRole r (spell (d, a))) (spell (d, b))) in *.
      apply kl_aset with (L := L); auto.
      + apply Role_DeleteRole_nodup. apply S2.
      + intros x. rewrite Role_DeleteRole_in by apply S2. rewrite (kl_link _ _ _ S2 d a La x). simpl. split.
        * intros [[c [-> H]] N]. exists c. split; auto. split; auto. congruence.
        * intros [c [-> [H N]]]. split; [eauto|]. intros X. apply spell_same_dom in X. congruence.
      + intros c [H _]. apply S in H. tauto.
      + intros d' a' b' N. simpl. split; [tauto|]. intros H. split; auto. congruence.
  Qed.
  Lemma kl_empty : forall level, keeps_links (mkRM [] (Some f) level) (fun _ => False) (fun _ => False).
  Proof.
    intros level. constructor; simpl; auto; try tauto.
    - intros k H. discriminate.
    - intros d a H x. unfold roles_of. simpl. split; [tauto|]. intros [b [_ []]].
    - intros k. unfold roles_of. simpl. constructor.
  Qed.
  Lemma kl_step : forall r K L c, keeps_links r K L -> (forall n, mentions c n -> M n) -> (forall n, link_call c n -> LN n) ->
    keeps_links (rrun r c) (introduced_step K c) (links_step L c).
  Proof.
    intros r K L c S HM HL. destruct c as [d a b|d a b| |d a b|d a|d b]; cbn [rrun introduced_step]; simpl in HM, HL.
    - apply kl_add; auto.
    - apply kl_delete; auto.
    - unfold Clear, with_roles. rewrite (kl_match _ _ _ S). apply kl_empty.
    - unfold HasLink. rewrite dom_short, !prefixed_spell. destruct (String.eqb _ _); auto.
      destruct (HasRole r (spell (d, a))) eqn:E; auto. simpl. destruct (negb _); auto. cbn [fst]. apply kl_ask; auto.
    - unfold GetRoles. rewrite dom_short, !prefixed_spell.
      destruct (HasRole r (spell (d, a))) eqn:E; auto. simpl. apply kl_ask; auto.
    - auto.
  Qed.
  Lemma kl_after : forall cs r K L, keeps_links r K L -> (forall c n, In c cs -> mentions c n -> M n) ->
    (forall c n, In c cs -> link_call c n -> LN n) ->
    keeps_links (fold_left rrun cs r) (fold_left introduced_step cs K) (fold_left links_step cs L).
  Proof.
    induction cs as [|c cs IH]; simpl; intros; auto. apply IH; eauto. apply kl_step; eauto.
  Qed.

  (** Chains of links *)
  Lemma kl_chain : forall r K L, keeps_links r K L -> forall n d a b, LN (d, a) -> M (d, b) ->
    (Role_HasRole (all_roles r) (spell (d, a)) (spell (d, b)) n = true <-> within L d n a b).
  Proof.
    intros r K L S. induction n; intros d a b La Mb; simpl.
    - destruct (String.eqb_spec (spell (d, a)) (spell (d, b))) as [E|E].
      + apply spell_same_dom in E. subst. split; auto. constructor.
      + split; [discriminate|]. intros W. inversion W; subst. tauto.
    - destruct (String.eqb_spec (spell (d, a)) (spell (d, b))) as [E|E].
      + apply spell_same_dom in E. subst. split; auto. constructor.
      + rewrite existsb_exists. split.
        * intros [x [I H]]. apply (kl_link _ _ _ S d a La) in I. destruct I as [c [-> H1]].
          destruct (kl_known _ _ _ S _ _ _ H1) as [_ Kc]. apply S in Kc. apply IHn in H; auto; [|tauto]. econstructor; eauto.
        * intros W. inversion W; subst; [tauto|]. exists (spell (d, b0)).
          destruct (kl_known _ _ _ S _ _ _ H0) as [_ Kc]. apply S in Kc. split.
          -- apply (kl_link _ _ _ S d a La). eauto.
          -- apply IHn; auto. tauto.
  Qed.
  (** A chain that starts in another domain does not arrive. *)
  Lemma kl_elsewhere : forall r K L, keeps_links r K L -> forall n d d' a b, d' <> d -> LN (d', a) -> M (d, b) ->
    Role_HasRole (all_roles r) (spell (d', a)) (spell (d, b)) n = false.
  Proof.
    intros r K L S. induction n; intros d d' a b N La Mb; simpl.
    - destruct (String.eqb_spec (spell (d', a)) (spell (d, b))) as [E|E]; auto.
      apply M_inj in E; auto. congruence.
    - destruct (String.eqb_spec (spell (d', a)) (spell (d, b))) as [E|E].
      + apply M_inj in E; auto. congruence.
      + destruct (existsb _ _) eqn:X; auto. apply existsb_exists in X. destruct X as [x [I H]].
        apply (kl_link _ _ _ S d' a La) in I. destruct I as [c [-> H1]].
        destruct (kl_known _ _ _ S _ _ _ H1) as [_ Kc]. apply S in Kc. rewrite (IHn d d') in H; auto; tauto.
  Qed.

  Lemma kl_HasLink : forall r K L d a b, keeps_links r K L -> M (d, a) -> M (d, b) ->
    exists v, snd (HasLink r a b (dom_arg d)) = Ok v /\
      (v = true <-> within L d (max_level r) a b \/
        exists m y, max_level r = S m /\ K (d, y) /\ f (spell (d, a)) (spell (d, y)) = true /\ within L d m y b).
  Proof.
    intros r K L d a b S Ma Mb. unfold HasLink. rewrite dom_short, !prefixed_spell.
    destruct (String.eqb_spec (spell (d, a)) (spell (d, b))) as [E|E].
    { apply spell_same_dom in E. subst. exists true. split; auto. split; auto. intros _. left. constructor. }
    assert (Start : forall n c, K (d, c) -> within L d n c b -> HasRole r (spell (d, b)) = true).
    { intros n c Kc W. assert (Kb : K (d, b)).
      { apply within_known in W. destruct W as [<-|[_ [y Y]]]; [tauto|]. apply S in Y. tauto. }
      apply (kl_HasRole_link r K L); auto. apply S. auto. }
    destruct (HasRole r (spell (d, a))) eqn:Ra; simpl.
    2:{ exists false. split; auto. split; [discriminate|]. intros H. exfalso.
        assert (C : HasRole r (spell (d, a)) = true); [|congruence]. apply (kl_HasRole r K L); auto.
        destruct H as [W|[m [y [_ [Ky [F _]]]]]]; [|eauto]. apply within_known in W. destruct W as [->|[[x X] _]]; [tauto|].
        left. apply S in X. apply S. tauto. }
    destruct (HasRole r (spell (d, b))) eqn:Rb; simpl.
    2:{ exists false. split; auto. split; [discriminate|]. intros H. exfalso.
        assert (C : false = true); [|discriminate].
        destruct H as [W|[m [y [_ [Ky [F W]]]]]]; [|eapply Start; eauto].
        assert (Ka : K (d, a)). { destruct (within_known _ _ _ _ _ W) as [->|[[x X] _]]; [tauto|]. apply S in X. tauto. }
        eapply Start; eauto. }
    eexists. split; [reflexivity|]. rewrite create_level.
    pose proof (kl_ask r K L (d, a) S Ma Ra) as S1.
    destruct (LN_dec (d, a)) as [La|Na].
    - rewrite (kl_chain _ _ _ S1 _ d a b La Mb). split; auto. intros [W|[m [y [EL [Ky [F W]]]]]]; auto.
      assert (My : M (d, y)) by (apply LN_M, S, Ky). destruct (f_apart _ _ Ma My F) as [X|[X _]]; [|tauto].
      inversion X; subst. rewrite EL. clear - W. induction W; [constructor|econstructor; eauto].
    - pose proof (kl_created r K L (d, a) S Ma Na) as HC.
      assert (NW : forall n, within L d n a b -> False).
      { intros n W. destruct (within_known _ _ _ _ _ W) as [->|[[x X] _]]; [tauto|]. apply S in X. destruct X as [X _]. apply S in X. tauto. }
      destruct (max_level r) as [|m]; simpl.
      + destruct (String.eqb_spec (spell (d, a)) (spell (d, b))); [tauto|]. split; [discriminate|].
        intros [W|[m [y [EL _]]]]; [|discriminate]. exfalso. eapply NW; eauto.
      + destruct (String.eqb_spec (spell (d, a)) (spell (d, b))); [tauto|]. rewrite existsb_exists. split.
        * intros [x [I H]]. apply HC in I. destruct I as [[d' y] [Ky [-> F]]]. right. exists m, y.
          assert (Ly : LN (d', y)) by (apply S; auto).
          assert (D : {d' = d} + {d' <> d}) by (decide equality; apply string_dec). destruct D as [->|D].
          -- apply (kl_chain _ _ _ S1) in H; auto.
          -- rewrite (kl_elsewhere _ _ _ S1 m d d') in H; auto. discriminate.
        * intros [W|[m' [y [EL [Ky [F W]]]]]]. { exfalso. eapply NW; eauto. } inversion EL; subst m'.
          exists (spell (d, y)). split. { apply HC. eauto. } apply (kl_chain _ _ _ S1); auto. apply S. auto.
  Qed.

  (** The roles of a name of a link are its links; of a concrete name, the names it matches. *)
  Lemma kl_GetRoles_link : forall r K L d a, keeps_links r K L -> LN (d, a) ->
    exists bs, snd (GetRoles r a (dom_arg d)) = Ok bs /\ NoDup bs /\ forall b, In b bs <-> L (d, a, b).
  Proof.
    intros r K L d a S La. unfold GetRoles. rewrite dom_short, !prefixed_spell.
    destruct (HasRole r (spell (d, a))) eqn:Ra; simpl.
    - pose proof (kl_ask r K L (d, a) S (LN_M _ La) Ra) as S1.
      destruct (mapr_unprefix d (roles_of (all_roles (CreateRole r (spell (d, a)))) (spell (d, a)))) as [bs [E1 E2]].
      { intros x I. apply (kl_link _ _ _ S1 d a La) in I. destruct I as [b [-> _]]. eauto. }
      exists bs. split; auto. split.
      + pose proof (kl_nodup _ _ _ S1 (spell (d, a))) as N. rewrite E2 in N. apply NoDup_map_inv in N. auto.
      + intros b. pose proof (kl_link _ _ _ S1 d a La (spell (d, b))) as H. rewrite E2, in_map_iff in H. split.
        * intros I. destruct (proj1 H) as [c [E X]]; [exists b; auto|]. apply spell_same_dom in E. subst. auto.
        * intros X. destruct (proj2 H) as [c [E I]]; [eauto|]. apply spell_same_dom in E. subst. auto.
    - exists []. split; auto. split; [constructor|]. intros b. split; [intros []|]. intros H.
      apply S in H. destruct H as [H _]. apply (kl_HasRole_link r K L _ S La) in H. congruence.
  Qed.
  Lemma kl_GetRoles_name : forall r K L d a, keeps_links r K L -> M (d, a) -> ~ LN (d, a) ->
    (forall n, K n -> f (spell (d, a)) (spell n) = true -> fst n = d) ->
    exists bs, snd (GetRoles r a (dom_arg d)) = Ok bs /\ NoDup bs /\
      forall b, In b bs <-> K (d, b) /\ f (spell (d, a)) (spell (d, b)) = true.
  Proof.
    intros r K L d a S Ma Na D. unfold GetRoles. rewrite dom_short, !prefixed_spell.
    destruct (HasRole r (spell (d, a))) eqn:Ra; simpl.
    - pose proof (kl_ask r K L (d, a) S Ma Ra) as S1. pose proof (kl_created r K L (d, a) S Ma Na) as HC.
      destruct (mapr_unprefix d (roles_of (all_roles (CreateRole r (spell (d, a)))) (spell (d, a)))) as [bs [E1 E2]].
      { intros x I. apply HC in I. destruct I as [[d' y] [Ky [-> F]]]. apply D in F; auto. simpl in F. subst. eauto. }
      exists bs. split; auto. split.
      + pose proof (kl_nodup _ _ _ S1 (spell (d, a))) as N. rewrite E2 in N. apply NoDup_map_inv in N. auto.
      + intros b. pose proof (HC (spell (d, b))) as H. rewrite E2, in_map_iff in H. split.
        * intros I. destruct (proj1 H) as [c [Kc [E X]]]; [exists b; auto|].
          pose proof (D c Kc X) as Dc. destruct c as [d' c]. simpl in Dc. subst d'. apply spell_same_dom in E. subst. auto.
        * intros [Kb F]. destruct (proj2 H) as [c [E I]]; [eauto|]. apply spell_same_dom in E. subst. auto.
    - exists []. split; auto. split; [constructor|]. intros b. split; [intros []|]. intros [Kb F].
      assert (C : HasRole r (spell (d, a)) = true) by (apply (kl_HasRole r K L); eauto). congruence.
  Qed.
End Pattern.

Section Histories.
  Variables (f : string -> string -> bool) (cs extra : list rcall).
  Hypothesis A : apart (cs ++ extra).
  Hypothesis P : patterns_apart f (cs ++ extra).
  Lemma link_named : forall n, link_name (cs ++ extra) n -> named_in (cs ++ extra) n.
  Proof. intros n [c [I H]]. exists c. split; auto. destruct c; simpl in *; tauto. Qed.
  Lemma pattern_after : forall level,
    keeps_links f (named_in (cs ++ extra)) (link_name (cs ++ extra)) (rm_after_matching f level cs) (introduced cs) (links cs).
  Proof.
    intros level. unfold rm_after_matching, introduced, links.
    apply kl_after.
    - apply named_inj. auto.
    - apply link_named.
    - intros n H. apply (P n n); auto.
    - intros n1 n2 H1 H2. apply (P n1 n2); auto.
    - apply kl_empty.
    - intros c n I H. exists c. rewrite in_app_iff. auto.
    - intros c n I H. exists c. rewrite in_app_iff. auto.
  Qed.
End Histories.

(** The hypotheses about names can be computed. *)
Definition names (c : rcall) : list node :=
  match c with
  | RAdd d a b | RDel d a b | RHasLink d a b => [(d, a); (d, b)]
  | RGetRoles d a => [(d, a)]
  | RGetUsers d b => [(d, b)]
  | RClear => []
  end.
Definition link_names (c : rcall) : list node :=
  match c with RAdd d a b | RDel d a b => [(d, a); (d, b)] | _ => [] end.
Definition same_node (n1 n2 : node) : bool := same_domain (fst n1) (fst n2) && String.eqb (snd n1) (snd n2).
Definition check (f : string -> string -> bool) (cs : list rcall) : bool :=
  let all := flat_map names cs in
  let linked n := existsb (same_node n) (flat_map link_names cs) in
  forallb (fun n1 => f (spell n1) (spell n1) && forallb (fun n2 =>
    (negb (String.eqb (spell n1) (spell n2)) || same_node n1 n2) &&
    (negb (f (spell n1) (spell n2)) || same_node n1 n2 ||
     negb (linked n1) && linked n2 && same_domain (fst n1) (fst n2))) all) all.
Lemma names_in : forall c n, mentions c n <-> In n (names c).
Proof. intros [d a b|d a b| |d a b|d a|d b] n; simpl; intuition. Qed.
Lemma link_names_in : forall c n, link_call c n <-> In n (link_names c).
Proof. intros [d a b|d a b| |d a b|d a|d b] n; simpl; intuition. Qed.
Lemma same_node_true : forall n1 n2, same_node n1 n2 = true <-> n1 = n2.
Proof.
  intros [d1 s1] [d2 s2]. unfold same_node. simpl. rewrite andb_true_iff, String.eqb_eq.
  destruct d1, d2; simpl; rewrite ?String.eqb_eq; split; try (intros [A B]; congruence); intros E; inversion E; auto.
Qed.
Lemma check_sound : forall f cs, check f cs = true -> apart cs /\ patterns_apart f cs /\ within_domain f cs.
Proof.
  intros f cs H. unfold check in H. rewrite forallb_forall in H.
  assert (N : forall n, named_in cs n -> In n (flat_map names cs)).
  { intros n [c [I C]]. apply in_flat_map. exists c. rewrite <- names_in. auto. }
  assert (L : forall n, link_name cs n <-> existsb (same_node n) (flat_map link_names cs) = true).
  { intros n. rewrite existsb_exists. split.
    - intros [c [I C]]. exists n. rewrite same_node_true. split; auto. apply in_flat_map. exists c. rewrite <- link_names_in. auto.
    - intros [m [I E]]. apply same_node_true in E. subst m. apply in_flat_map in I. destruct I as [c [I C]].
      exists c. rewrite link_names_in. auto. }
  assert (Q : forall n1 n2, named_in cs n1 -> named_in cs n2 -> f (spell n1) (spell n1) = true /\
    (spell n1 = spell n2 -> n1 = n2) /\
    (f (spell n1) (spell n2) = true -> n1 = n2 \/ ~ link_name cs n1 /\ link_name cs n2 /\ same_domain (fst n1) (fst n2) = true)).
  { intros n1 n2 H1 H2. specialize (H n1 (N _ H1)). apply andb_true_iff in H. destruct H as [R H]. split; auto.
    rewrite forallb_forall in H. specialize (H n2 (N _ H2)). apply andb_true_iff in H. destruct H as [A B]. split.
    - intros E. rewrite E, eqb_refl_s in A. simpl in A. apply same_node_true. auto.
    - intros F. rewrite F in B. simpl in B. apply orb_true_iff in B. destruct B as [B|B].
      + left. apply same_node_true. auto.
      + right. rewrite !andb_true_iff, negb_true_iff in B. destruct B as [[B1 B2] B3]. rewrite !L, B1, B2. split; [discriminate|auto]. }
  split; [|split].
  - intros c1 c2 n1 n2 I1 I2 M1 M2. apply (Q n1 n2); [exists c1|exists c2]; auto.
  - intros n1 n2 H1 H2. destruct (Q n1 n2 H1 H2) as [A [_ B]]. split; auto. intros F. destruct (B F); tauto.
  - intros n1 n2 H1 H2 F. destruct (Q n1 n2 H1 H2) as [_ [_ B]]. destruct (B F) as [->|[_ [_ D]]]; auto.
    destruct (fst n1), (fst n2); simpl in D; try discriminate; auto. apply String.eqb_eq in D. congruence.
Qed.
