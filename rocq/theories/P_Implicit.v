(** Implicit roles, permissions and users. *)
From Coq Require Import Permutation.
From Verif Require Import Base P_Base M_Util M_RoleManager M_Model M_Persist M_Evaluator M_Enforcer S_Policy S_History S_Roles S_Sync
  P_Decide P_Store P_Api P_History P_Roles P_Sync.

Lemma NoDup_app_iff : forall A (l1 l2 : list A), NoDup (l1 ++ l2) <-> NoDup l1 /\ NoDup l2 /\ (forall x, In x l1 -> ~ In x l2).
Proof.
  intros A l1 l2. split.
  - intros H. induction l1 as [|x l1 IH]; simpl in *. { split; [constructor|]. split; auto. }
    inversion H; subst. destruct (IH H3) as [N1 [N2 D]]. rewrite in_app_iff in H2. split; [constructor; auto|]. split; auto.
    intros y [<-|I]; auto.
  - intros [N1 [N2 D]]. induction l1 as [|x l1 IH]; simpl in *; auto. inversion N1; subst. constructor; auto.
    rewrite in_app_iff. intros [I|I]; auto. apply (D x); auto.
Qed.
Lemma within_snoc : forall L d n a b c, within L d n a b -> L (d, b, c) -> within L d (S n) a c.
Proof.
  intros L d n a b c H. induction H; intros E.
  - eapply within_next; eauto. constructor.
  - eapply within_next; eauto.
Qed.
Lemma within_mono : forall L d n a b, within L d n a b -> forall m, n <= m -> within L d m a b.
Proof.
  intros L d n a b H. induction H; intros m LE. { constructor. }
  destruct m; [lia|]. eapply within_next; eauto. apply IHwithin. lia.
Qed.

(** ** Chains without repetition *)
Section Path.
  Variable L : link -> Prop.
  Variable d : option string.
  Fixpoint path (a : string) (ps : list string) (c : string) : Prop :=
    match ps with
    | [] => a = c
    | b :: ps' => L (d, a, b) /\ path b ps' c
    end.
  Lemma path_within : forall ps a c, path a ps c -> within L d (List.length ps) a c.
  Proof.
    induction ps as [|b ps IH]; simpl; intros a c H. { subst. constructor. }
    destruct H. eapply within_next; eauto.
  Qed.
  Lemma path_suffix : forall ps a x c, path a ps c -> In x ps ->
    exists pre post, ps = pre ++ x :: post /\ path x post c.
  Proof.
    induction ps as [|b ps IH]; simpl; intros a x c H I; [tauto|]. destruct H as [E H].
    destruct I as [->|I].
    - exists [], ps. auto.
    - destruct (IH b x c H I) as [pre [post [-> P]]]. exists (b :: pre), post. auto.
  Qed.
  Lemma within_path : forall n a c, within L d n a c -> exists ps, path a ps c /\ NoDup (a :: ps).
  Proof.
    intros n a c H. induction H.
    - exists []. split; simpl; auto. repeat constructor. simpl. tauto.
    - destruct IHwithin as [ps [P N]]. destruct (in_dec string_dec a (b :: ps)) as [I|I].
      + destruct I as [->|I].
        * exists ps. auto.
        * destruct (path_suffix ps b a c P I) as [pre [post [-> P']]]. exists post. split; auto.
          change (b :: pre ++ a :: post) with ((b :: pre) ++ a :: post) in N. rewrite NoDup_app_iff in N. tauto.
      + exists (b :: ps). split; [simpl; auto|]. constructor; auto.
  Qed.
  Lemma path_reached : forall ps a c x, path a ps c -> In x ps -> exists n, within L d n a x.
  Proof.
    induction ps as [|b ps IH]; simpl; intros a c x P I; [tauto|]. destruct P as [E P]. destruct I as [->|I].
    - exists 1. eapply within_next; eauto. constructor.
    - destruct (IH b c x P I) as [n H]. exists (S n). eapply within_next; eauto.
  Qed.
  (** A chain is no longer than the number of names it can visit. *)
  Lemma within_bound : forall n a c l, within L d n a c -> (forall x m, within L d m a x -> x <> a -> In x l) ->
    within L d (List.length l) a c.
  Proof.
    intros n a c l H C. destruct (within_path _ _ _ H) as [ps [P N]]. apply within_mono with (n := List.length ps).
    - apply path_within. auto.
    - inversion N; subst. apply NoDup_incl_length; auto. intros x I. destruct (path_reached ps a c x P I) as [m W].
      eapply C; eauto. intros ->. auto.
  Qed.
End Path.

(** ** The work list *)
Lemma new_roles_spec : forall roles seen, NoDup (new_roles seen roles) /\
  forall x, In x (new_roles seen roles) <-> In x roles /\ ~ In x seen.
Proof.
  induction roles as [|r rs IH]; intros seen; simpl. { split; [constructor|tauto]. }
  destruct (inb r seen) eqn:E.
  - apply inb_true in E. destruct (IH seen) as [N S]. split; auto. intros x. rewrite S. split; [tauto|]. intros [[->|I] H]; tauto.
  - apply inb_false in E. destruct (IH (r :: seen)) as [N S]. split.
    + constructor; auto. rewrite S. simpl. tauto.
    + intros x. simpl. rewrite S. simpl. destruct (string_dec r x) as [->|D]; [tauto|]. intuition.
Qed.

Local Arguments spell : simpl never.
Section Worklist.
  Variable M : node -> Prop.
  Hypothesis M_inj : forall n1 n2, M n1 -> M n2 -> spell n1 = spell n2 -> n1 = n2.
  Variable e : enforcer.
  Variable r : role_manager.
  Variable L : link -> Prop.
  Hypothesis H_rm : hget (e_heap e) (e_rm e) = Ok r.
  Hypothesis REP : represents M r L.
  Variable d : option string.
  Variable u : string.
  Hypothesis Mu : M (d, u).

  Lemma edge_count_concat : edge_count r = List.length (List.concat (map snd (all_roles r))).
  Proof.
    unfold edge_count. induction (all_roles r) as [|[k l] am IH]; simpl; auto. rewrite app_length. simpl. auto.
  Qed.
  Lemma target_listed : forall a b, L (d, a, b) -> In (spell (d, b)) (List.concat (map snd (all_roles r))).
  Proof.
    intros a b H. apply (rep_complete _ _ _ REP) in H. unfold roles_of in H.
    destruct (aget (spell (d, a)) (all_roles r)) as [l|] eqn:E; [|destruct H].
    apply in_concat. exists l. split; auto. apply in_map_iff. exists (spell (d, a), l). split; auto. apply aget_In. auto.
  Qed.
  Lemma found_bound : forall acc, NoDup acc -> (forall x, In x acc -> exists a, L (d, a, x)) -> List.length acc <= edge_count r.
  Proof.
    intros acc N H. rewrite edge_count_concat. rewrite <- (map_length (fun x => spell (d, x)) acc).
    apply NoDup_incl_length.
    - clear - N H M_inj REP. induction acc as [|x acc IH]; simpl; [constructor|]. inversion N; subst. constructor.
      + rewrite in_map_iff. intros [y [E I]]. apply M_inj in E.
        * inversion E; subst. auto.
        * destruct (H y (or_intror I)) as [a K]. apply (rep_named _ _ _ REP) in K. tauto.
        * destruct (H x (or_introl eq_refl)) as [a K]. apply (rep_named _ _ _ REP) in K. tauto.
      + apply IH; auto. intros y I. apply H. simpl. auto.
    - intros k I. apply in_map_iff in I. destruct I as [x [<- I]]. destruct (H x I) as [a K]. eapply target_listed; eauto.
  Qed.

  Lemma implicit_loop_spec : forall fuel q seen acc,
    seen = rev acc ++ [u] -> NoDup seen -> (forall x, In x q -> In x seen) ->
    (forall x, In x acc -> exists a, L (d, a, x)) ->
    (forall x, In x seen -> exists n, within L d n u x) ->
    (forall x y, In x seen -> ~ In x q -> L (d, x, y) -> In y seen) ->
    fuel + List.length seen >= S (edge_count r) + List.length q ->
    exists l, implicit_loop fuel (dom_arg d) q seen acc e = (e, Ok l) /\ NoDup l /\
      forall x, In x l <-> x <> u /\ exists n, within L d n u x.
  Proof.
    induction fuel as [|fuel IH]; intros q seen acc SE ND QS TG RE CL FU.
    - assert (LS : List.length seen <= S (edge_count r)).
      { subst seen. rewrite app_length, rev_length. simpl. rewrite NoDup_app_iff in ND. destruct ND as [N1 _].
        apply NoDup_rev in N1. rewrite rev_involutive in N1. pose proof (found_bound acc N1 TG). lia. }
      destruct q as [|x q]; [|simpl in FU; lia]. simpl. exists acc. split; auto.
      assert (NA : NoDup acc /\ ~ In u acc).
      { subst seen. rewrite NoDup_app_iff in ND. destruct ND as [N1 [N2 N3]]. apply NoDup_rev in N1. rewrite rev_involutive in N1.
        split; auto. intros I. apply (N3 u); simpl; auto. rewrite <- in_rev. auto. }
      split; [tauto|]. intros x. split.
      + intros I. split; [intros ->; tauto|]. apply RE. subst seen. rewrite in_app_iff, <- in_rev. auto.
      + intros [N [n W]]. assert (I : In x seen).
        { assert (forall a, In a seen -> forall m b, within L d m a b -> In b seen) as CC.
          { intros a I m b W'. clear - W' I CL. induction W'; auto. apply IHW'. apply (CL a b); auto. }
          apply (CC u) with (m := n); auto. subst seen. rewrite in_app_iff. simpl. auto. }
        subst seen. rewrite in_app_iff, <- in_rev in I. simpl in I. intuition. congruence.
    - destruct q as [|x q].
      + simpl. exists acc. split; auto.
        assert (NA : NoDup acc /\ ~ In u acc).
        { subst seen. rewrite NoDup_app_iff in ND. destruct ND as [N1 [N2 N3]]. apply NoDup_rev in N1. rewrite rev_involutive in N1.
          split; auto. intros I. apply (N3 u); simpl; auto. rewrite <- in_rev. auto. }
        split; [tauto|]. intros x. split.
        * intros I. split; [intros ->; tauto|]. apply RE. subst seen. rewrite in_app_iff, <- in_rev. auto.
        * intros [N [n W]]. assert (I : In x seen).
          { assert (forall a, In a seen -> forall m b, within L d m a b -> In b seen) as CC.
            { intros a I m b W'. clear - W' I CL. induction W'; auto. apply IHW'. apply (CL a b); auto. }
            apply (CC u) with (m := n); auto. subst seen. rewrite in_app_iff. simpl. auto. }
          subst seen. rewrite in_app_iff, <- in_rev in I. simpl in I. intuition. congruence.
      + assert (MX : forall y, In y seen -> M (d, y)).
        { intros y I. subst seen. rewrite in_app_iff, <- in_rev in I. destruct I as [I|[<-|[]]]; auto.
          destruct (TG y I) as [a K]. apply (rep_named _ _ _ REP) in K. tauto. }
        destruct (rep_GetRoles M M_inj r L d x REP (MX x (QS x (or_introl eq_refl)))) as [bs [GB [NB IB]]].
        cbn [implicit_loop]. unfold mbind. rewrite (rm_GetRoles_pure _ _ _ _ r H_rm (rep_plain _ _ _ REP)), GB.
        destruct (new_roles_spec bs seen) as [NF FF]. set (fresh := new_roles seen bs) in *.
        destruct (IH (q ++ fresh) (rev fresh ++ seen) (acc ++ fresh)) as [l [E [NL IL]]].
        * subst seen. rewrite rev_app_distr, app_assoc. auto.
        * apply NoDup_app_iff. split; [apply NoDup_rev; auto|]. split; auto. intros y I J. rewrite <- in_rev in I. apply FF in I. tauto.
        * intros y I. rewrite in_app_iff in *. rewrite <- in_rev. destruct I; auto. right. apply QS. simpl. auto.
        * intros y I. rewrite in_app_iff in I. destruct I as [I|I]; auto. apply FF in I. exists x. apply IB. tauto.
        * intros y I. rewrite in_app_iff, <- in_rev in I. destruct I as [I|I]; auto.
          apply FF in I. destruct I as [I _]. apply IB in I. destruct (RE x (QS x (or_introl eq_refl))) as [n W].
          exists (S n). eapply within_snoc; eauto.
        * intros y z I NQ K. rewrite in_app_iff, <- in_rev in I |- *. rewrite in_app_iff in NQ.
          destruct I as [I|I]; [tauto|]. destruct (string_dec y x) as [->|D].
          -- apply IB in K. destruct (in_dec string_dec z seen); auto. left. apply FF. auto.
          -- right. apply (CL y z); auto. simpl. intuition.
        * rewrite !app_length, rev_length. simpl in FU. lia.
        * exists l. auto.
  Qed.

  Lemma implicit_roles_spec :
    exists l, GetImplicitRolesForUser u (dom_arg d) e = (e, Ok l) /\ NoDup l /\
      forall x, In x l <-> x <> u /\ exists n, within L d n u x.
  Proof.
    unfold GetImplicitRolesForUser. rewrite H_rm. apply implicit_loop_spec; simpl; auto.
    - repeat constructor. simpl. tauto.
    - intros; tauto.
    - intros x [<-|[]]. exists 0. constructor.
    - lia.
  Qed.
End Worklist.

(** ** Permissions *)
Section Perms.
  Variable e : enforcer.
  Variable a : assertion.
  Hypothesis A : get_ast (e_model e) "p" "p" = Ok a.

  Definition has_subject (dom : option string) (s : string) (ru : rule) : Prop :=
    nth_error ru 0 = Some s /\ match dom with Some x => nth_error ru 1 = Some x | None => True end.

  Lemma qualifies_subject : forall dom s ru, s <> "" -> (forall x, dom = Some x -> x <> "") ->
    (qualifies 0 (s :: dom_arg dom) ru <-> has_subject dom s ru).
  Proof.
    intros dom s ru N ND. unfold qualifies, has_subject. split.
    - intros H. split; [apply (H 0 s); auto|]. destruct dom as [x|]; auto. apply (H 1 x); auto.
    - intros [H1 H2] [|[|j]] v E V; simpl in E.
      + inversion E; subst. auto.
      + destruct dom; simpl in E; inversion E; subst. auto.
      + destruct dom; simpl in E; destruct j; discriminate.
  Qed.
  Lemma perms_of_spec : forall dom roles, (forall s, In s roles -> s <> "") -> (forall x, dom = Some x -> x <> "") ->
    (forall ru, In ru (stored e "p" "p") -> S (List.length (dom_arg dom)) <= List.length ru) ->
    exists l, perms_of (dom_arg dom) roles e = (e, Ok l) /\
      (forall ru, In ru l <-> In ru (stored e "p" "p") /\ exists s, In s roles /\ has_subject dom s ru) /\
      (NoDup roles -> NoDup (stored e "p" "p") -> NoDup l).
  Proof.
    intros dom roles NE ND LE. induction roles as [|s roles IH].
    - exists []. split; [reflexivity|]. split; [|intros; constructor]. intros ru. simpl. firstorder.
    - destruct IH as [l [E [I NL]]]. { intros. apply NE. simpl. auto. }
      assert (P : exists l0, filter_rules 0 (s :: dom_arg dom) (stored e "p" "p") = Ok l0).
      { apply filter_rules_range. intros ru J. simpl. apply LE. auto. }
      destruct P as [l0 P]. pose proof (filter_rules_spec _ _ _ _ P) as SEL.
      assert (I0 : forall ru, In ru l0 <-> In ru (stored e "p" "p") /\ has_subject dom s ru).
      { intros ru. rewrite (selects_in _ _ _ ru SEL), qualifies_subject; auto. tauto. apply NE. simpl. auto. }
      exists (l0 ++ l). split; [|split].
      + cbn [perms_of]. unfold mbind at 1.
        assert (G : (match dom_arg dom with dd :: _ => GetPermissionsForUserInDomain s dd | [] => GetPermissionsForUser s end) e = (e, Ok l0)).
        { unfold stored, rules_in in P. rewrite A in P. destruct dom as [x|]; simpl in P |- *;
            unfold GetPermissionsForUserInDomain, GetPermissionsForUser, e_GetFilteredPolicy, GetFilteredNamedPolicy, read_model, GetFilteredPolicy;
            rewrite A; cbn [bind]; rewrite P; reflexivity. }
        rewrite G. unfold mbind. rewrite E. reflexivity.
      + intros ru. rewrite in_app_iff, I0, I. split.
        * intros [[H1 H2]|[H1 [t [H2 H3]]]]; split; auto; [exists s|exists t]; simpl; auto.
        * intros [H1 [t [[<-|H2] H3]]]; [left|right]; eauto.
      + intros NR NS. inversion NR; subst. apply NoDup_app_iff. split; [|split; auto].
        * clear - SEL NS. induction SEL; auto.
          -- inversion NS; subst. constructor; auto. intros J. apply (selects_in _ _ _ _ SEL) in J. tauto.
          -- inversion NS; auto.
        * intros ru J K. apply I0 in J. apply I in K. destruct J as [_ [J _]]. destruct K as [_ [t [K1 [K2 _]]]].
          rewrite J in K2. inversion K2; subst. auto.
  Qed.
End Perms.
