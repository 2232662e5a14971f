(** Proofs about a role manager of the caller. *)
From Coq Require Import Permutation.
From Verif Require Import Base P_Base M_Util M_RoleManager M_Model M_Persist M_Evaluator M_Enforcer M_OwnRoles.
From Verif Require Import S_Policy S_History S_Sync S_OwnRoles P_Store P_Group P_History P_Roles P_Api P_Nodup P_Sync.

Section Own.
  Context {St : Type} (mg : St -> heard -> St * res unit).
  Notation own := (own St).

  Lemma obind_ok : forall A B (x : OM St A) (f : A -> OM St B) s s' b,
    obind St x f s = (s', Ok b) -> exists s1 a, x s = (s1, Ok a) /\ f a s1 = (s', Ok b).
  Proof. intros A B x f s s' b H. unfold obind in H. destruct (x s) as [s1 [a|t|u]]; try discriminate. eauto. Qed.
  Lemma inside_ok : forall A (x : M A) s s' a, inside St x s = (s', Ok a) ->
    exists e', x (o_e s) = (e', Ok a) /\ s' = mkOwn e' (o_st s) (o_heard s).
  Proof. intros A x s s' a H. unfold inside in H. destruct (x (o_e s)) as [e' out]. inversion H; subst. eauto. Qed.
  Lemma tell_ok : forall c s s' a, tell St mg c s = (s', Ok a) ->
    o_e s' = o_e s /\ o_heard s' = o_heard s ++ [c].
  Proof. intros c s s' a H. unfold tell in H. destruct (mg (o_st s) c) as [st out]. inversion H; subst. auto. Qed.
  Lemma told_snoc : forall hs c, told (hs ++ [c]) = after_hearing (told hs) c.
  Proof. intros. unfold told. rewrite fold_left_app. reflexivity. Qed.

  Definition facts (n : nat) (rs : list rule) (l : fact) : Prop := exists r, In r rs /\ fact_of n r = Some l.
  Definition linked_as (op : policy_op) (n : nat) (rs : list rule) (T T' : fact -> Prop) : Prop :=
    match op with
    | policy_add => forall l, T' l <-> T l \/ facts n rs l
    | policy_remove => forall l, T' l <-> T l /\ ~ facts n rs l
    end.

  Lemma link_rule_ok : forall op n ru s s' a, own_link_rule St mg op n ru s = (s', Ok a) ->
    o_e s' = o_e s /\ linked_as op n [ru] (told (o_heard s)) (told (o_heard s')) /\ exists l, fact_of n ru = Some l.
  Proof.
    intros op n ru s s' a0 H. unfold own_link_rule in H. unfold linked_as, facts, fact_of.
    destruct (Nat.ltb (List.length ru) n) eqn:E; [discriminate|].
    destruct (firstn n ru) as [|a [|b d]] eqn:F; try discriminate.
    assert (X : forall l, (exists r, In r [ru] /\ (if Nat.ltb (List.length r) n then None else match firstn n r with a :: b :: d => Some (a, b, d) | _ => None end) = Some l) <-> l = (a, b, d)).
    { intros l. split.
      - intros [r [[<-|[]] Q]]. rewrite E, F in Q. congruence.
      - intros ->. exists ru. rewrite E, F. simpl. auto. }
    destruct op; destruct (tell_ok _ _ _ _ H) as [H1 H2]; split; auto; (split; [|eauto]); intros l; rewrite H2, told_snoc; simpl.
    - pose proof (X l). tauto.
    - pose proof (X l). tauto.
  Qed.
  Lemma link_rules_ok : forall op n rs s s' a, own_link_rules St mg op n rs s = (s', Ok a) ->
    o_e s' = o_e s /\ linked_as op n rs (told (o_heard s)) (told (o_heard s')).
  Proof.
    intros op n. induction rs as [|ru rs IH]; intros s s' a H; simpl in H.
    - inversion H; subst. split; auto. destruct op; simpl; intros l; split; try tauto.
      + intros [|[r [[] _]]]; auto.
      + intros K. split; auto. intros [r [[] _]].
    - apply obind_ok in H. destruct H as [s1 [b [H1 H2]]]. destruct (link_rule_ok _ _ _ _ _ _ H1) as [E1 [L1 _]].
      destruct (IH _ _ _ H2) as [E2 L2]. split; [congruence|].
      assert (X : forall l, facts n (ru :: rs) l <-> facts n [ru] l \/ facts n rs l).
      { intros l. unfold facts. split.
        - intros [r [[<-|I] Q]]; [left; exists ru|right; exists r]; simpl; auto.
        - intros [[r [[<-|[]] Q]]|[r [I Q]]]; [exists ru|exists r]; simpl; auto. }
      destruct op; simpl in *; intros l; rewrite L2, L1, X; tauto.
  Qed.
  Lemma ast_links_ok : forall op value rs s s' a, own_ast_links St mg op value rs s = (s', Ok a) ->
    o_e s' = o_e s /\ linked_as op (scount "_" value) rs (told (o_heard s)) (told (o_heard s')).
  Proof.
    intros op value rs s s' a H. unfold own_ast_links in H. destruct (Nat.ltb (scount "_" value) 2); [discriminate|].
    eapply link_rules_ok; eauto.
  Qed.

  (** What the links are about stays the same. *)
  Record same_g (e e' : enforcer) : Prop := mkSG {
    sg_stored : forall pt, stored e' "g" pt = stored e "g" pt;
    sg_fields : forall pt, fields_of e' pt = fields_of e pt;
    sg_build : e_auto_build e' = e_auto_build e;
    sg_types : types_distinct e -> types_distinct e' }.
  Lemma same_g_refl : forall e, same_g e e.
  Proof. intros. constructor; auto. Qed.
  Lemma same_g_trans : forall a b c, same_g a b -> same_g b c -> same_g a c.
  Proof. intros a b c [] []. constructor; auto; intros; congruence. Qed.
  Lemma same_g_asts : forall e e', asts e' = asts e -> e_auto_build e' = e_auto_build e -> same_g e e'.
  Proof.
    intros e e' A B. constructor; auto; intros.
    - rewrite !stored_asts_g, A. auto.
    - unfold fields_of. unfold asts in A. rewrite A. auto.
    - unfold types_distinct in *. unfold asts in A. rewrite A. auto.
  Qed.
  Lemma frame_same_g : forall e e', frame e e' -> same_g e e'.
  Proof. intros e e' [F1 F2 F3 F4 F5]. apply same_g_asts; auto. Qed.
  Lemma same_g_listed : forall e e', same_g e e' -> forall l, listed_links e' l <-> listed_links e l.
  Proof.
    intros e e' [S F _ _] l. unfold listed_links. split; intros [pt [r [I E]]]; exists pt, r; rewrite ?S, ?F in *; auto.
  Qed.

  Lemma asts_put_ast : forall e pt a, asts (set_model (put_ast (e_model e) "g" pt a) e) = aset pt a (asts e).
  Proof. intros. apply asts_put. reflexivity. Qed.
  Lemma incremental_ok : forall op pt rs s s' a, own_BuildIncrementalRoleLinks St mg op pt rs s = (s', Ok a) ->
    same_g (o_e s) (o_e s') /\ declared (o_e s) "g" pt /\
    linked_as op (fields_of (o_e s) pt) rs (told (o_heard s)) (told (o_heard s')).
  Proof.
    intros op pt rs s s' a0 H. apply obind_ok in H. destruct H as [s1 [v [H1 H2]]].
    apply inside_ok in H1. destruct H1 as [e1 [H1 ->]].
    destruct (get_ast (e_model (o_e s)) "g" pt) as [a|t|u] eqn:G; try discriminate. inversion H1; subst. clear H1.
    destruct (ast_links_ok _ _ _ _ _ _ H2) as [E L]. simpl in *.
    pose proof (get_asts _ _ _ G) as GA.
    split; [|split].
    - rewrite E. constructor; simpl; auto; intros.
      + rewrite !stored_asts_g, asts_put_ast, aget_aset. destruct (String.eqb_spec pt0 pt); auto. subst. rewrite GA. auto.
      + unfold fields_of. change (sec_of (e_model (set_model (put_ast (e_model (o_e s)) "g" pt (with_rm a (Some (e_rm (o_e s))))) (o_e s))) "g")
          with (asts (set_model (put_ast (e_model (o_e s)) "g" pt (with_rm a (Some (e_rm (o_e s))))) (o_e s))).
        rewrite asts_put_ast, aget_aset. destruct (String.eqb_spec pt0 pt); auto. subst. unfold asts in GA. rewrite GA. auto.
      + unfold types_distinct in *. change (NoDup (map fst (asts (set_model (put_ast (e_model (o_e s)) "g" pt (with_rm a (Some (e_rm (o_e s))))) (o_e s))))).
        rewrite asts_put_ast. apply NoDup_keys_aset. auto.
    - exists a. auto.
    - unfold fields_of. unfold asts in GA. rewrite GA. exact L.
  Qed.

  Lemma build_asts_ok' : forall rm todo s am s' a, own_build_asts St mg rm todo s = (am, (s', Ok a)) ->
    am = map (fun kv => (fst kv, with_rm (snd kv) (Some rm))) todo /\ o_e s' = o_e s /\
    (forall l, told (o_heard s') l <-> told (o_heard s) l \/
       exists k x, In (k, x) todo /\ facts (scount "_" (a_value x)) (rules_of (a_policy x)) l).
  Proof.
    intros rm. induction todo as [|[k x] rest IH]; intros s am s' a H; simpl in H.
    - inversion H; subst. split; auto. split; auto. intros l. split; auto. intros [|[k [x [[] _]]]]; auto.
    - destruct (own_ast_links St mg policy_add (a_value x) (rules_of (a_policy x)) s) as [s1 [b|t|u]] eqn:E; try discriminate.
      destruct (own_build_asts St mg rm rest s1) as [am1 r1] eqn:B. inversion H; subst. clear H.
      destruct (ast_links_ok _ _ _ _ _ _ E) as [E1 L1]. destruct (IH _ _ _ _ B) as [A2 [E2 L2]].
      split; [simpl; congruence|]. split; [congruence|]. intros l. rewrite L2. simpl in L1. rewrite L1. split.
      + intros [[K|K]|[k' [x' [I K]]]]; auto; right; [exists k, x|exists k', x']; simpl; auto.
      + intros [K|[k' [x' [[I|I] K]]]]; auto; [inversion I; subst; auto|]. right. exists k', x'. auto.
  Qed.
  Lemma build_ok : forall s s' a, own_BuildRoleLinks St mg s = (s', Ok a) -> types_distinct (o_e s) ->
    same_g (o_e s) (o_e s') /\ informed s'.
  Proof.
    intros s s' a H TD. apply obind_ok in H. destruct H as [s1 [u [H1 H2]]]. destruct (tell_ok _ _ _ _ H1) as [E1 T1].
    cbv zeta in H2. destruct (own_build_asts St mg (e_rm (o_e s1)) (sec_of (touch (e_model (o_e s1)) "g") "g") s1) as [am [s2 out]] eqn:B.
    injection H2 as <- ->. destruct (build_asts_ok' _ _ _ _ _ _ B) as [A [E2 L]]. rewrite sec_touch in *. rewrite E1 in *.
    set (e' := set_model (aset "g" am (touch (e_model (o_e s)) "g")) (o_e s)).
    assert (AS : asts e' = map (fun kv => (fst kv, with_rm (snd kv) (Some (e_rm (o_e s))))) (asts (o_e s))).
    { unfold asts at 1. unfold e'. simpl. unfold sec_of at 1. rewrite aget_aset_same. exact A. }
    assert (G1 : forall pt, aget pt (asts e') = option_map (fun a => with_rm a (Some (e_rm (o_e s)))) (aget pt (asts (o_e s)))).
    { intros pt. rewrite AS. generalize (asts (o_e s)). induction a0 as [|[k x] am0 IH]; simpl; auto. destruct (String.eqb pt k); auto. }
    assert (SG : same_g (o_e s) e').
    { constructor; auto.
      - intros pt. rewrite !stored_asts_g, G1. destruct (aget pt (asts (o_e s))); auto.
      - intros pt. unfold fields_of. change (sec_of (e_model e') "g") with (asts e'). rewrite G1. unfold asts. destruct (aget pt (sec_of (e_model (o_e s)) "g")); auto.
      - intros _. unfold types_distinct. change (sec_of (e_model e') "g") with (asts e'). rewrite AS, map_map. simpl. exact TD. }
    split; [exact SG|]. intros l. simpl. rewrite L. change (mkOwn e' (o_st s2) (o_heard s2)) with (mkOwn e' (o_st s2) (o_heard s2)).
    rewrite T1, told_snoc. simpl. fold e'. rewrite (same_g_listed _ _ SG l). unfold listed_links, facts. split.
    - intros [[]|[k [x [I [r [J Q]]]]]]. exists k, r. apply In_aget in I; [|exact TD]. rewrite stored_asts_g. unfold fields_of.
      unfold asts. rewrite I. auto.
    - intros [pt [r [I Q]]]. right. rewrite stored_asts_g in I. unfold fields_of in Q. unfold asts in I.
      destruct (aget pt (sec_of (e_model (o_e s)) "g")) as [x|] eqn:G; [|destruct I]. exists pt, x. split; [apply aget_In; auto|]. eauto.
  Qed.

  (** The end of a change. *)
  Lemma tail_ok' : forall c s s' b, own_tail St c s = (s', Ok b) -> same_g (o_e s) (o_e s') /\ o_heard s' = o_heard s.
  Proof.
    intros c s s' b H. apply obind_ok in H. destruct H as [s1 [x [H1 H2]]]. apply obind_ok in H2. destruct H2 as [s2 [y [H2 H3]]].
    inversion H3; subst. apply inside_ok in H1. destruct H1 as [e1 [H1 ->]]. apply inside_ok in H2. destruct H2 as [e2 [H2 ->]]. simpl in *.
    split; auto. apply same_g_trans with e1; apply frame_same_g.
    - pose proof (autosave_frame c (o_e s)) as F. rewrite H1 in F. exact F.
    - pose proof (notify_frame e1) as F. rewrite H2 in F. exact F.
  Qed.

  (** Changing the rules of one type. *)
  Lemma edit_g : forall e pt a p, get_ast (e_model e) "g" pt = Ok a ->
    (forall q, stored (set_model (put_policy (e_model e) "g" pt a p) e) "g" q = if String.eqb q pt then rules_of p else stored e "g" q) /\
    (forall q, fields_of (set_model (put_policy (e_model e) "g" pt a p) e) q = fields_of e q) /\
    (types_distinct e -> types_distinct (set_model (put_policy (e_model e) "g" pt a p) e)).
  Proof.
    intros e pt a p G. pose proof (get_asts _ _ _ G) as GA. set (e' := set_model (put_policy (e_model e) "g" pt a p) e).
    assert (A : asts e' = aset pt (with_policy a p) (asts e)) by (apply asts_put_ast).
    split; [|split].
    - intros q. rewrite !stored_asts_g, A, aget_aset. destruct (String.eqb q pt); auto.
    - intros q. unfold fields_of. change (sec_of (e_model e') "g") with (asts e'). rewrite A, aget_aset.
      destruct (String.eqb_spec q pt); auto. subst. unfold asts in GA. rewrite GA. auto.
    - intros TD. unfold types_distinct. change (sec_of (e_model e') "g") with (asts e'). rewrite A. apply NoDup_keys_aset. exact TD.
  Qed.
  Lemma stored_get : forall e pt a, get_ast (e_model e) "g" pt = Ok a -> stored e "g" pt = rules_of (a_policy a).
  Proof. intros. unfold stored. apply rules_in_get. auto. Qed.

  Lemma listed_more : forall e e' pt l' rs,
    (forall q, stored e' "g" q = if String.eqb q pt then l' else stored e "g" q) ->
    (forall q, fields_of e' q = fields_of e q) ->
    (forall x, In x l' <-> In x (stored e "g" pt) \/ In x rs) ->
    forall l, listed_links e' l <-> listed_links e l \/ facts (fields_of e pt) rs l.
  Proof.
    intros e e' pt l' rs H1 HF H2 l. unfold listed_links, facts. split.
    - intros [q [r [I E]]]. rewrite H1 in I. rewrite HF in E. destruct (String.eqb_spec q pt).
      + subst. apply H2 in I. destruct I; [left; exists pt, r|right; exists r]; auto.
      + left. exists q, r. auto.
    - intros [[q [r [I E]]]|[r [I E]]].
      + exists q, r. rewrite HF. split; auto. rewrite H1. destruct (String.eqb_spec q pt); auto. subst. apply H2. auto.
      + exists pt, r. rewrite HF. split; auto. rewrite H1, eqb_refl_s. apply H2. auto.
  Qed.

  Definition good (s : own) : Prop := informed s /\ types_distinct (o_e s).
  Lemma good_same : forall s s', good s -> same_g (o_e s) (o_e s') -> o_heard s' = o_heard s -> good s'.
  Proof.
    intros s s' [I TD] SG E. split; [|apply (sg_types _ _ SG); auto]. intros l. rewrite E, (same_g_listed _ _ SG l). apply I.
  Qed.

  Lemma add_many_gen : forall w pt rs s s' b,
    obind St (inside St (on_model (fun m => AddPolicies m "g" pt rs))) (fun added =>
      if negb added then oret St false
      else obind St (own_BuildIncrementalRoleLinks St mg policy_add pt rs) (fun _ => own_tail St (w rs))) s = (s', Ok b) ->
    good s -> good s'.
  Proof.
    intros w pt rs s s' b H [I TD]. apply obind_ok in H. destruct H as [s1 [ad [H1 H2]]]. apply inside_ok in H1. destruct H1 as [e1 [H1 ->]].
    unfold on_model, AddPolicies in H1.
    assert (CASE : (ad = false /\ e1 = o_e s) \/
      (ad = true /\ (types_distinct (o_e s) -> types_distinct e1) /\ (forall q, fields_of e1 q = fields_of (o_e s) q) /\
       forall l, listed_links e1 l <-> listed_links (o_e s) l \/ facts (fields_of (o_e s) pt) rs l)).
    { destruct rs as [|r0 rs0].
      - rewrite set_model_id in H1. inversion H1; subst. right. split; auto. split; auto. split; auto. intros l. split; auto.
        intros [|[x [[] _]]]; auto.
      - destruct (get_ast_cases (e_model (o_e s)) "g" pt) as [[a G]|G]; rewrite G in H1; cbn [bind] in H1; [|discriminate].
        destruct (existsb (has_rule (rules_of (a_policy a))) (r0 :: rs0)) eqn:X; inversion H1; subst.
        + left. rewrite set_model_id. auto.
        + right. split; auto. destruct (edit_g (o_e s) pt a (fold_left emplace (r0 :: rs0) (a_policy a)) G) as [S [F T]].
          split; auto. split; auto. eapply listed_more; eauto. intros x. rewrite fold_emplace_in, (stored_get _ _ _ G). tauto. }
    destruct CASE as [[-> ->]|[-> [T1 [F1 L1]]]]; cbn [negb] in H2.
    - inversion H2; subst. split; auto.
    - apply obind_ok in H2. destruct H2 as [s2 [u [H2 H3]]]. destruct (incremental_ok _ _ _ _ _ _ H2) as [SG [_ L2]]. simpl in *.
      destruct (tail_ok' _ _ _ _ H3) as [SG3 E3]. apply good_same with s2; auto. split; [|apply (sg_types _ _ SG); auto].
      intros l. rewrite L2, (same_g_listed _ _ SG l), L1, F1, (I l). tauto.
  Qed.

  Lemma addPolicy_ok : forall pt r s s' b, own_addPolicy St mg pt r s = (s', Ok b) -> good s ->
    good s' /\ (no_anagram r (stored (o_e s) "g" pt) -> In r (stored (o_e s') "g" pt)).
  Proof.
    intros pt r s s' b H [I TD]. apply obind_ok in H. destruct H as [s1 [ad [H1 H2]]]. apply inside_ok in H1. destruct H1 as [e1 [H1 ->]].
    unfold on_model, AddPolicy in H1. destruct (get_ast_cases (e_model (o_e s)) "g" pt) as [[a G]|G]; rewrite G in H1; cbn [bind] in H1; [|discriminate].
    destruct (has_rule (rules_of (a_policy a)) r) eqn:X; inversion H1; subst; clear H1; cbn [negb] in H2.
    - inversion H2; subst. rewrite set_model_id. split; [split; auto|]. simpl. intros NA. rewrite (stored_get _ _ _ G) in *. apply has_rule_in; auto.
    - destruct (edit_g (o_e s) pt a (emplace (a_policy a) r) G) as [S [F T]].
      assert (L1 : forall l, listed_links (set_model (put_policy (e_model (o_e s)) "g" pt a (emplace (a_policy a) r)) (o_e s)) l <->
        listed_links (o_e s) l \/ facts (fields_of (o_e s) pt) [r] l).
      { eapply listed_more; eauto. intros x. rewrite emplace_in, (stored_get _ _ _ G). simpl. intuition. }
      apply obind_ok in H2. destruct H2 as [s2 [u [H2 H3]]]. destruct (incremental_ok _ _ _ _ _ _ H2) as [SG [_ L2]]. simpl in *.
      destruct (tail_ok' _ _ _ _ H3) as [SG3 E3]. split.
      + apply good_same with s2; auto. split; [|apply (sg_types _ _ SG); auto].
        intros l. rewrite L2, (same_g_listed _ _ SG l), L1, F, (I l). tauto.
      + intros _. rewrite (sg_stored _ _ SG3), (sg_stored _ _ SG), S, eqb_refl_s, emplace_in. auto.
  Qed.
  Lemma add_ok : forall pt r s s' b, own_AddNamedGroupingPolicy St mg pt r s = (s', Ok b) ->
    no_anagram r (stored (o_e s) "g" pt) -> good s -> good s'.
  Proof.
    intros pt r s s' b H NA Gd. apply obind_ok in H. destruct H as [s1 [ad [H1 H2]]]. destruct (addPolicy_ok _ _ _ _ _ H1 Gd) as [[I TD] IN].
    specialize (IN NA). apply obind_ok in H2. destruct H2 as [s2 [u [H2 H3]]]. inversion H3; subst.
    destruct (e_auto_build (o_e s1)); [|inversion H2; subst; split; auto].
    destruct (incremental_ok _ _ _ _ _ _ H2) as [SG [_ L2]]. simpl in *. split; [|apply (sg_types _ _ SG); auto].
    intros l. rewrite L2, (same_g_listed _ _ SG l), (I l). split; auto. intros [|[x [[<-|[]] Q]]]; auto. exists pt, r. auto.
  Qed.

  (** Calls that end by building the links. *)
  Lemma rebuild_good : forall s s' a, own_rebuild_if_auto St mg s = (s', Ok a) -> e_auto_build (o_e s) = true ->
    types_distinct (o_e s) -> good s'.
  Proof.
    intros s s' a H B TD. unfold own_rebuild_if_auto in H. rewrite B in H. destruct (build_ok _ _ _ H TD) as [SG I].
    split; auto. apply (sg_types _ _ SG). auto.
  Qed.
  Definition light (e e' : enforcer) : Prop := e_auto_build e' = e_auto_build e /\ (types_distinct e -> types_distinct e').
  Lemma same_light : forall e e', same_g e e' -> light e e'.
  Proof. intros e e' [_ _ A B]. split; auto. Qed.
  Lemma light_trans : forall a b c, light a b -> light b c -> light a c.
  Proof. intros a b c [] []. split; auto; congruence. Qed.
  Lemma remove_ok : forall pt r s s' b, own_RemoveNamedGroupingPolicy St mg pt r s = (s', Ok b) ->
    e_auto_build (o_e s) = true -> types_distinct (o_e s) -> good s'.
  Proof.
    intros pt r s s' b H B TD. apply obind_ok in H. destruct H as [s1 [ad [H1 H2]]]. apply obind_ok in H2. destruct H2 as [s2 [u [H2 H3]]].
    inversion H3; subst. assert (LT : light (o_e s) (o_e s1)).
    { apply obind_ok in H1. destruct H1 as [s3 [c [H1 H4]]]. apply inside_ok in H1. destruct H1 as [e1 [H1 ->]].
      unfold on_model, RemovePolicy in H1. destruct (get_ast_cases (e_model (o_e s)) "g" pt) as [[a G]|G]; rewrite G in H1; cbn [bind] in H1; [|discriminate].
      destruct (erase_first r (rules_of (a_policy a))) as [l|]; inversion H1; subst; cbn [negb] in H4.
      - destruct (edit_g (o_e s) pt a (with_rules (a_policy a) l) G) as [S [F T]].
        apply obind_ok in H4. destruct H4 as [s4 [v [H4 H5]]]. destruct (incremental_ok _ _ _ _ _ _ H4) as [SG _]. destruct (tail_ok' _ _ _ _ H5) as [SG3 _].
        destruct (same_light _ _ SG) as [X1 X2]. destruct (same_light _ _ SG3) as [X3 X4]. simpl in *. split; [congruence|auto].
      - inversion H4; subst. rewrite set_model_id. split; auto. }
    destruct LT as [L1 L2]. eapply rebuild_good; eauto; try congruence.
  Qed.
  Lemma remove_filtered_ok : forall pt i vals s s' b, own_RemoveFilteredNamedGroupingPolicy St mg pt i vals s = (s', Ok b) ->
    e_auto_build (o_e s) = true -> types_distinct (o_e s) -> good s'.
  Proof.
    intros pt i vals s s' b H B TD. apply obind_ok in H. destruct H as [s1 [ad [H1 H2]]]. apply obind_ok in H2. destruct H2 as [s2 [u [H2 H3]]].
    inversion H3; subst. assert (LT : light (o_e s) (o_e s1)).
    { apply obind_ok in H1. destruct H1 as [s3 [c [H1 H4]]]. apply inside_ok in H1. destruct H1 as [e1 [H1 ->]].
      unfold on_model, RemoveFilteredPolicy in H1. destruct (get_ast_cases (e_model (o_e s)) "g" pt) as [[a G]|G]; rewrite G in H1; cbn [bind] in H1; [|discriminate].
      destruct (partition_rules i vals (rules_of (a_policy a))) as [[eff tmp]|t|v] eqn:P; cbn [bind] in H1; try discriminate.
      inversion H1; subst. destruct (edit_g (o_e s) pt a (Vec tmp) G) as [S [F T]]. cbn [fst snd] in H4.
      destruct eff as [|x eff]; cbn [negb] in H4.
      - inversion H4; subst. split; auto.
      - apply obind_ok in H4. destruct H4 as [s4 [v [H4 H5]]]. destruct (incremental_ok _ _ _ _ _ _ H4) as [SG _]. destruct (tail_ok' _ _ _ _ H5) as [SG3 _].
        destruct (same_light _ _ SG) as [X1 X2]. destruct (same_light _ _ SG3) as [X3 X4]. simpl in *. split; [congruence|auto]. }
    destruct LT as [L1 L2]. eapply rebuild_good; eauto; try congruence.
  Qed.

  (** Loading keeps the grouping types. *)
  Definition gkeys (m : model) : list string := map fst (sec_of m "g").
  Lemma gkeys_touch : forall m s, gkeys (touch m s) = gkeys m.
  Proof. intros. unfold gkeys. rewrite sec_touch. auto. Qed.
  Lemma keys_aset_old : forall (am : assertion_map) k a b, aget k am = Some a -> map fst (aset k b am) = map fst am.
  Proof.
    induction am as [|[k' x] am IH]; simpl; intros k a b H; [discriminate|]. destruct (String.eqb_spec k k'); simpl.
    - subst. auto.
    - f_equal. eauto.
  Qed.
  Lemma gkeys_put : forall m sec pt a p, get_ast m sec pt = Ok a -> gkeys (put_policy m sec pt a p) = gkeys m.
  Proof.
    intros m sec pt a p G. unfold gkeys, put_policy, put_ast. unfold sec_of at 1. rewrite aget_aset. destruct (String.eqb_spec "g" sec).
    - subst. apply (keys_aset_old _ pt a). unfold get_ast in G. destruct (aget pt (sec_of m "g")); inversion G. auto.
    - auto.
  Qed.
  Lemma gkeys_clear : forall m, gkeys (ClearPolicy m) = gkeys m.
  Proof.
    intros m. unfold ClearPolicy. unfold gkeys at 1. unfold sec_of at 1. rewrite aget_aset_same.
    unfold clear_sec. rewrite map_map. simpl. rewrite sec_touch. unfold sec_of at 1. rewrite aget_aset_other by discriminate. fold (sec_of (touch m "p") "g"). rewrite sec_touch. auto.
  Qed.
  Lemma gkeys_line : forall l m, gkeys (fst (LoadPolicyLine l m)) = gkeys m.
  Proof.
    intros l m. unfold LoadPolicyLine. destruct (_ || _); auto. destruct (map Trim (Split l "," None)) as [|key toks]; auto.
    destruct (get_ast (touch m (stake 1 key)) (stake 1 key) key) as [a|t|u] eqn:G; simpl; rewrite ?(gkeys_put _ _ _ _ _ G); apply gkeys_touch.
  Qed.
  Lemma gkeys_lines : forall ls m, gkeys (fst (load_lines ls m)) = gkeys m.
  Proof.
    induction ls as [|l ls IH]; intros m; simpl; auto. pose proof (gkeys_line l m) as K.
    destruct (LoadPolicyLine l m) as [m' [x|t|u]]; simpl in *; auto. rewrite IH. auto.
  Qed.
  Lemma load_light : forall e e', (e_ClearPolicy ;;; adapter_load) e = (e', Ok tt) -> light e e'.
  Proof.
    intros e e' H. unfold mbind in H. simpl in H. unfold adapter_load in H. simpl in H.
    assert (X : forall e' m, gkeys m = gkeys (e_model e) -> e_model e' = m -> e_auto_build e' = e_auto_build e -> light e e').
    { intros x m K1 K2 K3. split; auto. unfold types_distinct. rewrite K2. fold (gkeys m). rewrite K1. auto. }
    assert (F : forall p, gkeys (fst (FileAdapter_LoadPolicy (e_fs e) p (ClearPolicy (e_model e)))) = gkeys (e_model e)).
    { intros p. unfold FileAdapter_LoadPolicy, LoadPolicyFile. destruct (String.eqb p ""); [apply gkeys_clear|].
      destruct (aget p (files (e_fs e))); [rewrite gkeys_lines|]; apply gkeys_clear. }
    destruct (e_adapter e) as [[b p|l|p fd|u]|] eqn:A.
    - specialize (F p). destruct (FileAdapter_LoadPolicy (e_fs e) p (ClearPolicy (e_model e))). inversion H; subst. eapply X; eauto.
    - assert (K : gkeys (fst (StringAdapter_LoadPolicy l (ClearPolicy (e_model e)))) = gkeys (e_model e)).
      { unfold StringAdapter_LoadPolicy. destruct (String.eqb l ""); [|rewrite gkeys_lines]; apply gkeys_clear. }
      destruct (StringAdapter_LoadPolicy l (ClearPolicy (e_model e))). inversion H; subst. eapply X; eauto.
    - specialize (F p). unfold Filtered_LoadPolicy in H. destruct (FileAdapter_LoadPolicy (e_fs e) p (ClearPolicy (e_model e))). inversion H; subst. eapply X; eauto.
    - destruct (ua_load u (ua_log u)) as [lines ex]. pose proof (gkeys_lines lines (ClearPolicy (e_model e))) as K. rewrite gkeys_clear in K.
      destruct (load_lines lines (ClearPolicy (e_model e))) as [m [y|y|y]]; inversion H; subst. eapply X; eauto.
    - inversion H.
  Qed.
  Lemma load_ok : forall s s' b, own_LoadPolicy St mg s = (s', Ok b) ->
    e_auto_build (o_e s) = true -> types_distinct (o_e s) -> good s'.
  Proof.
    intros s s' b H B TD. apply obind_ok in H. destruct H as [s1 [ad [H1 H2]]]. apply inside_ok in H1. destruct H1 as [e1 [H1 ->]].
    destruct ad. destruct (load_light _ _ H1) as [L1 L2]. eapply rebuild_good; eauto; simpl; auto; try congruence.
  Qed.

  (** An update. *)
  Lemma update_ok : forall pt old new s s' b, own_UpdateNamedGroupingPolicy St mg pt old new s = (s', Ok b) ->
    in_order (OUpdate pt old new) s -> good s -> good s'.
  Proof.
    intros pt old new s s' b H [ND [NO [NN [NI UQ]]]] [I TD]. apply obind_ok in H. destruct H as [s1 [up [H1 H2]]].
    apply inside_ok in H1. destruct H1 as [e1 [H1 ->]]. unfold on_model, UpdatePolicy in H1.
    destruct (get_ast_cases (e_model (o_e s)) "g" pt) as [[a G]|G]; rewrite G in H1; cbn [bind] in H1; [|discriminate].
    rewrite (stored_get _ _ _ G) in ND, NO, NN, NI.
    destruct (erase_first old (rules_of (a_policy a))) as [l|] eqn:E.
    2:{ inversion H1; subst. inversion H2; subst. rewrite set_model_id. split; auto. }
    apply erase_first_some in E. destruct E as [pre [x [post [E1 [E2 [P N]]]]]].
    assert (x = old) by (apply NO; [rewrite E1, in_app_iff; simpl; auto|auto]).
    subst x. rewrite E1 in ND. pose proof (NoDup_remove_2 _ _ _ ND) as NX. rewrite <- E2 in NX.
    assert (INC : forall x, In x l <-> In x (rules_of (a_policy a)) /\ x <> old).
    { intros x. rewrite E1, in_app_iff. simpl. split.
      - intros J. split; [rewrite E2, in_app_iff in J; tauto|]. intros ->. auto.
      - intros [[J|[J|J]] D]; try congruence; rewrite E2, in_app_iff; auto. }
    assert (HN : has_rule l new = false).
    { apply has_rule_false.
      - intros y J. apply NN. apply INC in J. tauto.
      - intros J. apply INC in J. tauto. }
    rewrite HN in H1. inversion H1; subst e1 up. clear H1. cbn [negb] in H2.
    destruct (edit_g (o_e s) pt a (emplace (with_rules (a_policy a) l) new) G) as [S [F T]].
    set (e1 := set_model (put_policy (e_model (o_e s)) "g" pt a (emplace (with_rules (a_policy a) l) new)) (o_e s)) in *.
    apply obind_ok in H2. destruct H2 as [s2 [u [H2 H3]]]. destruct (incremental_ok _ _ _ _ _ _ H2) as [SG2 [_ L2]].
    apply obind_ok in H3. destruct H3 as [s3 [v [H3 H4]]]. destruct (incremental_ok _ _ _ _ _ _ H3) as [SG3 [_ L3]].
    apply obind_ok in H4. destruct H4 as [s4 [w [H4 H5]]]. inversion H5; subst s4. apply inside_ok in H4. destruct H4 as [e4 [H4 ->]].
    assert (SG4 : same_g (o_e s3) e4).
    { pose proof (notify_frame (o_e s3)) as NF. rewrite H4 in NF. apply frame_same_g. exact NF. }
    apply good_same with s3; auto. simpl in *. split; [|apply (sg_types _ _ SG3), (sg_types _ _ SG2); auto].
    intros k. rewrite L3, L2, (same_g_listed _ _ SG3 k), (same_g_listed _ _ SG2 k), (sg_fields _ _ SG2), F, (I k).
    unfold listed_links, facts. split.
    - intros [[[q [r [J Q]]] N2]|[r [[<-|[]] Q]]].
      + exists q, r. rewrite F. split; auto. rewrite S. destruct (String.eqb_spec q pt); auto. subst q.
        rewrite emplace_in, rules_with. right. apply INC. rewrite (stored_get _ _ _ G) in J. split; auto. intros ->. apply N2. exists old. simpl. auto.
      + exists pt, new. rewrite F. split; auto. rewrite S, eqb_refl_s, emplace_in. auto.
    - intros [q [r [J Q]]]. rewrite S in J. rewrite F in Q. destruct (String.eqb_spec q pt).
      + subst q. rewrite emplace_in, rules_with in J. destruct J as [->|J]; [right; exists new; simpl; auto|].
        apply INC in J. destruct J as [J D]. left. rewrite <- (stored_get _ _ _ G) in J. split; [exists pt, r; auto|].
        intros [y [[<-|[]] EY]]. apply D. apply (UQ pt r J). congruence.
      + left. split; [exists q, r; auto|]. intros [y [[<-|[]] EY]]. apply n. apply (UQ q r J). congruence.
  Qed.

  (** The other calls. *)
  Lemma elsewhere_light : forall o c e e', elsewhere c = true -> run o c e = (e', Ok tt) -> asts e' = asts e.
  Proof.
    intros o c e e' EL H.
    assert (K : forall A (p : M A), keeps frame p -> run o c = drop_value p -> asts e' = asts e).
    { intros A p KP R. rewrite R in H. pose proof (keeps_drop frame frame_refl frame_trans _ p KP e) as F. rewrite H in F. apply F. }
    destruct c; try discriminate EL; try (eapply K; [|reflexivity]).
    - apply frame_add.
    - apply frame_add_many.
    - apply frame_remove.
    - apply frame_remove_many.
    - apply frame_remove_filtered.
    - apply frame_update.
    - apply frame_update_many.
    - apply frame_all_types.
    - pose proof (frame_save e) as F. simpl in H. rewrite H in F. apply F.
    - simpl in H. inversion H. reflexivity.
    - simpl in H. inversion H. reflexivity.
    - simpl in H. inversion H. reflexivity.
    - simpl in H. inversion H. reflexivity.
    - simpl in H. inversion H. reflexivity.
    - simpl in H. inversion H. reflexivity.
  Qed.
  Lemma listed_asts : forall e e', asts e' = asts e -> forall l, listed_links e' l <-> listed_links e l.
  Proof.
    intros e e' A l. unfold listed_links, fields_of. change (sec_of (e_model e') "g") with (asts e'). rewrite A.
    split; intros [pt [r [I E]]]; exists pt, r; rewrite !stored_asts_g, ?A in *; auto.
  Qed.

  Lemma odrop_ok : forall A (x : OM St A) s s' u, odrop x s = (s', Ok u) -> exists a, x s = (s', Ok a).
  Proof. intros A x s s' u H. apply obind_ok in H. destruct H as [s1 [a [H1 H2]]]. inversion H2; subst. eauto. Qed.

  Lemma call_good : forall o c s s', good s -> in_order c s -> own_run o mg c s = (s', Ok tt) -> good s'.
  Proof.
    intros o c s s' Gd O H. destruct c; cbn [own_run] in H; cbn [in_order] in O; try (apply odrop_ok in H; destruct H as [b H]).
    - eapply add_ok; eauto.
    - eapply (add_many_gen (CAddMany "g" pt)); eauto.
    - eapply remove_ok; eauto. apply Gd.
    - eapply (add_many_gen (CRemoveMany "g" pt)); eauto.
    - eapply remove_filtered_ok; eauto. apply Gd.
    - eapply update_ok; eauto.
    - eapply load_ok; eauto. apply Gd.
    - destruct (build_ok _ _ _ H (proj2 Gd)) as [SG I]. split; auto. apply (sg_types _ _ SG). apply Gd.
    - destruct (elsewhere c) eqn:EL; [|discriminate]. apply inside_ok in H. destruct H as [e' [H ->]].
      pose proof (elsewhere_light _ _ _ _ EL H) as A. destruct Gd as [I TD]. split.
      + intros l. rewrite (listed_asts _ _ A l). apply I.
      + unfold types_distinct in *. simpl. unfold asts in A. rewrite A. auto.
  Qed.
  Lemma tended_good : forall o s, tended o mg s -> good s.
  Proof.
    intros o s H. induction H.
    - cbn [own_run] in H0. destruct (build_ok _ _ _ H0 H) as [SG I]. split; auto. apply (sg_types _ _ SG). auto.
    - eapply call_good; eauto.
  Qed.
End Own.

(** ** The default role manager as a manager of the caller *)
Section Same.
  Variable h : heap.
  Notation dm := default_manager.
  Notation RM := role_manager.

  Lemma hset_hset : forall (l : heap) i a b, hset (hset l i a) i b = hset l i b.
  Proof. induction l as [|x l IH]; intros [|i] a b; simpl; auto. f_equal. auto. Qed.
  Lemma hget_at : forall (l : heap) i r, i < List.length l -> hget (hset l i r) i = Ok r.
  Proof.
    unfold hget. induction l as [|x l IH]; intros [|i] r H; simpl in *; try lia; auto. apply IH. lia.
  Qed.

  Definition sim {A} (p : M A) (q : OM RM A) : Prop :=
    forall s, e_rm (o_e s) < List.length h ->
      p (joined h s) = (joined h (fst (q s)), snd (q s)) /\ e_rm (o_e (fst (q s))) = e_rm (o_e s).
  (** A method that does not look at the role managers. *)
  Definition blind {A} (p : M A) : Prop :=
    forall l e, p (set_heap l e) = (set_heap l (fst (p e)), snd (p e)) /\ e_rm (fst (p e)) = e_rm e.

  Lemma sim_ret : forall A (a : A), sim (ret a) (oret RM a).
  Proof. intros A a s L. split; reflexivity. Qed.
  Lemma sim_bind : forall A B (p : M A) q (f : A -> M B) g, sim p q -> (forall a, sim (f a) (g a)) -> sim (mbind p f) (obind RM q g).
  Proof.
    intros A B p q f g H1 H2 s L. destruct (H1 s L) as [E1 R1]. unfold mbind, obind. rewrite E1.
    destruct (q s) as [s1 [a|t|u]]; cbn [fst snd] in *; auto.
    destruct (H2 a s1) as [E2 R2]; [congruence|]. rewrite E2. split; [auto|congruence].
  Qed.
  Lemma sim_inside : forall A (p : M A), blind p -> sim p (inside RM p).
  Proof.
    intros A p B s L. unfold joined at 1, inside. destruct (B (hset h (e_rm (o_e s)) (o_st s)) (o_e s)) as [E R]. rewrite E.
    destruct (p (o_e s)) as [e' out]. simpl in *. unfold joined. simpl. rewrite R. auto.
  Qed.

  Lemma blind_bind : forall A B (p : M A) (f : A -> M B), blind p -> (forall a, blind (f a)) -> blind (mbind p f).
  Proof.
    intros A B p f H1 H2 l e. unfold mbind. destruct (H1 l e) as [E1 R1]. rewrite E1. destruct (p e) as [e1 [a|t|u]]; simpl in *; auto.
    destruct (H2 a l e1) as [E2 R2]. rewrite E2. split; [auto|congruence].
  Qed.
  Lemma blind_ret : forall A (a : A), blind (ret a).
  Proof. intros A a l e. split; reflexivity. Qed.
  Lemma blind_on_model : forall A (f : model -> res (model * A)), blind (on_model f).
  Proof. intros A f l e. unfold on_model. simpl. destruct (f (e_model e)) as [[m a]|t|u]; split; reflexivity. Qed.
  Lemma blind_autosave : forall c, blind (autosave c).
  Proof.
    intros c l e. unfold autosave. simpl. destruct (e_adapter e) as [a|]; [|split; reflexivity].
    destruct (e_auto_save e); [|split; reflexivity]. destruct (adapter_call a c) as [a' [x|[]|x]]; split; reflexivity.
  Qed.
  Lemma blind_notify : blind notify.
  Proof. intros l e. unfold notify. simpl. destruct (e_watcher e); [destruct (e_notify e)|]; split; reflexivity. Qed.
  Lemma blind_modify : forall f, (forall l e, f (set_heap l e) = set_heap l (f e)) -> (forall e, e_rm (f e) = e_rm e) -> blind (modify f).
  Proof. intros f H1 H2 l e. unfold modify. simpl. rewrite H1. auto. Qed.

  (** Links. *)
  Lemma link_rules_same : forall op n rs s,
    o_e (fst (own_link_rules RM dm op n rs s)) = o_e s /\
    link_rules op n (o_st s) rs = (o_st (fst (own_link_rules RM dm op n rs s)), snd (own_link_rules RM dm op n rs s)).
  Proof.
    intros op n. induction rs as [|ru rs IH]; intros s; simpl; auto. unfold obind, own_link_rule, link_rule.
    destruct (Nat.ltb (List.length ru) n); auto. destruct (firstn n ru) as [|a [|b d]]; auto.
    destruct op; unfold tell; simpl.
    - destruct (AddLink (o_st s) a b d) as [r' [[]|t|u]]; auto. destruct (IH (mkOwn (o_e s) r' (o_heard s ++ [HAdd a b d]))) as [E1 E2]. auto.
    - destruct (DeleteLink (o_st s) a b d) as [r' [[]|t|u]]; auto. destruct (IH (mkOwn (o_e s) r' (o_heard s ++ [HDelete a b d]))) as [E1 E2]. auto.
  Qed.
  Lemma ast_links_same : forall op v rs s,
    o_e (fst (own_ast_links RM dm op v rs s)) = o_e s /\
    ast_links op v (o_st s) rs = (o_st (fst (own_ast_links RM dm op v rs s)), snd (own_ast_links RM dm op v rs s)).
  Proof.
    intros op v rs s. unfold own_ast_links, ast_links. destruct (Nat.ltb (scount "_" v) 2); auto. apply link_rules_same.
  Qed.
  Lemma sim_incremental : forall op pt rs, sim (e_BuildIncrementalRoleLinks op pt rs) (own_BuildIncrementalRoleLinks RM dm op pt rs).
  Proof.
    intros op pt rs s L. unfold e_BuildIncrementalRoleLinks, BuildIncrementalRoleLinks, own_BuildIncrementalRoleLinks, obind, inside.
    cbn [String.eqb Ascii.eqb Bool.eqb]. unfold joined at 1 2 3. simpl e_model.
    destruct (get_ast (e_model (o_e s)) "g" pt) as [a|t|u] eqn:G; [|split; reflexivity|split; reflexivity].
    unfold joined at 1 2. simpl e_heap. simpl e_rm. rewrite hget_at by exact L.
    set (s1 := mkOwn (set_model (put_ast (e_model (o_e s)) "g" pt (with_rm a (Some (e_rm (o_e s))))) (o_e s)) (o_st s) (o_heard s)).
    destruct (ast_links_same op (a_value a) rs s1) as [E1 E2]. change (o_st s1) with (o_st s) in E2. rewrite E2.
    destruct (own_ast_links RM dm op (a_value a) rs s1) as [s2 out]. simpl in *. split; [|rewrite E1; reflexivity].
    unfold joined. rewrite E1. simpl. rewrite hset_hset. reflexivity.
  Qed.
  Lemma build_asts_same : forall i todo s, i < List.length h ->
    let q := own_build_asts RM dm i todo s in
    o_e (fst (snd q)) = o_e s /\
    build_asts (hset h i (o_st s)) i todo = (fst q, hset h i (o_st (fst (snd q))), snd (snd q)).
  Proof.
    intros i. induction todo as [|[k a] rest IH]; intros s L; simpl; auto. rewrite hget_at by exact L.
    destruct (ast_links_same policy_add (a_value a) (rules_of (a_policy a)) s) as [E1 E2]. rewrite E2.
    destruct (own_ast_links RM dm policy_add (a_value a) (rules_of (a_policy a)) s) as [s1 [x|t|u]]; simpl in *.
    - rewrite hset_hset. destruct (IH s1 L) as [E3 E4]. rewrite E4. destruct (own_build_asts RM dm i rest s1) as [am [s2 out]]. simpl in *.
      split; [congruence|auto].
    - rewrite hset_hset. auto.
    - rewrite hset_hset. auto.
  Qed.
  Lemma sim_build : sim e_BuildRoleLinks (own_BuildRoleLinks RM dm).
  Proof.
    intros s L. unfold e_BuildRoleLinks, own_BuildRoleLinks, obind, tell. unfold joined at 1 2 3 4 5 6. simpl e_heap. simpl e_rm.
    rewrite hget_at by exact L. simpl e_model. unfold BuildRoleLinks. rewrite hset_hset. cbn [dm o_e o_st o_heard].
    set (s1 := mkOwn (o_e s) (Clear (o_st s)) (o_heard s ++ [HClear])).
    destruct (build_asts_same (e_rm (o_e s)) (sec_of (touch (e_model (o_e s)) "g") "g") s1 L) as [E1 E2].
    change (o_st s1) with (Clear (o_st s)) in E2. rewrite E2.
    change (o_e s1) with (o_e s) in *.
    destruct (own_build_asts RM dm (e_rm (o_e s)) (sec_of (touch (e_model (o_e s)) "g") "g") s1) as [am [s2 out]]. simpl in *.
    split; auto.
  Qed.
  Lemma sim_rebuild : sim rebuild_if_auto (own_rebuild_if_auto RM dm).
  Proof.
    intros s L. unfold rebuild_if_auto, own_rebuild_if_auto. simpl e_auto_build. destruct (e_auto_build (o_e s)); [apply sim_build; auto|].
    split; reflexivity.
  Qed.
  Lemma sim_tail : forall c, sim (autosave c ;;; notify ;;; ret true) (own_tail RM c).
  Proof.
    intros c. apply sim_bind; [apply sim_inside, blind_autosave|]. intros. apply sim_bind; [apply sim_inside, blind_notify|]. intros. apply sim_ret.
  Qed.
  Lemma sim_if : forall A (b : bool) (p p' : M A) q q', sim p q -> sim p' q' -> sim (if b then p else p') (if b then q else q').
  Proof. intros A [] p p' q q'; auto. Qed.

  Lemma sim_add : forall pt r, sim (i_addPolicy "g" pt r) (own_addPolicy RM dm pt r).
  Proof.
    intros. apply sim_bind; [apply sim_inside, blind_on_model|]. intros. apply sim_if; [apply sim_ret|].
    apply sim_bind; [apply sim_incremental|]. intros. apply sim_tail.
  Qed.
  Lemma sim_add_many : forall pt rs, sim (i_addPolicies "g" pt rs) (own_addPolicies RM dm pt rs).
  Proof.
    intros. apply sim_bind; [apply sim_inside, blind_on_model|]. intros. apply sim_if; [apply sim_ret|].
    apply sim_bind; [apply sim_incremental|]. intros. apply sim_tail.
  Qed.
  Lemma sim_remove : forall pt r, sim (i_removePolicy "g" pt r) (own_removePolicy RM dm pt r).
  Proof.
    intros. apply sim_bind; [apply sim_inside, blind_on_model|]. intros. apply sim_if; [apply sim_ret|].
    apply sim_bind; [apply sim_incremental|]. intros. apply sim_tail.
  Qed.
  Lemma sim_remove_many : forall pt rs, sim (i_removePolicies "g" pt rs) (own_removePolicies RM dm pt rs).
  Proof.
    intros. apply sim_bind; [apply sim_inside, blind_on_model|]. intros. apply sim_if; [apply sim_ret|].
    apply sim_bind; [apply sim_incremental|]. intros. apply sim_tail.
  Qed.
  Lemma sim_remove_filtered : forall pt i vals, sim (i_removeFilteredPolicy "g" pt i vals) (own_removeFilteredPolicy RM dm pt i vals).
  Proof.
    intros. apply sim_bind; [apply sim_inside, blind_on_model|]. intros [b eff]. apply sim_if; [apply sim_ret|].
    apply sim_bind; [apply sim_incremental|]. intros. apply sim_tail.
  Qed.
  Lemma mbind_assoc : forall A B C (x : M A) (f : A -> M B) (g : B -> M C) e,
    mbind (mbind x f) g e = mbind x (fun a => mbind (f a) g) e.
  Proof. intros A B C x f g e. unfold mbind. destruct (x e) as [e1 [a|t|u]]; auto. Qed.
  Lemma sim_ext : forall A (p p' : M A) q, (forall e, p e = p' e) -> sim p' q -> sim p q.
  Proof. intros A p p' q E H s L. rewrite E. auto. Qed.
  Lemma sim_update : forall pt old new, sim (i_updatePolicy "g" pt old new) (own_updatePolicy RM dm pt old new).
  Proof.
    intros. apply sim_bind; [apply sim_inside, blind_on_model|]. intros. apply sim_if; [apply sim_ret|].
    eapply sim_ext. { intros e. unfold when_g. cbn [String.eqb Ascii.eqb Bool.eqb]. apply mbind_assoc. }
    apply sim_bind; [apply sim_incremental|]. intros. apply sim_bind; [apply sim_incremental|]. intros.
    apply sim_bind; [apply sim_inside, blind_notify|]. intros. apply sim_ret.
  Qed.

  Lemma blind_adapter_load : blind adapter_load.
  Proof.
    intros l e. unfold adapter_load. simpl. destruct (e_adapter e) as [[b p|x|p fd|u]|]; [| | | |split; reflexivity].
    - destruct (FileAdapter_LoadPolicy (e_fs e) p (e_model e)); split; reflexivity.
    - destruct (StringAdapter_LoadPolicy x (e_model e)); split; reflexivity.
    - destruct (Filtered_LoadPolicy (e_fs e) p (e_model e)) as [[fd' m] out]; split; reflexivity.
    - destruct (ua_load u (ua_log u)) as [ls ex]. destruct (load_lines ls (e_model e)) as [m [y|y|y]]; split; reflexivity.
  Qed.
  Lemma blind_adapter_save : blind adapter_save.
  Proof.
    intros l e. unfold adapter_save. simpl. destruct (e_adapter e) as [[b p|x|p fd|u]|]; try (split; reflexivity).
    - destruct (FileAdapter_SavePolicy (e_fs e) p (e_model e)) as [[m f] out]; split; reflexivity.
    - destruct (StringAdapter_SavePolicy x (e_model e)) as [[m l'] out]; split; reflexivity.
  Qed.
  Lemma blind_p_tail : forall c (p : M unit), blind (when_g "p" p ;;; autosave c ;;; notify ;;; ret true).
  Proof.
    intros. apply blind_bind; [apply blind_ret|]. intros. apply blind_bind; [apply blind_autosave|]. intros.
    apply blind_bind; [apply blind_notify|]. intros. apply blind_ret.
  Qed.
  Lemma blind_drop : forall A (p : M A), blind p -> blind (drop_value p).
  Proof. intros. apply blind_bind; auto. intros. apply blind_ret. Qed.
  Lemma blind_elsewhere : forall o c, elsewhere c = true -> blind (run o c).
  Proof.
    intros o c EL. destruct c; try discriminate EL; cbn [run]; try apply blind_drop;
      try (apply blind_modify; reflexivity);
      try (apply blind_bind; [apply blind_on_model|]; intros []; cbn [negb]; first [apply blind_ret|apply blind_p_tail]; fail).
    - apply blind_bind; [apply blind_on_model|]. intros [[] eff]; cbn [negb]; [apply blind_p_tail|apply blind_ret].
    - apply blind_bind; [apply blind_on_model|]. intros []; cbn [negb]; [|apply blind_ret].
      apply blind_bind; [apply blind_ret|]. intros. apply blind_bind; [apply blind_notify|]. intros. apply blind_ret.
    - apply blind_bind; [apply blind_on_model|]. intros []; cbn [negb]; [|apply blind_ret].
      apply blind_bind; [apply blind_ret|]. intros. apply blind_bind; [apply blind_notify|]. intros. apply blind_ret.
    - intros l e. unfold all_types. simpl. destruct (GetValuesForFieldInPolicyAllTypes (e_model e) sec i). split; reflexivity.
    - apply blind_bind.
      + intros l e. unfold IsFiltered. simpl. destruct (e_adapter e); split; reflexivity.
      + intros []. { intros l e. split; reflexivity. }
        apply blind_bind; [apply blind_adapter_save|]. intros u l e. unfold notify_always. simpl. destruct (e_watcher e); split; reflexivity.
  Qed.

  Lemma sim_run : forall o c, (forall k, c = OOther k -> elsewhere k = true) -> sim (run o (as_call c)) (own_run o dm c).
  Proof.
    intros o c K. destruct c; cbn [run as_call own_run]; try (apply sim_bind; [|intros; apply sim_ret]).
    - apply sim_bind; [apply sim_add|]. intros. apply sim_bind; [|intros; apply sim_ret].
      intros s L. simpl e_auto_build. destruct (e_auto_build (o_e s)); [apply sim_incremental; auto|split; reflexivity].
    - apply sim_add_many.
    - apply sim_bind; [apply sim_remove|]. intros. apply sim_bind; [apply sim_rebuild|]. intros. apply sim_ret.
    - apply sim_remove_many.
    - apply sim_bind; [apply sim_remove_filtered|]. intros. apply sim_bind; [apply sim_rebuild|]. intros. apply sim_ret.
    - apply sim_update.
    - eapply sim_ext; [intros e; symmetry; apply (mbind_assoc _ _ _ e_ClearPolicy (fun _ => adapter_load) (fun _ => rebuild_if_auto))|].
      apply sim_bind; [|intros; apply sim_rebuild]. apply sim_inside. apply blind_bind; [|intros; apply blind_adapter_load].
      apply blind_modify; reflexivity.
    - apply sim_build.
    - rewrite (K c eq_refl). apply sim_inside, blind_elsewhere. auto.
  Qed.
End Same.
