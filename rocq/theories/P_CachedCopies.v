(** Lemmas about copies of cached enforcers. *)
From Verif Require Import Base P_Base M_Util M_RoleManager M_Effector M_Model M_Persist M_Eval M_Evaluator M_Enforcer M_Cached M_Copies M_CachedCopies
  S_Effect S_Enforce S_Policy S_History S_Roles S_Sync S_Rbac S_Copies S_Cached S_CachedCopies P_Enforce P_Decide P_Store P_Api P_History P_Roles P_Sync P_Ready P_Copies P_Cached.

(** What one call on a cached enforcer does to the plain one: a chain of safe calls. *)
Inductive chain (o : oracle) (rules : rule -> Prop) (k : nat) : enforcer -> enforcer -> Prop :=
| chain_nil : forall e, chain o rules k e e
| chain_step : forall e c e', safe_call rules c -> shaped_call k c -> chain o rules k (fst (run o c e)) e' -> chain o rules k e e'.

Lemma chain_trans : forall o rules k a b c, chain o rules k a b -> chain o rules k b c -> chain o rules k a c.
Proof. induction 1; auto. intros. eapply chain_step; eauto. Qed.
Lemma chain_one : forall o rules k e c, safe_call rules c -> shaped_call k c -> chain o rules k e (fst (run o c e)).
Proof. intros. eapply chain_step; eauto. apply chain_nil. Qed.

Section Chains.
  Variables (o : oracle) (rules : rule -> Prop) (k : nat).
  Let CH := chain o rules k.

  Lemma through_chain : forall key (plain : M bool) c, (forall e, CH e (fst (plain e))) -> CH (c_base c) (c_base (fst (through_cache key plain c))).
  Proof.
    intros key plain c H. unfold through_cache, inherited. specialize (H (c_base c)).
    destruct (plain (c_base c)) as [e out]. destruct (c_on c); cbn; auto.
    destruct (aget key (c_map c)); cbn; [apply chain_nil|]. destruct out; auto.
  Qed.
  Lemma run_enforce_fst : forall m ps e, fst (run o (KEnforce m ps) e) = fst (EnforceWithMatcher o m ps e).
  Proof. intros. cbn [run]. unfold drop_value, mbind, ret. destruct (EnforceWithMatcher o m ps e) as [e' [| |]]; reflexivity. Qed.
  Lemma enforce_chain : forall m ps c, plain_request m ps -> CH (c_base c) (c_base (fst (c_EnforceWithMatcher o m ps c))).
  Proof.
    intros m ps c P. apply through_chain. intros e. rewrite <- run_enforce_fst. apply chain_one; cbn; auto.
  Qed.
  Lemma batch_chain : forall rs c, Forall (plain_request "") rs -> CH (c_base c) (c_base (fst (c_BatchEnforce o rs c))).
  Proof.
    induction rs as [|q rs IH]; intros c F. { apply chain_nil. }
    inversion F; subst. cbn [c_BatchEnforce]. pose proof (enforce_chain "" q c H1) as H.
    unfold c_Enforce. destruct (c_EnforceWithMatcher o "" q c) as [c1 [b|t|u]]; auto. cbn [fst] in H.
    specialize (IH c1 H2). destruct (c_BatchEnforce o rs c1) as [c2 out2]. cbn [fst] in *. eapply chain_trans; eauto.
  Qed.
  Lemma allowed_chain : forall perm ss c, CH (c_base c) (c_base (fst (c_allowed_subjects o perm ss c))).
  Proof.
    intros perm. induction ss as [|s ss IH]; intros c. { apply chain_nil. }
    cbn [c_allowed_subjects]. destruct (bind _ _) as [[p0 p1]|t|u]; try apply chain_nil.
    assert (P : plain_request "" [DStr s; DStr p0; DStr p1]).
    { split; [reflexivity|]. exists [s; p0; p1]. reflexivity. }
    pose proof (enforce_chain "" _ c P) as H.
    unfold c_Enforce. destruct (c_EnforceWithMatcher o "" [DStr s; DStr p0; DStr p1] c) as [c1 [b|t|u]]; auto. cbn [fst] in H.
    specialize (IH c1). destruct (c_allowed_subjects o perm ss c1) as [c2 out2]. cbn [fst] in *. eapply chain_trans; eauto.
  Qed.
  Lemma c_drop_fst : forall A (x : CM A) c, fst (c_drop x c) = fst (x c).
  Proof. intros. unfold c_drop. destruct (x c). reflexivity. Qed.
  Lemma c_run_chain : forall i q c, family_caction rules k (CCall i q) -> CH (c_base c) (c_base (fst (c_run o q c))).
  Proof.
    intros i q c F. destruct q as [m ps|m ps|rs|perm|cc|b|]; cbn [family_caction c_run] in *; rewrite ?c_drop_fst.
    - apply enforce_chain. auto.
    - tauto.
    - apply batch_chain. auto.
    - unfold c_GetImplicitUsersForPermission.
      match goal with |- context [inherited ?x c] => assert (E : CH (c_base c) (c_base (fst (inherited x c)))); [|destruct (inherited x c) as [c1 out1]] end.
      { unfold inherited. match goal with |- context [let (_, _) := ?x in _] => assert (Q : CH (c_base c) (fst x)); [|destruct x; cbn in *; auto] end.
        assert (T : forall a b c, CH a b -> CH b c -> CH a c) by (intros; eapply chain_trans; eauto).
        assert (G : forall sec n, keeps CH (all_types sec n)).
        { intros sec n e. pose proof (chain_one o rules k e (KGetAll sec n) I I) as H. cbn [run] in H. unfold drop_value, mbind, ret in H.
          destruct (all_types sec n e) as [e1 [x|t|u]]; exact H. }
        revert T G. generalize (c_base c). intros e T G. revert e.
        match goal with |- forall e, CH e (fst (?x e)) => change (keeps CH x) end.
        do 3 (apply keeps_bind; [exact T|apply G|intros]). intros e. apply chain_nil. }
      cbn [fst] in E. destruct out1 as [[subjects gi]|t|u]; auto.
      pose proof (allowed_chain perm subjects c1) as H. destruct (c_allowed_subjects o perm subjects c1). cbn [fst] in *. eapply chain_trans; eauto.
    - unfold inherited. destruct F as [F1 F2]. pose proof (chain_one o rules k (c_base c) cc F1 F2) as H.
      destruct (run o cc (c_base c)). auto.
    - apply chain_nil.
    - apply chain_nil.
  Qed.
End Chains.

Section Family.
  Variable o : oracle.
  Variables (names : node -> Prop) (n : nat) (rules : rule -> Prop).
  Variables (hashed : bool) (rf pf : list string) (eft mat : string).
  Hypothesis X : oracle_ext o.
  Hypothesis T : tidy names n rules.
  Hypothesis MAT : mat <> "".
  Hypothesis NOEVAL : HasEval mat = false.
  Variables (lvl m0 r0 : nat) (dec : string -> string -> Prop).
  Let GOOD := P_Copies.good o names n rules hashed rf pf eft mat lvl m0 r0 dec.

  (** What a chain of calls keeps. *)
  Record kept (e e' : enforcer) : Prop := mkKept {
    kp_mirror : mirror names n rules lvl e';
    kp_standard : standard o hashed rf pf eft mat e';
    kp_rm : e_rm e' = e_rm e;
    kp_shape : same_shape e e';
    kp_dec : forall sec pt, declared e sec pt -> declared e' sec pt }.

  Lemma chain_kept : forall e e', chain o rules (List.length pf) e e' ->
    mirror names n rules lvl e -> standard o hashed rf pf eft mat e -> kept e e'.
  Proof.
    induction 1 as [e|e c e' S C H IH]; intros M ST.
    - constructor; auto. apply same_shape_refl.
    - assert (M1 : mirror names n rules lvl (fst (run o c e))) by (apply (run_mirror names n rules T lvl o c S); auto).
      assert (S1 : standard o hashed rf pf eft mat (fst (run o c e))).
      { eapply standard_step; eauto; [apply (lb_wired _ _ _ _ _ _ M)|apply (lb_wired _ _ _ _ _ _ M1)]. }
      destruct (IH M1 S1) as [K1 K2 K3 K4 K5]. constructor; auto.
      + rewrite K3. apply (rm_run o c rules S).
      + eapply same_shape_trans; [|exact K4]. apply (shape_run o c rules S).
      + intros sec pt D. apply K5. eapply declared_run; eauto.
  Qed.

  Lemma kept_step : forall ob h c ob' h' e, GOOD ob h -> is_SetModel c = false -> kept (view ob h) e ->
    write_back c ob h e = (ob', h') -> GOOD ob' h' /\ forall g, GOOD ob g -> GOOD ob' g.
  Proof.
    intros ob h c ob' h' e [GW GM GR GI GS GD] NM [MI ST RM0 SH DE0] WB.
    assert (W : wired (view ob h)) by apply (lb_wired _ _ _ _ _ _ GI).
    assert (W' : wired e) by apply (lb_wired _ _ _ _ _ _ MI).
    assert (RM : e_rm e = r0) by (rewrite RM0; exact GR).
    assert (DE : forall sec pt, dec sec pt -> declared e sec pt) by auto.
    destruct (view_own _ _ _ _ _ _ GW WB) as [VO WO].
    split.
    - constructor; auto; try (rewrite VO; auto).
      + unfold write_back in WB. rewrite NM in WB.
        destruct (store (is_SetAdapter c) (ob_adapters ob) (hd_adapter h) (e_adapter e)), (store (is_SetWatcher c) (ob_watchers ob) (hd_watcher h) (e_watcher e)),
          (store (is_SetEvaluator c) (ob_evs ob) (hd_ev h) (e_ev e)). inversion WB; subst. auto.
      + change (hd_rm h') with (e_rm (view ob' h')). rewrite VO. auto.
    - intros g [W1 M1 R1 I1 S1 D1].
      destruct (view_other c ob h g e ob' h' GW W1 NM (eq_trans M1 (eq_sym GM)) WB)
        as [W2 [V1 [V2 [V3 [_ [V4 [V5 [V6 V7]]]]]]]].
      assert (CA : calm_adapter (e_adapter (view ob' g))).
      { destruct V4 as [ -> | -> ]; [apply (lb_calm _ _ _ _ _ _ I1)|apply (lb_calm _ _ _ _ _ _ MI)]. }
      assert (FE : match e_ev (view ob' g) with None => True | Some ev => fits o (e_model e) rf pf ev end).
      { destruct V5 as [ -> | -> ].
        - pose proof (proj2 (st_ready _ _ _ _ _ _ _ S1)) as F. destruct (e_ev (view ob g)); auto.
          replace (e_model (view ob g)) with (e_model (view ob h)) in F by (unfold view; simpl; rewrite M1, GM; auto).
          eapply shape_fits; eauto.
        - apply (proj2 (st_ready _ _ _ _ _ _ _ ST)). }
      constructor; auto.
      + eapply mirror_parts; [exact V1|exact V2| | |exact CA|exact MI].
        * rewrite V3, RM. auto.
        * rewrite V7. apply (lb_build _ _ _ _ _ _ I1).
      + destruct ST as [[D _] SS SF SO]. constructor.
        * split; rewrite V1; auto.
        * rewrite V1. auto.
        * unfold stored in *. rewrite V1. auto.
        * rewrite V6. apply (st_on _ _ _ _ _ _ _ S1).
      + intros sec pt D. unfold declared in *. rewrite V1. auto.
  Qed.

  Lemma cact_good : forall a p p' out, family_caction rules (List.length pf) a -> cact o a p = (p', out) ->
    Forall (fun h => GOOD (cp_ob p) (ch_base h)) (cp_hs p) -> Forall (fun h => GOOD (cp_ob p') (ch_base h)) (cp_hs p').
  Proof.
    intros a p p' out A H F. rewrite Forall_forall in *. destruct a as [i q|i|i]; cbn [cact] in H.
    - destruct (nth_error (cp_hs p) i) as [h|] eqn:N; [|inversion H; subst; auto].
      pose proof (c_run_chain o rules (List.length pf) i q (cview (cp_ob p) h) A) as C.
      destruct (c_run o q (cview (cp_ob p) h)) as [c out1]. cbn [fst cview c_base] in C.
      destruct (write_back (base_call q) (cp_ob p) (ch_base h) (c_base c)) as [ob b] eqn:WB. inversion H; subst. clear H.
      assert (G : GOOD (cp_ob p) (ch_base h)) by (apply F; eapply nth_error_In; eauto).
      assert (NM : is_SetModel (base_call q) = false).
      { destruct q; cbn; auto. cbn in A. exact (safe_keeps_model _ mat dec _ (proj1 A)). }
      assert (K : kept (view (cp_ob p) (ch_base h)) (c_base c)) by (apply chain_kept; auto; apply G).
      destruct (kept_step _ _ _ _ _ _ G NM K WB) as [G1 G2].
      intros g I. cbn [cp_hs cp_ob] in *. apply put_in in I. destruct I as [->|I]; auto.
    - destruct (nth_error (cp_hs p) i) as [h|] eqn:N; inversion H; subst; auto.
      intros g I. cbn in *. apply in_app_iff in I. destruct I as [I|[<-|[]]]; auto. apply F. eapply nth_error_In; eauto.
    - destruct (nth_error (cp_hs p) i) as [h|] eqn:N; inversion H; subst; auto.
      apply nth_error_In in N. intros g I. cbn in *. apply in_app_iff in I. destruct I as [I|[<-|[]]]; auto.
      apply put_in in I. destruct I as [->|I]; auto. cbn. auto.
  Qed.
  Lemma cacts_good : forall p as' p', cacts o p as' p' -> Forall (family_caction rules (List.length pf)) as' ->
    Forall (fun h => GOOD (cp_ob p) (ch_base h)) (cp_hs p) -> Forall (fun h => GOOD (cp_ob p') (ch_base h)) (cp_hs p').
  Proof. induction 1; intros A F; auto. inversion A; subst. apply IHcacts; auto. eapply cact_good; eauto. Qed.
End Family.
