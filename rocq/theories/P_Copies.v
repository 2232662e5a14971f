(** Proofs for property C88. *)
From Verif Require Import Base P_Base M_Util M_RoleManager M_Effector M_Model M_Persist M_Eval M_Evaluator M_Enforcer M_Matcher M_Copies
  S_Effect S_Enforce S_Policy S_History S_Roles S_Sync S_Rbac S_Copies P_Enforce P_Decide P_Store P_Api P_History P_Sync P_Ready.

(** ** Memory *)
Lemma put_length : forall A (l : list A) i a, List.length (put l i a) = List.length l.
Proof. induction l; intros [|i] b; simpl; auto. Qed.
Lemma put_same : forall A (l : list A) i a, i < List.length l -> nth_error (put l i a) i = Some a.
Proof. induction l; intros [|i] b L; simpl in *; try lia; auto. apply IHl. lia. Qed.
Lemma put_other : forall A (l : list A) i j a, i <> j -> nth_error (put l i a) j = nth_error l j.
Proof. induction l; intros [|i] [|j] b N; simpl; auto; try congruence. Qed.
Lemma nth_put_same : forall A (l : list A) i a d, i < List.length l -> nth i (put l i a) d = a.
Proof. induction l; intros [|i] b d L; simpl in *; try lia; auto. apply IHl. lia. Qed.
Lemma nth_put_other : forall A (l : list A) i j a d, i <> j -> nth j (put l i a) d = nth j l d.
Proof. induction l; intros [|i] [|j] b d N; simpl; auto; try congruence. Qed.

Definition valid {A} (l : list A) (i : option nat) : Prop := match i with Some k => k < List.length l | None => True end.

Lemma store_spec : forall A fresh (l : list A) i v l' i', valid l i -> store fresh l i v = (l', i') ->
  deref l' i' = v /\ valid l' i' /\ (forall j, valid l j -> valid l' j /\ (deref l' j = deref l j \/ deref l' j = v)).
Proof.
  intros A fresh l i v l' i' V H. unfold store in H.
  assert (AP : forall a, deref (l ++ [a]) (Some (List.length l)) = Some a /\ valid (l ++ [a]) (Some (List.length l)) /\
    (forall j, valid l j -> valid (l ++ [a]) j /\ (deref (l ++ [a]) j = deref l j \/ deref (l ++ [a]) j = Some a))).
  { intros a. repeat split.
    - simpl. rewrite nth_error_app2, Nat.sub_diag by lia. auto.
    - simpl. rewrite app_length. simpl. lia.
    - destruct j; simpl in *; auto. rewrite app_length. lia.
    - left. destruct j; simpl in *; auto. apply nth_error_app1. auto. }
  destruct v as [a|].
  - destruct i as [k|]; [destruct fresh|]; inversion H; subst; auto.
    simpl in V. repeat split.
    + simpl. apply put_same. auto.
    + simpl. rewrite put_length. auto.
    + destruct j; simpl in *; auto. rewrite put_length. auto.
    + destruct j as [j|]; simpl; auto. destruct (Nat.eq_dec k j) as [->|N]; [right; apply put_same; auto|left; apply put_other; auto].
  - inversion H; subst. repeat split; simpl; auto.
Qed.

Record well (ob : objects) (h : handle) : Prop := mkWell {
  w_model : hd_model h < List.length (ob_models ob);
  w_adapter : valid (ob_adapters ob) (hd_adapter h);
  w_watcher : valid (ob_watchers ob) (hd_watcher h);
  w_ev : valid (ob_evs ob) (hd_ev h) }.

(** The enforcer that made the call sees its result. *)
Lemma view_own : forall c ob h e ob' h', well ob h -> write_back c ob h e = (ob', h') -> view ob' h' = e /\ well ob' h'.
Proof.
  intros c ob h e ob' h' [W1 W2 W3 W4] H. unfold write_back in H.
  destruct (store (is_SetAdapter c) (ob_adapters ob) (hd_adapter h) (e_adapter e)) as [ads ai] eqn:SA.
  destruct (store (is_SetWatcher c) (ob_watchers ob) (hd_watcher h) (e_watcher e)) as [ws wi] eqn:SW.
  destruct (store (is_SetEvaluator c) (ob_evs ob) (hd_ev h) (e_ev e)) as [evs vi] eqn:SV.
  destruct (store_spec _ _ _ _ _ _ _ W2 SA) as [A1 [A2 _]].
  destruct (store_spec _ _ _ _ _ _ _ W3 SW) as [B1 [B2 _]].
  destruct (store_spec _ _ _ _ _ _ _ W4 SV) as [C1 [C2 _]].
  destruct (is_SetModel c); inversion H; subst; clear H; unfold view; simpl.
  - split.
    + rewrite app_nth2, Nat.sub_diag by lia. simpl. rewrite A1, B1, C1. destruct e; reflexivity.
    + constructor; simpl; auto. rewrite app_length. simpl. lia.
  - split.
    + rewrite nth_put_same by auto. rewrite A1, B1, C1. destruct e; reflexivity.
    + constructor; simpl; auto. rewrite put_length. auto.
Qed.

(** The others see the same model, links and files; their adapter, watcher and evaluator
    are what they were, or those of the enforcer that made the call. *)
Lemma view_other : forall c ob h g e ob' h', well ob h -> well ob g -> is_SetModel c = false -> hd_model g = hd_model h ->
  write_back c ob h e = (ob', h') ->
  well ob' g /\ e_model (view ob' g) = e_model e /\ e_heap (view ob' g) = e_heap e /\ e_rm (view ob' g) = hd_rm g /\ e_fs (view ob' g) = e_fs e /\
  (e_adapter (view ob' g) = e_adapter (view ob g) \/ e_adapter (view ob' g) = e_adapter e) /\
  (e_ev (view ob' g) = e_ev (view ob g) \/ e_ev (view ob' g) = e_ev e) /\
  e_enabled (view ob' g) = hd_enabled g /\ e_auto_build (view ob' g) = hd_auto_build g.
Proof.
  intros c ob h g e ob' h' [W1 W2 W3 W4] [V1 V2 V3 V4] NM MG H. unfold write_back in H. rewrite NM in H.
  destruct (store (is_SetAdapter c) (ob_adapters ob) (hd_adapter h) (e_adapter e)) as [ads ai] eqn:SA.
  destruct (store (is_SetWatcher c) (ob_watchers ob) (hd_watcher h) (e_watcher e)) as [ws wi] eqn:SW.
  destruct (store (is_SetEvaluator c) (ob_evs ob) (hd_ev h) (e_ev e)) as [evs vi] eqn:SV.
  destruct (store_spec _ _ _ _ _ _ _ W2 SA) as [_ [_ A]]. destruct (A _ V2) as [A1 A2].
  destruct (store_spec _ _ _ _ _ _ _ W3 SW) as [_ [_ B]]. destruct (B _ V3) as [B1 B2].
  destruct (store_spec _ _ _ _ _ _ _ W4 SV) as [_ [_ C]]. destruct (C _ V4) as [C1 C2].
  inversion H; subst; clear H. unfold view; simpl. repeat split; auto; simpl.
  - rewrite put_length. auto.
  - rewrite MG. apply nth_put_same. auto.
Qed.

(** ** The role manager stays the same object *)
Definition rm_same (e e' : enforcer) : Prop := e_rm e' = e_rm e.
Lemma rms_enforce : forall o matcher params, keeps rm_same (EnforceWithMatcher o matcher params).
Proof. intros o matcher params e. rewrite fst_EnforceWithMatcher. destruct (EnforceEx_frame o matcher params e) as [ev ->]. reflexivity. Qed.
Lemma rms_refl : forall e, rm_same e e.
Proof. reflexivity. Qed.
Lemma rms_trans : forall a b c, rm_same a b -> rm_same b c -> rm_same a c.
Proof. unfold rm_same. congruence. Qed.
Lemma rms_batch : forall o matcher reqs, keeps rm_same (BatchEnforceWithMatcher o matcher reqs).
Proof.
  induction reqs; simpl. { intros e. reflexivity. }
  apply keeps_bind; [exact rms_trans|apply rms_enforce|]. intros.
  apply keeps_bind; [exact rms_trans|auto|]. intros b e. reflexivity.
Qed.
Lemma rms_allowed : forall o perm subs, keeps rm_same (allowed_subjects o perm subs).
Proof.
  intros o perm. induction subs; simpl. { intros e. reflexivity. }
  do 2 (apply keeps_bind; [exact rms_trans|apply keeps_lift; exact rms_refl|]; intros).
  apply keeps_bind; [exact rms_trans|apply rms_enforce|]. intros.
  apply keeps_bind; [exact rms_trans|auto|]. intros b e. reflexivity.
Qed.
Lemma rm_run : forall o c rules, safe_call rules c -> keeps rm_same (run o c).
Proof.
  intros o c rules S.
  assert (P : parts_only c -> keeps rm_same (run o c)). { intros P. apply parts_run; auto; try exact rms_trans; reflexivity. }
  destruct c; try (apply P; exact I); simpl in S |- *; try tauto;
    try (apply keeps_drop; [exact rms_refl|exact rms_trans|]); try (intros e; reflexivity).
  - unfold GetImplicitUsersForPermission.
    do 3 (apply keeps_bind; [exact rms_trans|intros e; reflexivity|]; intros).
    apply keeps_bind; [exact rms_trans|apply rms_allowed|]. intros x e. reflexivity.
  - apply rms_enforce.
  - intros e. unfold EnforceWithMatcherMap, mbind. destruct (EnforceExMap_frame o matcher params e) as [ev E].
    destruct (EnforceExWithMatcherMap o matcher params e) as [e1 [x|t|u]]; cbn [fst] in *; subst; reflexivity.
  - apply rms_batch.
Qed.

(** ** Families of copies *)
Lemma put_in : forall A (l : list A) i a x, In x (put l i a) -> x = a \/ In x l.
Proof. induction l; intros [|i] b x; simpl; intuition. apply IHl in H0. tauto. Qed.

Section Family.
  Variable o : oracle.
  Variables (names : node -> Prop) (n : nat) (rules : rule -> Prop).
  Variables (hashed : bool) (rf pf : list string) (eft mat : string).
  Hypothesis X : oracle_ext o.
  Hypothesis T : tidy names n rules.
  Hypothesis MAT : mat <> "".
  Hypothesis NOEVAL : HasEval mat = false.
  Variables (lvl m0 r0 : nat) (dec : string -> string -> Prop).

  Record good (ob : objects) (h : handle) : Prop := mkGood {
    gd_well : well ob h;
    gd_model : hd_model h = m0;
    gd_rm : hd_rm h = r0;
    gd_mirror : mirror names n rules lvl (view ob h);
    gd_standard : standard o hashed rf pf eft mat (view ob h);
    gd_declared : forall sec pt, dec sec pt -> declared (view ob h) sec pt }.

  Lemma mirror_parts : forall e e', e_model e' = e_model e -> e_heap e' = e_heap e -> e_rm e' = e_rm e ->
    e_auto_build e' = true -> calm_adapter (e_adapter e') -> mirror names n rules lvl e -> mirror names n rules lvl e'.
  Proof.
    intros e e' E1 E2 E3 E4 E5 [R O W _ _]. unfold mirror.
    assert (S : forall l, assigned e l <-> assigned e' l).
    { apply assigned_stored. intros pt. unfold stored. rewrite E1. auto. }
    eapply linked_ext; [|exact S]. constructor; auto.
    - rewrite E2, E3. auto.
    - unfold grouping_ok in *. rewrite E1. auto.
    - unfold wired, asts in *. rewrite E1, E3. auto.
  Qed.

  Lemma safe_keeps_model : forall c, safe_call rules c -> is_SetModel c = false.
  Proof. destruct c; simpl; auto; tauto. Qed.

  Lemma call_step : forall ob h c ob' h' e out, good ob h -> safe_call rules c -> shaped_call (List.length pf) c ->
    run o c (view ob h) = (e, out) -> write_back c ob h e = (ob', h') ->
    good ob' h' /\ forall g, good ob g -> good ob' g.
  Proof.
    intros ob h c ob' h' e out G S C R WB. destruct G as [GW GM GR GI GS GD].
    assert (E : e = fst (run o c (view ob h))) by (rewrite R; auto).
    assert (MI : mirror names n rules lvl e). { rewrite E. apply (run_mirror names n rules T lvl o c S). auto. }
    assert (W : wired (view ob h)) by apply (lb_wired _ _ _ _ _ _ GI).
    assert (W' : wired e) by apply (lb_wired _ _ _ _ _ _ MI).
    assert (ST : standard o hashed rf pf eft mat e).
    { rewrite E. eapply standard_step; eauto. rewrite <- E. auto. }
    assert (RM : e_rm e = r0). { rewrite E. rewrite (rm_run o c rules S). auto. }
    assert (SH : same_shape (view ob h) e). { rewrite E. apply (shape_run o c rules S). }
    assert (DE : forall sec pt, dec sec pt -> declared e sec pt). { intros sec pt D. rewrite E. eapply declared_run; eauto. }
    destruct (view_own _ _ _ _ _ _ GW WB) as [VO WO].
    split.
    - constructor; auto; try (rewrite VO; auto).
      + unfold write_back in WB. rewrite (safe_keeps_model c S) in WB.
        destruct (store (is_SetAdapter c) (ob_adapters ob) (hd_adapter h) (e_adapter e)), (store (is_SetWatcher c) (ob_watchers ob) (hd_watcher h) (e_watcher e)),
          (store (is_SetEvaluator c) (ob_evs ob) (hd_ev h) (e_ev e)). inversion WB; subst. auto.
      + change (hd_rm h') with (e_rm (view ob' h')). rewrite VO. auto.
    - intros g [W1 M1 R1 I1 S1 D1].
      destruct (view_other c ob h g e ob' h' GW W1 (safe_keeps_model c S) (eq_trans M1 (eq_sym GM)) WB)
        as [W2 [V1 [V2 [V3 [_ [V4 [V5 [V6 V7]]]]]]]].
      assert (CA : calm_adapter (e_adapter (view ob' g))).
      { destruct V4 as [ -> | -> ]; [apply (lb_calm _ _ _ _ _ _ I1)|apply (lb_calm _ _ _ _ _ _ MI)]. }
      assert (FE : match e_ev (view ob' g) with None => True | Some ev => fits o (e_model e) rf pf ev end).
      { destruct V5 as [ -> | -> ].
        - pose proof (proj2 (st_ready _ _ _ _ _ _ _ S1)) as F. destruct (e_ev (view ob g)); auto.
          replace (e_model (view ob g)) with (e_model (view ob h)) in F by (unfold view; simpl; rewrite M1, GM; auto).
          eapply shape_fits; eauto. rewrite RM. unfold view. simpl. auto.
        - apply (proj2 (st_ready _ _ _ _ _ _ _ ST)). }
      constructor; auto.
      + eapply mirror_parts; [exact V1|exact V2| | |exact CA|exact MI].
        * rewrite V3, RM. auto.
        * rewrite V7. apply (lb_build _ _ _ _ _ _ I1).
      + destruct ST as [[D _] SS SF SO]. constructor.
        * split; rewrite V1; auto.
        * rewrite V1. auto.
        * unfold stored in *. rewrite V1. auto.
        * rewrite V6. apply (st_on _ _ _ _ _ _ _ S1).
      + intros sec pt D. unfold declared in *. rewrite V1. auto.
  Qed.

  Lemma act_step : forall a p p' out, Forall (good (pr_ob p)) (pr_hs p) -> family_action rules (List.length pf) a -> act o a p = (p', out) ->
    Forall (good (pr_ob p')) (pr_hs p').
  Proof.
    intros a p p' out F A H. rewrite Forall_forall in *. destruct a as [i c|i|i j|i]; simpl in A, H; try tauto.
    - destruct A as [S C]. destruct (nth_error (pr_hs p) i) as [h|] eqn:N; [|inversion H; subst; auto].
      destruct (run o c (view (pr_ob p) h)) as [e out'] eqn:R. destruct (write_back c (pr_ob p) h e) as [ob' h'] eqn:WB. inversion H; subst. simpl.
      assert (G : good (pr_ob p) h) by (apply F; eapply nth_error_In; eauto).
      destruct (call_step _ _ _ _ _ _ _ G S C R WB) as [G1 G2].
      intros x I. apply put_in in I. destruct I as [->|I]; auto.
    - destruct (nth_error (pr_hs p) i) as [h|] eqn:N; inversion H; subst; auto. simpl. intros x I. apply in_app_iff in I.
      destruct I as [I|[<-|[]]]; auto. apply F. eapply nth_error_In; eauto.
    - destruct (nth_error (pr_hs p) j) as [h|] eqn:N; inversion H; subst; auto. simpl. intros x I. apply put_in in I.
      destruct I as [->|I]; auto. apply F. eapply nth_error_In; eauto.
  Qed.

  Lemma acts_good : forall p as' p', acts o p as' p' -> Forall (family_action rules (List.length pf)) as' -> Forall (good (pr_ob p)) (pr_hs p) ->
    Forall (good (pr_ob p')) (pr_hs p').
  Proof.
    induction 1; intros A F; auto. inversion A; subst. apply IHacts; auto. eapply act_step; eauto.
  Qed.
End Family.

Lemma view_alone : forall e h, In h (pr_hs (alone e)) -> view (pr_ob (alone e)) h = e /\ well (pr_ob (alone e)) h /\ hd_model h = 0 /\ hd_rm h = e_rm e.
Proof.
  intros e h I. unfold alone in *. destruct e as [m hp rm ad wa f ev b1 b2 b3 b4]; simpl in *.
  destruct ad, wa, ev; simpl in *; destruct I as [<-|[]]; (split; [reflexivity|]); (split; [constructor; simpl; auto|auto]).
Qed.
