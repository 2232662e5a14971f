(** Proofs about enforcement with an effector of the caller. *)
From Coq Require Import ZArith.
From Verif Require Import Base P_Base M_Util M_RoleManager M_Effector M_Model M_Persist M_Eval M_Evaluator M_Enforcer M_OwnEffector
  S_Effect S_Enforce S_OwnEffector P_Effect P_Enforce.

(** ** The default effector *)
Lemma default_loop : forall o h he expr eft toks len todo idx effs ms last ev z,
  (forall r i, last = Ok (r, i) -> z = Some (match i with Some k => Z.of_nat k | None => (-1)%Z end)) ->
  rule_loop_own o unit default_effector h he expr eft toks len todo idx effs ms tt (let! r := last in Ok (fst r)) z ev =
  let (ev', out) := rule_loop o h he expr eft toks len todo idx effs ms last ev in
  (ev', tt, let! r := out in Ok (fst r, Some (match snd r with Some k => Z.of_nat k | None => (-1)%Z end))).
Proof.
  induction todo as [|v todo IH]; intros idx effs ms last ev z Hz; cbn [rule_loop_own rule_loop].
  - destruct last as [[r i]|t|u]; cbn [bind fst snd]; auto. rewrite (Hz r i eq_refl). reflexivity.
  - destruct (eval_rule o h he expr toks ev v) as [ev' [[b e]|t|u]]; auto. unfold default_effector at 1.
    destruct (MergeEffects eft (upd idx e effs) (upd idx b ms) idx len) as [[r i]|t|u]; cbn [bind fst snd]; auto.
    destruct r; auto. apply (IH (S idx) (upd idx e effs) (upd idx b ms) (Ok (Indeterminate, i)) ev').
    intros r' i' E. inversion E; subst. reflexivity.
Qed.
Lemma default_decide : forall rules r, decide_own rules (fst r, Some (match snd r with Some k => Z.of_nat k | None => (-1)%Z end)) = Ok (decide rules r).
Proof.
  intros rules [r [i|]]; unfold decide_own, decide; cbn [fst snd]; auto.
  replace (Z.of_nat i <? 0)%Z with false by (symmetry; apply Z.ltb_ge; lia). rewrite Nat2Z.id. reflexivity.
Qed.
Lemma default_m_enforce : forall o e ev matcher,
  m_enforce_own o unit default_effector e ev tt matcher = let (ev', out) := m_enforce o e ev matcher in (ev', tt, out).
Proof.
  intros o e ev matcher. unfold m_enforce_own, m_enforce. destruct (negb (e_enabled e)); auto. cbv zeta.
  match goal with |- match ?x with _ => _ end = _ => destruct x as [[[expr toks] rules]|t|u] end; auto.
  destruct rules as [|r0 rules].
  - destruct (HasEval expr); auto. destruct (push_p _ toks _) as [ev2 [x|t|u]]; auto.
    destruct (Eval o ev2 expr) as [ev3 valid]. destruct (negb valid); auto.
    destruct (value o (e_heap e) ev3) as [b|t|u]; auto. destruct (get_ast (e_model e) "e" "e") as [ea|t|u]; auto. cbn [bind].
    unfold default_effector. destruct (MergeEffects (a_value ea) [if b then Allow else Indeterminate] [true] 0 1) as [r|t|u]; cbn [bind]; auto.
    rewrite default_decide. reflexivity.
  - destruct (get_ast (e_model e) "e" "e") as [ea|t|u]; auto.
    pose proof (default_loop o (e_heap e) (HasEval expr) expr (a_value ea) toks (List.length (r0 :: rules)) (r0 :: rules) 0
      (repeat Indeterminate (List.length (r0 :: rules))) (repeat false (List.length (r0 :: rules))) (UB Uninitialised)
      (load_g_functions (e_model e) (LoadFunctions ev)) None) as DL. cbn [bind] in DL. rewrite DL by discriminate.
    destruct (rule_loop o (e_heap e) (HasEval expr) expr (a_value ea) toks _ (r0 :: rules) 0 _ _ _ _) as [ev2 [r|t|u]]; cbn [bind]; auto.
    rewrite default_decide. reflexivity.
Qed.
Lemma default_enforce : forall o e matcher params,
  EnforceExWithMatcher_own o unit default_effector matcher params e tt =
  let (e', out) := EnforceExWithMatcher o matcher params e in (e', tt, out).
Proof.
  intros o e matcher params. unfold EnforceExWithMatcher_own, EnforceExWithMatcher.
  destruct (get_ast (e_model e) "r" "r") as [r|t|u]; auto.
  destruct (negb _); auto. destruct (push_r _ _ _) as [ev1 [x|t|u]]; auto.
  rewrite default_m_enforce. destruct (m_enforce o e ev1 matcher); auto.
Qed.

(** ** Any effector *)
Section Own.
  Variables (St : Type) (eff : effector St).

  Fixpoint consult (expr : string) (len : nat) (todo done : list outcome) (st : St) (last : res effect) (x : option Z) : St * res (effect * option Z) :=
    match todo with
    | [] => (st, let! r := last in Ok (r, x))
    | oc :: rest =>
        match eff st expr (fill_e (done ++ [oc]) (List.length rest)) (fill_m (done ++ [oc]) (List.length rest)) (List.length done) len x with
        | (st', Ok (Indeterminate, x')) => consult expr len rest (done ++ [oc]) st' (Ok Indeterminate) x'
        | (st', r) => (st', r)
        end
    end.

  Lemma own_loop : forall o m rf pf eft mat req expr h, oracle_ext o -> declares m rf pf eft mat -> List.length req = List.length rf ->
    forall todo os, Forall2 (fun r oc => rule_outcome o m h rf pf expr req r = Ok oc) todo os ->
    forall len done st last x ev, running o m rf pf req ev -> (forall r, In r todo -> matcher_text expr pf r <> Ok "") ->
    exists ev', rule_loop_own o St eff h (HasEval expr) expr eft (map (fun f => ("p_" ++ f)%string) pf) len todo (List.length done)
        (fill_e done (List.length os)) (fill_m done (List.length os)) st last x ev =
      (ev', fst (consult eft len os done st last x), snd (consult eft len os done st last x)) /\ running o m rf pf req ev'.
  Proof.
    intros o m rf pf eft mat req expr h X D LR todo os F. induction F as [|v oc todo os V F IH]; intros len done st last x ev R NE.
    - exists ev. auto.
    - cbn [rule_loop_own consult].
      destruct (eval_rule_spec o m rf pf eft mat req ev v expr h X D R LR (NE v (or_introl eq_refl))) as [ev' [E R']].
      rewrite E, V. destruct oc as [b e]. cbn [List.length].
      pose proof (upd_fill_e done (b, e) (List.length os)) as U1. pose proof (upd_fill_m done (b, e) (List.length os)) as U2.
      cbn [fst snd] in U1, U2. rewrite U1, U2.
      destruct (eff st eft (fill_e (done ++ [(b, e)]) (List.length os)) (fill_m (done ++ [(b, e)]) (List.length os)) (List.length done) len x)
        as [st' [[[] x']|t|u]]; try (exists ev'; auto; fail).
      replace (S (List.length done)) with (List.length (done ++ [(b, e)])) by (rewrite app_length; simpl; lia).
      apply IH; auto. intros; apply NE; right; auto.
  Qed.

  Lemma shown_fill_e : forall os k, k < List.length os -> shown_effects os k = fill_e (firstn (S k) os) (List.length (skipn (S k) os)).
  Proof. intros os k L. unfold shown_effects, fill_e. rewrite skipn_length. reflexivity. Qed.
  Lemma shown_fill_m : forall os k, k < List.length os -> shown_matches os k = fill_m (firstn (S k) os) (List.length (skipn (S k) os)).
  Proof. intros os k L. unfold shown_matches, fill_m. rewrite skipn_length. reflexivity. Qed.
  Lemma split_at : forall (os : list outcome) k, k < List.length os ->
    exists oc, skipn k os = oc :: skipn (S k) os /\ firstn (S k) os = firstn k os ++ [oc] /\ List.length (firstn k os) = k.
  Proof.
    intros os k. revert os. induction k; intros [|oc os] L; simpl in L; try lia.
    - exists oc. auto.
    - destruct (IHk os) as [oc' [A [B C]]]; [lia|]. exists oc'. split; [exact A|]. split; [|simpl; auto].
      change (oc :: firstn (S k) os = oc :: (firstn k os ++ [oc'])). rewrite B. reflexivity.
  Qed.
  (** One question. *)
  Lemma consult_step : forall expr os k st last x, k < List.length os ->
    consult expr (List.length os) (skipn k os) (firstn k os) st last x =
    match eff st expr (shown_effects os k) (shown_matches os k) k (List.length os) x with
    | (st', Ok (Indeterminate, x')) => consult expr (List.length os) (skipn (S k) os) (firstn (S k) os) st' (Ok Indeterminate) x'
    | (st', r) => (st', r)
    end.
  Proof.
    intros expr os k st last x L. destruct (split_at os k L) as [oc [A [B C]]]. rewrite A. cbn [consult]. rewrite <- B, C.
    rewrite <- shown_fill_e, <- shown_fill_m by auto. reflexivity.
  Qed.
  Lemma consult_asked : forall expr os st0 k st r x last, asked_up_to eff expr os st0 k st r x ->
    k < List.length os /\
    consult expr (List.length os) os [] st0 last None =
    match r with
    | Indeterminate => consult expr (List.length os) (skipn (S k) os) (firstn (S k) os) st (Ok Indeterminate) x
    | _ => (st, Ok (r, x))
    end.
  Proof.
    intros expr os st0 k st r x last A. induction A.
    - split; auto. change (consult expr (List.length os) os [] st0 last None) with (consult expr (List.length os) (skipn 0 os) (firstn 0 os) st0 last None).
      rewrite (consult_step expr os 0 st0 last None) by auto. rewrite H0. destruct r; auto.
    - destruct IHA as [_ IH]. split; auto. rewrite IH, consult_step by auto. rewrite H0. destruct r; auto.
  Qed.
  Lemma consult_final : forall expr os st0 k st r x last, final eff expr os st0 k st r x ->
    consult expr (List.length os) os [] st0 last None = (st, Ok (r, x)).
  Proof.
    intros expr os st0 k st r x last [A E]. destruct (consult_asked _ _ _ _ _ _ _ last A) as [L ->].
    destruct r; auto. destruct E as [E|E]; [congruence|]. rewrite E, skipn_all. reflexivity.
  Qed.
  Lemma consult_fails : forall expr os st0 k st x st' out, asked_up_to eff expr os st0 k st Indeterminate x -> S k < List.length os ->
    eff st expr (shown_effects os (S k)) (shown_matches os (S k)) (S k) (List.length os) x = (st', out) -> (forall v, out <> Ok v) ->
    forall last, consult expr (List.length os) os [] st0 last None = (st', out).
  Proof.
    intros expr os st0 k st x st' out A L E N last. destruct (consult_asked _ _ _ _ _ _ _ last A) as [_ ->].
    rewrite consult_step, E by auto. destruct out as [v|t|u]; auto. destruct (N v eq_refl).
  Qed.
  (** An effector that never fails comes to an end. *)
  Lemma comes_to_end : forall expr os st0, os <> [] ->
    (forall st effs ms i n x, exists st' r x', eff st expr effs ms i n x = (st', Ok (r, x'))) ->
    exists k st r x, final eff expr os st0 k st r x.
  Proof.
    intros expr os st0 NE T.
    assert (P : forall k, k < List.length os -> (exists k st r x, final eff expr os st0 k st r x) \/ (exists st x, asked_up_to eff expr os st0 k st Indeterminate x)).
    { induction k; intros L.
      - destruct (T st0 (shown_effects os 0) (shown_matches os 0) 0 (List.length os) None) as [st' [r [x' E]]].
        assert (A : asked_up_to eff expr os st0 0 st' r x') by (apply asked_first; auto).
        destruct r; eauto; left; exists 0, st'; eexists; exists x'; (split; [exact A|left; discriminate]).
      - destruct IHk as [F|[st [x A]]]; [lia|auto|].
        destruct (T st (shown_effects os (S k)) (shown_matches os (S k)) (S k) (List.length os) x) as [st' [r [x' E]]].
        assert (A' : asked_up_to eff expr os st0 (S k) st' r x') by (eapply asked_next; eauto).
        destruct r; eauto; left; exists (S k), st'; eexists; exists x'; (split; [exact A'|left; discriminate]). }
    destruct os as [|oc os]; [congruence|]. destruct (P (List.length os)) as [F|[st [x A]]]; [simpl; lia|auto|].
    exists (List.length os), st, Indeterminate, x. split; auto.
  Qed.

  (** Everything before the rules are looked at. *)
  Lemma own_prepare : forall o e rf pf eft mat matcher req st0, oracle_ext o -> ready o e rf pf eft mat -> e_enabled e = true ->
    List.length req = List.length rf ->
    exists ev1, running o (e_model e) rf pf req ev1 /\
      EnforceExWithMatcher_own o St eff matcher (map DStr req) e st0 =
      let expr := chosen matcher mat in
      let rules := candidates (e_model e) req in
      let '(ev2, st', out) :=
        match rules with
        | _ :: _ =>
            let '(ev2, st', out) :=
              rule_loop_own o St eff (e_heap e) (HasEval expr) expr eft (map (fun f => ("p_" ++ f)%string) pf) (List.length rules) rules 0
                (repeat Indeterminate (List.length rules)) (repeat false (List.length rules)) st0 (UB Uninitialised) None ev1 in
            (ev2, st', let! r := out in decide_own rules r)
        | [] =>
            if HasEval expr then (ev1, st0, Throw CasbinEnforcer)
            else
              match push_p ev1 (map (fun f => ("p_" ++ f)%string) pf) (map (fun _ => "") (map (fun f => ("p_" ++ f)%string) pf)) with
              | (ev2, Ok _) =>
                  let (ev3, valid) := Eval o ev2 expr in
                  if negb valid then (ev3, st0, Ok (false, []))
                  else
                    match value o (e_heap e) ev3 with
                    | Ok b =>
                        let (st', out) := eff st0 eft [if b then Allow else Indeterminate] [true] 0 1 None in
                        (ev3, st', let! r := out in decide_own rules r)
                    | Throw t => (ev3, st0, Throw t)
                    | UB u => (ev3, st0, UB u)
                    end
              | (ev2, Throw t) => (ev2, st0, Throw t)
              | (ev2, UB u) => (ev2, st0, UB u)
              end
        end in
      (set_ev (Some ev2) e, st', out).
  Proof.
    intros o e rf pf eft mat matcher req st0 X [D F] EN L.
    unfold EnforceExWithMatcher_own.
    destruct (d_r _ _ _ _ _ D) as [ar [AR1 AR2]]. rewrite AR1, AR2, !map_length.
    rewrite (proj2 (Nat.eqb_eq _ _) L). simpl negb. cbv iota.
    rewrite push_r_ok by apply (d_sym_r _ _ _ _ _ D).
    set (ev0 := with_vars (own_evaluator e) (setall (combine (r_names rf) req) (ev_vars (own_evaluator e)))).
    assert (F0 : fits o (e_model e) rf pf (own_evaluator e)).
    { unfold own_evaluator. destruct (e_ev e); auto. apply fits_new. }
    assert (F1 : fits o (e_model e) rf pf ev0).
    { destruct F0 as [A B C]. constructor; auto. simpl. apply known_setall; auto.
      intros x H. apply in_combine_fst in H. apply known_r; auto. }
    assert (RV : forall x, In x (r_names rf) -> aget x (ev_vars ev0) = aget x (combine (r_names rf) req)).
    { intros x H. simpl. rewrite aget_setall by apply NoDup_combine_fst, r_names_inj, (d_rf _ _ _ _ _ D).
      assert (HA : ahas x (combine (r_names rf) req) = true).
      { apply aget_combine_some; auto. unfold r_names. rewrite map_length. auto. }
      unfold ahas in HA. destruct (aget x (combine (r_names rf) req)); [reflexivity|discriminate]. }
    clearbody ev0. clear F F0. unfold m_enforce_own. rewrite EN. simpl negb. cbv iota. fold (prepared (e_model e) ev0).
    pose proof (prepared_funs o (e_model e) rf pf eft mat ev0 D F1) as PF.
    destruct (prepared_frame (e_model e) ev0) as [PV [PE [PB PP]]].
    set (ev1 := prepared (e_model e) ev0) in *. cbv zeta.
    assert (R : running o (e_model e) rf pf req ev1).
    { constructor.
      - rewrite PV. apply (f_vars _ _ _ _ _ F1).
      - rewrite PV. exact RV.
      - exact PF.
      - rewrite PE, PB, PP. apply (f_prog _ _ _ _ _ F1). }
    exists ev1. split; [exact R|].
    clearbody ev1. clear PV PE PB PP F1 RV ev0 PF.
    destruct (d_m _ _ _ _ _ D) as [am [AM1 AM2]].
    destruct (d_p _ _ _ _ _ D) as [ap [AP1 AP2]].
    destruct (d_e _ _ _ _ _ D) as [ae [AE1 AE2]].
    assert (EX : (if String.eqb matcher "" then let! a := get_ast (e_model e) "m" "m" in Ok (a_value a) else Ok matcher)
                 = Ok (chosen matcher mat)).
    { unfold chosen. rewrite AM1. simpl. rewrite AM2. destruct (String.eqb matcher ""); reflexivity. }
    rewrite EX, AR1, AP1, AE1. cbn [bind].
    rewrite (selected_spec o (e_model e) rf pf eft mat req ev1 D R L). cbn [bind]. rewrite AP2, AE2.
    destruct (candidates (e_model e) req) as [|r0 rules]; reflexivity.
  Qed.

  (** The whole function, for candidates that have results. *)
  Lemma own_enforce : forall o e rf pf eft mat matcher req os st0, oracle_ext o -> asked o e rf pf eft mat matcher req ->
    Forall2 (fun r oc => rule_outcome o (e_model e) (e_heap e) rf pf (chosen matcher mat) req r = Ok oc) (candidates (e_model e) req) os ->
    exists ev', EnforceExWithMatcher_own o St eff matcher (map DStr req) e st0 =
      (set_ev (Some ev') e, fst (consult eft (List.length os) os [] st0 (UB Uninitialised) None),
       let! r := snd (consult eft (List.length os) os [] st0 (UB Uninitialised) None) in decide_own (candidates (e_model e) req) r) /\
      fits o (e_model e) rf pf ev'.
  Proof.
    intros o e rf pf eft mat matcher req os st0 X [RE EN L SO [TE TR]] OS. pose proof (proj1 RE) as D.
    destruct (own_prepare o e rf pf eft mat matcher req st0 X RE EN L) as [ev1 [R ->]]. cbv zeta.
    set (expr := chosen matcher mat) in *.
    destruct (candidates (e_model e) req) as [|r0 rules] eqn:CN; [congruence|].
    assert (LL : List.length (r0 :: rules) = List.length os) by (clear - OS; induction OS; simpl; auto).
    destruct (own_loop o (e_model e) rf pf eft mat req expr (e_heap e) X D L (r0 :: rules) os OS (List.length os) [] st0 (UB Uninitialised) None ev1 R TR)
      as [ev' [E R']].
    rewrite LL. unfold fill_e, fill_m, effs, mats in E. cbn [map app List.length] in E. rewrite E.
    exists ev'. split; [reflexivity|]. eapply running_fits; eauto.
  Qed.
  (** ... and for no candidates. *)
  Lemma own_empty : forall o e rf pf eft mat matcher req st0, oracle_ext o -> ready o e rf pf eft mat -> e_enabled e = true ->
    List.length req = List.length rf -> candidates (e_model e) req = [] -> HasEval (chosen matcher mat) = false -> chosen matcher mat <> "" ->
    exists ev', EnforceExWithMatcher_own o St eff matcher (map DStr req) e st0 =
      let '(st', out) :=
        if o_compiles o (chosen matcher mat) (known_vars rf pf) (role_arity (e_model e)) then
          match o_value o (chosen matcher mat) (env rf req pf (map (fun _ => "") pf)) (role_fun (e_model e) (e_heap e)) with
          | Ok b => let (st', out) := eff st0 eft [if b then Allow else Indeterminate] [true] 0 1 None in
                    (st', let! r := out in decide_own [] r)
          | Throw t => (st0, Throw t)
          | UB u => (st0, UB u)
          end
        else (st0, Ok (false, [])) in
      (set_ev (Some ev') e, st', out).
  Proof.
    intros o e rf pf eft mat matcher req st0 X RE EN L CN HE NE. pose proof (proj1 RE) as D.
    destruct (own_prepare o e rf pf eft mat matcher req st0 X RE EN L) as [ev1 [R ->]]. cbv zeta. rewrite CN, HE.
    set (expr := chosen matcher mat) in *.
    assert (PN : map (fun _ : string => "") (map (fun f : string => ("p_" ++ f)%string) pf) = map (fun _ => "") pf).
    { rewrite map_map. reflexivity. }
    rewrite PN. rewrite push_p_ok by apply (d_sym_p _ _ _ _ _ D).
    fold (pushed ev1 pf (map (fun _ => "") pf)).
    destruct (eval_text o (e_model e) rf pf eft mat req ev1 (map (fun _ => "") pf) expr (e_heap e) X D R L)
      as [R2 [EV [_ VV]]]; auto.
    { rewrite map_length. reflexivity. }
    destruct (Eval o (pushed ev1 pf (map (fun _ => "") pf)) expr) as [ev3 b]. cbn [fst snd] in *. subst b.
    exists ev3. destruct (o_compiles o expr (known_vars rf pf) (role_arity (e_model e))); simpl negb; cbv iota; auto.
    rewrite VV by auto. destruct (o_value o expr _ _); auto. destruct (eff st0 eft _ _ 0 1 None); auto.
  Qed.
End Own.
