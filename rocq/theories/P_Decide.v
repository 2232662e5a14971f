(** Consequences of [enforce_spec]: decisions, explanations, order of rules,
    independence of history. *)
From Coq Require Import Permutation.
From Verif Require Import Base P_Base M_Util M_RoleManager M_Effector M_Model M_Persist M_Eval M_Evaluator M_Enforcer S_Effect S_Enforce P_Effect P_Enforce M_Matcher.

Lemma mini_ext : oracle_ext mini.
Proof.
  split; intros; simpl; destruct (parse_matcher t) as [e|]; auto.
  - assert (T : forall a, term_ok v1 a = term_ok v2 a) by (intros []; simpl; auto).
    induction e; simpl; rewrite ?T, ?H0; try congruence.
    f_equal; auto. induction args; simpl; auto. rewrite T. congruence.
  - assert (T : forall a, term_val v1 a = term_val v2 a) by (intros []; simpl; rewrite ?H; auto).
    induction e; simpl; rewrite ?T; try congruence.
    + rewrite IHe1. destruct (mexp_val v2 g2 e1); simpl; auto. destruct a; auto.
    + rewrite IHe1. destruct (mexp_val v2 g2 e1); simpl; auto. destruct a; auto.
    + rewrite H0. replace (map (term_val v1) args) with (map (term_val v2) args); auto.
      apply map_ext. auto.
Qed.

Section D.
  Variable o : oracle.
  Variable e : enforcer.
  Variables rf pf : list string.
  Variables mat matcher : string.
  Variable req : list string.
  Let cands := candidates (e_model e) req.
  Let vd := verdict o (e_model e) (e_heap e) rf pf (chosen matcher mat) req.

  (** The truth value of the matcher for a rule that evaluates. *)
  Definition holds (r : rule) : bool := match vd r with Ok true => true | _ => false end.
  Definition outc (r : rule) : outcome := (holds r, effect_of pf r).

  Lemma outcomes_ok : (forall r, In r cands -> exists b, vd r = Ok b) ->
    map (rule_outcome o (e_model e) (e_heap e) rf pf (chosen matcher mat) req) cands = map Ok (map outc cands).
  Proof.
    intros H. rewrite map_map. apply map_ext_in. intros r I. destruct (H r I) as [b B].
    unfold rule_outcome, outc, holds. unfold vd in *. rewrite B. destruct b; reflexivity.
  Qed.

  Lemma decide_some : forall eff i pre r post,
    cands = pre ++ r :: post -> List.length pre = i -> decide cands (eff, Some i) = (effect_eqb eff Allow, r).
  Proof.
    intros. unfold decide. simpl. rewrite H, nth_error_app2 by lia.
    rewrite <- H0, Nat.sub_diag. reflexivity.
  Qed.

  Lemma map_split : forall A B (f : A -> B) l pre y post, map f l = pre ++ y :: post ->
    exists l1 x l2, l = l1 ++ x :: l2 /\ map f l1 = pre /\ f x = y /\ map f l2 = post.
  Proof.
    induction l; simpl; intros.
    - destruct pre; discriminate.
    - destruct pre; simpl in H; inversion H; subst.
      + exists [], a, l. auto.
      + destruct (IHl _ _ _ H2) as [l1 [x [l2 [-> [<- [<- <-]]]]]]. exists (a :: l1), x, l2. auto.
  Qed.

  (** All candidate rules evaluate: decision and explanation are as specified. *)
  Lemma decision_good : forall pe,
    oracle_ext o -> ready o e rf pf (effect_text pe) mat -> e_enabled e = true ->
    List.length req = List.length rf -> texts_ok (chosen matcher mat) pf cands -> cands <> [] ->
    (forall r, In r cands -> exists b, vd r = Ok b) ->
    exists b x, snd (EnforceExWithMatcher o matcher (map DStr req) e) = Ok (b, x) /\
      (b = true <-> permits pe (map outc cands)) /\
      ((x = [] /\ Forall (fun r => ~ reason pe (map outc cands) (outc r)) cands) \/
       (exists pre post, cands = pre ++ x :: post /\ reason pe (map outc cands) (outc x) /\
          Forall (fun r => ~ reason pe (map outc cands) (outc r)) pre)).
  Proof.
    intros pe X RD EN L T NE V.
    destruct (enforce_spec o e rf pf (effect_text pe) mat matcher req X RD L T) as [ev' [E _]].
    rewrite E. unfold snd at 1. unfold enforce_outcome. rewrite EN. simpl negb. cbv iota.
    fold cands. destruct cands as [|r0 rs] eqn:C; [congruence|]. rewrite <- C in *.
    unfold loop_outcome. rewrite (outcomes_ok V).
    pose proof (ploop_good pe (map outc cands) [] (UB Uninitialised)) as P.
    destruct P as [r [PE [G1 G2]]].
    - destruct pe; simpl; auto.
    - rewrite C. discriminate.
    - simpl List.length in PE. rewrite !map_length in PE. unfold fill_e, fill_m, effs, mats in PE.
      simpl in PE. rewrite PE. cbn [bind].
      simpl app in *. destruct r as [eff x]. cbn [fst snd] in *.
      exists (effect_eqb eff Allow), (snd (decide cands (eff, x))). split; [reflexivity|]. split.
      + rewrite <- G1. destruct eff; simpl; split; congruence.
      + destruct x as [i|]; simpl in G2.
        * destruct G2 as [pre [oo [post [S1 [S2 [S3 S4]]]]]].
          destruct (map_split _ _ _ _ _ _ _ S1) as [l1 [x [l2 [D1 [D2 [D3 D4]]]]]].
          rewrite (decide_some eff i l1 x l2 D1) by (rewrite <- D2, map_length in S2; auto).
          right. exists l1, l2. split; auto. subst oo. split; auto.
          subst pre. rewrite Forall_map in S4. exact S4.
        * left. split; auto. rewrite Forall_map in G2. exact G2.
  Qed.

  (** Some candidate fails to evaluate: the first failing one raises, unless an earlier
      rule settles the decision. *)
  Lemma decision_bad : forall pe pre bad post,
    oracle_ext o -> ready o e rf pf (effect_text pe) mat -> e_enabled e = true ->
    List.length req = List.length rf -> texts_ok (chosen matcher mat) pf cands ->
    cands = pre ++ bad :: post -> (forall r, In r pre -> exists b, vd r = Ok b) ->
    (forall b, vd bad <> Ok b) ->
    (exists r, In r pre /\ settles pe (outc r) /\
        exists x, snd (EnforceExWithMatcher o matcher (map DStr req) e) =
                  Ok (effect_eqb (settled_effect pe (outc r)) Allow, x)) \/
    ((forall r, In r pre -> ~ settles pe (outc r)) /\
     (forall t, vd bad = Throw t -> snd (EnforceExWithMatcher o matcher (map DStr req) e) = Throw t) /\
     (forall b, snd (EnforceExWithMatcher o matcher (map DStr req) e) <> Ok b)).
  Proof.
    intros pe pre bad post X RD EN L T C V B.
    destruct (enforce_spec o e rf pf (effect_text pe) mat matcher req X RD L T) as [ev' [E _]].
    rewrite E. unfold snd. unfold enforce_outcome. rewrite EN. simpl negb. cbv iota.
    fold cands.
    assert (NE : cands <> []) by (rewrite C; destruct pre; discriminate).
    destruct cands as [|r0 rs] eqn:CC; [congruence|]. rewrite <- CC in *. clear r0 rs CC NE.
    unfold loop_outcome.
    assert (VO : forall r, In r pre -> rule_outcome o (e_model e) (e_heap e) rf pf (chosen matcher mat) req r = Ok (outc r)).
    { intros r I. destruct (V r I) as [b Bq]. unfold rule_outcome, outc, holds, vd in *. rewrite Bq. destruct b; reflexivity. }
    assert (M : map (rule_outcome o (e_model e) (e_heap e) rf pf (chosen matcher mat) req) cands =
                map Ok (map outc pre) ++ rule_outcome o (e_model e) (e_heap e) rf pf (chosen matcher mat) req bad ::
                map (rule_outcome o (e_model e) (e_heap e) rf pf (chosen matcher mat) req) post).
    { rewrite C, map_app. simpl. f_equal. rewrite map_map. apply map_ext_in. auto. }
    rewrite M.
    assert (XB : forall oo, rule_outcome o (e_model e) (e_heap e) rf pf (chosen matcher mat) req bad <> Ok oo).
    { intros oo. unfold rule_outcome. unfold vd in B. destruct (verdict o (e_model e) (e_heap e) rf pf (chosen matcher mat) req bad) eqn:Q; simpl; congruence. }
    destruct (ploop_bad pe (map outc pre) [] (UB Uninitialised) _
                (map (rule_outcome o (e_model e) (e_heap e) rf pf (chosen matcher mat) req) post)
                (List.length cands) XB) as [[oo [p1 [p2 [S1 [S2 S3]]]]]|[N [y [Y1 [Y2 [Y3 Q]]]]]].
    - destruct pe; simpl; auto.
    - rewrite C, app_length, !map_length. simpl List.length. rewrite Nat.add_succ_r. reflexivity.
    - left. destruct (map_split _ _ _ _ _ _ _ S1) as [l1 [x [l2 [D1 [D2 [D3 D4]]]]]].
      exists x. split. { rewrite D1, in_app_iff. simpl. auto. }
      subst oo. split; auto.
      unfold fill_e, fill_m, effs, mats in S3. simpl in S3. rewrite Nat.sub_0_r in S3. rewrite S3.
      cbn [bind]. eexists. reflexivity.
    - right. split. { intros r I S. eapply N; eauto. apply in_map. auto. }
      unfold fill_e, fill_m, effs, mats in Q. simpl in Q. rewrite Nat.sub_0_r in Q. rewrite Q. split.
      + intros t TT. rewrite (Y2 t); auto. unfold rule_outcome. unfold vd in TT. rewrite TT. reflexivity.
      + intros b. destruct y; simpl; try congruence.
  Qed.

  Lemma holds_true : forall r, holds r = true <-> vd r = Ok true.
  Proof. intros. unfold holds. destruct (vd r) as [[]| |]; split; congruence. Qed.

  Lemma in_outc : forall b ef l, In (b, ef) (map outc l) <-> exists r, In r l /\ holds r = b /\ effect_of pf r = ef.
  Proof.
    intros. rewrite in_map_iff. split.
    - intros [r [Q I]]. inversion Q. eauto.
    - intros [r [I [A B]]]. exists r. unfold outc. rewrite A, B. auto.
  Qed.
End D.

(** The result of a decision without the explanation. *)
Lemma snd_EnforceWithMatcher : forall o matcher params e,
  snd (EnforceWithMatcher o matcher params e) =
  let! r := snd (EnforceExWithMatcher o matcher params e) in Ok (fst r).
Proof.
  intros. unfold EnforceWithMatcher, mbind, ret.
  destruct (EnforceExWithMatcher o matcher params e) as [e' [r|t|u]]; reflexivity.
Qed.

Lemma fst_EnforceWithMatcher : forall o matcher params e,
  fst (EnforceWithMatcher o matcher params e) = fst (EnforceExWithMatcher o matcher params e).
Proof.
  intros. unfold EnforceWithMatcher, mbind, ret.
  destruct (EnforceExWithMatcher o matcher params e) as [e' [r|t|u]]; reflexivity.
Qed.

(** ** Enforcement is a read *)
Lemma EnforceEx_frame : forall o matcher params e,
  exists ev, fst (EnforceExWithMatcher o matcher params e) = set_ev ev e.
Proof.
  intros. assert (R : e = set_ev (e_ev e) e) by (destruct e; reflexivity).
  unfold EnforceExWithMatcher. destruct (get_ast (e_model e) "r" "r"); eauto.
  destruct (negb (Nat.eqb (List.length params) (List.length (a_tokens a)))); eauto.
  destruct (push_r (own_evaluator e) (a_tokens a) params) as [ev1 [u|t|u]]; simpl; eauto.
  destruct (m_enforce o e ev1 matcher). simpl. eauto.
Qed.

Lemma EnforceExMap_frame : forall o matcher params e,
  exists ev, fst (EnforceExWithMatcherMap o matcher params e) = set_ev ev e.
Proof.
  intros. unfold EnforceExWithMatcherMap.
  destruct (push_map (own_evaluator e) params) as [ev1 [u|t|u]]; simpl; eauto.
  destruct (m_enforce o e ev1 matcher). simpl. eauto.
Qed.

(** ** Readiness is kept by enforcement *)
Lemma ready_set_ev : forall o e rf pf eft mat ev,
  declares (e_model e) rf pf eft mat -> fits o (e_model e) rf pf ev -> ready o (set_ev (Some ev) e) rf pf eft mat.
Proof. intros. split; auto. Qed.

Lemma outcome_set_ev : forall o e ev rf pf eft mat matcher req,
  enforce_outcome o (set_ev ev e) rf pf eft mat matcher req = enforce_outcome o e rf pf eft mat matcher req.
Proof. reflexivity. Qed.

(** A request together with its matcher that the model can process. *)
Definition admissible (m : model) (rf pf : list string) (mat : string) (q : string * list string) : Prop :=
  List.length (snd q) = List.length rf /\ texts_ok (chosen (fst q) mat) pf (candidates m (snd q)).

Fixpoint ask (o : oracle) (qs : list (string * list string)) (e : enforcer) : enforcer :=
  match qs with
  | [] => e
  | (matcher, req) :: qs' => ask o qs' (fst (EnforceExWithMatcher o matcher (map DStr req) e))
  end.

Lemma ask_ready : forall o rf pf eft mat qs e,
  oracle_ext o -> ready o e rf pf eft mat -> Forall (admissible (e_model e) rf pf mat) qs ->
  exists ev, ask o qs e = set_ev ev e /\ ready o (ask o qs e) rf pf eft mat.
Proof.
  induction qs as [|[mt rq] qs IH]; intros e X R F.
  - exists (e_ev e). split; auto. destruct e; reflexivity.
  - inversion F as [|? ? [L T] F']; subst. simpl in L, T.
    destruct (enforce_spec o e rf pf eft mat mt rq X R L T) as [ev' [E FT]].
    simpl. rewrite E. simpl.
    destruct (IH (set_ev (Some ev') e)) as [ev [Q RQ]]; auto.
    + apply ready_set_ev; auto. apply R.
    + rewrite Q. exists ev. split; [reflexivity|]. rewrite <- Q. auto.
Qed.

(** ** Batches *)
Lemma enforce_set_ev : forall o rf pf eft mat matcher q e ev',
  oracle_ext o -> ready o e rf pf eft mat -> ready o (set_ev (Some ev') e) rf pf eft mat ->
  admissible (e_model e) rf pf mat (matcher, q) ->
  snd (EnforceWithMatcher o matcher (map DStr q) (set_ev (Some ev') e)) =
  snd (EnforceWithMatcher o matcher (map DStr q) e).
Proof.
  intros o rf pf eft mat matcher q e ev' X R R' [L T]. simpl in L, T.
  destruct (enforce_spec o e rf pf eft mat matcher q X R L T) as [ev1 [E1 _]].
  destruct (enforce_spec o (set_ev (Some ev') e) rf pf eft mat matcher q X R' L T) as [ev2 [E2 _]].
  rewrite !snd_EnforceWithMatcher, E1, E2. reflexivity.
Qed.

Lemma mapr_ext_in : forall A B (f g : A -> res B) l, (forall x, In x l -> f x = g x) -> mapr f l = mapr g l.
Proof.
  induction l; simpl; intros; auto. rewrite H by auto. destruct (g a); simpl; auto.
  rewrite IHl by auto. reflexivity.
Qed.

Lemma batch_matcher_spec : forall o rf pf eft mat matcher reqs e,
  oracle_ext o -> ready o e rf pf eft mat ->
  Forall (fun q => admissible (e_model e) rf pf mat (matcher, q)) reqs ->
  snd (BatchEnforceWithMatcher o matcher (map (map DStr) reqs) e) =
  mapr (fun q => snd (EnforceWithMatcher o matcher (map DStr q) e)) reqs.
Proof.
  induction reqs as [|q reqs IH]; intros e X R F; auto.
  inversion F as [|? ? A F']; subst. pose proof A as [L T]. simpl in L, T.
  destruct (enforce_spec o e rf pf eft mat matcher q X R L T) as [ev' [E FT]].
  assert (R' : ready o (set_ev (Some ev') e) rf pf eft mat) by (apply ready_set_ev; auto; apply R).
  cbn [map BatchEnforceWithMatcher mapr]. rewrite snd_EnforceWithMatcher, E. cbn [snd].
  unfold mbind at 1. unfold EnforceWithMatcher at 1. unfold mbind at 1. rewrite E. cbn [ret].
  destruct (enforce_outcome o e rf pf eft mat matcher q) as [r|t|u]; cbn; auto.
  unfold mbind. pose proof (IH (set_ev (Some ev') e) X R' F') as H.
  destruct (BatchEnforceWithMatcher o matcher (map (map DStr) reqs) (set_ev (Some ev') e)) as [e2 out].
  cbn [snd] in H. rewrite (mapr_ext_in _ _ _ (fun q => snd (EnforceWithMatcher o matcher (map DStr q) e)) reqs) in H.
  - rewrite <- H. destruct out; reflexivity.
  - intros x I. rewrite Forall_forall in F'. eapply enforce_set_ev; eauto.
Qed.

Lemma batch_same : forall o reqs, BatchEnforce o reqs = BatchEnforceWithMatcher o "" reqs.
Proof. induction reqs; cbn; [reflexivity|]. rewrite IHreqs. reflexivity. Qed.

(** ** Order of the rules *)
Lemma sec_put_policy : forall m sec pt a p sec', sec' <> sec -> sec_of (put_policy m sec pt a p) sec' = sec_of m sec'.
Proof.
  intros. unfold put_policy, put_ast, sec_of. rewrite aget_aset_other by auto. reflexivity.
Qed.

Lemma get_put_same : forall m sec pt a p, get_ast (put_policy m sec pt a p) sec pt = Ok (with_policy a p).
Proof. intros. unfold get_ast, put_policy, put_ast, sec_of. rewrite aget_aset_same, aget_aset_same. reflexivity. Qed.

Lemma get_put_other : forall m sec pt a p sec' pt', (sec', pt') <> (sec, pt) ->
  get_ast (put_policy m sec pt a p) sec' pt' = get_ast m sec' pt'.
Proof.
  intros. unfold get_ast, put_policy, put_ast, sec_of. rewrite aget_aset.
  seqb sec' sec; [subst|reflexivity].
  rewrite aget_aset_other by congruence. reflexivity.
Qed.

Lemma verdict_put_p : forall o m pt a p h rf pf expr req r,
  verdict o (put_policy m "p" pt a p) h rf pf expr req r = verdict o m h rf pf expr req r.
Proof.
  intros. unfold verdict, role_arity, role_fun.
  rewrite (sec_put_policy m "p" pt a p "g") by discriminate. reflexivity.
Qed.

Lemma declares_put_p : forall m rf pf eft mat a p, declares m rf pf eft mat -> get_ast m "p" "p" = Ok a ->
  declares (put_policy m "p" "p" a p) rf pf eft mat.
Proof.
  intros m rf pf eft mat a p D A. destruct D as [D1 D2 D3 D4 D5 D6 D7 D8 D9]. constructor; auto.
  - rewrite get_put_other by congruence. auto.
  - rewrite get_put_same. destruct D2 as [a' [A' T]]. rewrite A in A'. inversion A'; subst. eauto.
  - rewrite get_put_other by congruence. auto.
  - rewrite get_put_other by congruence. auto.
  - rewrite sec_put_policy by discriminate. auto.
Qed.

Lemma fits_put_p : forall o m rf pf a p ev, fits o m rf pf ev -> fits o (put_policy m "p" "p" a p) rf pf ev.
Proof.
  intros o m rf pf a p ev [A B C]. constructor; auto.
  - rewrite sec_put_policy by discriminate. auto.
  - unfold role_arity. rewrite sec_put_policy by discriminate. auto.
Qed.

Lemma permits_perm : forall pe os os', pe <> Priority -> Permutation os os' -> permits pe os -> permits pe os'.
Proof.
  intros [] os os' N P H; simpl in *; try congruence.
  - eapply Permutation_in; eauto.
  - intro C. apply H. eapply Permutation_in; [apply Permutation_sym|]; eauto.
  - destruct H as [A B]. split.
    + eapply Permutation_in; eauto.
    + intro C. apply B. eapply Permutation_in; [apply Permutation_sym|]; eauto.
Qed.

(** ** The theorems about decisions *)
Section Effects.
  Variable o : oracle.
  Variable e : enforcer.
  Variables rf pf : list string.
  Variables mat matcher : string.
  Variable req : list string.
  Let cands := candidates (e_model e) req.
  Let hit := matches o e rf pf mat matcher req.

  Lemma enforce_permits : forall pe, oracle_ext o -> answerable o e rf pf (effect_text pe) mat matcher req ->
    exists b, snd (EnforceWithMatcher o matcher (map DStr req) e) = Ok b /\
      (b = true <-> permits pe (map (outc o e rf pf mat matcher req) cands)).
  Proof.
    intros pe X [[R EN L NE T] V].
    destruct (decision_good o e rf pf mat matcher req pe X R EN L T NE V) as [b [x [E [P _]]]].
    exists b. split; auto. rewrite snd_EnforceWithMatcher, E. reflexivity.
  Qed.

  Lemma in_hit : forall b ef, In (true, ef) (map (outc o e rf pf mat matcher req) b) <->
    exists r, In r b /\ hit r /\ effect_of pf r = ef.
  Proof.
    intros. rewrite in_outc. split; intros [r [I [H F]]]; exists r; repeat split; auto.
    - apply holds_true. auto.
    - apply holds_true. auto.
  Qed.

  Lemma outc_hit : forall r ef, outc o e rf pf mat matcher req r = (true, ef) <-> hit r /\ effect_of pf r = ef.
  Proof.
    intros. unfold outc. split.
    - intros H. inversion H. split; auto. apply holds_true. auto.
    - intros [H1 H2]. apply holds_true in H1. congruence.
  Qed.

  Lemma decisive_outc : forall r, decisive (outc o e rf pf mat matcher req r) <-> hit r /\ effect_of pf r <> Indeterminate.
  Proof.
    intros. unfold decisive, outc. simpl. rewrite holds_true. reflexivity.
  Qed.

  Lemma priority_rules : permits Priority (map (outc o e rf pf mat matcher req) cands) <->
    exists pre r post, cands = pre ++ r :: post /\ hit r /\ effect_of pf r = Allow /\
      forall r', In r' pre -> hit r' -> effect_of pf r' = Indeterminate.
  Proof.
    simpl. split.
    - intros [pre [post [E F]]]. destruct (map_split _ _ _ _ _ _ _ E) as [l1 [x [l2 [D1 [D2 [D3 D4]]]]]].
      apply outc_hit in D3. exists l1, x, l2. repeat split; try tauto.
      intros r' I H. subst pre. rewrite Forall_map, Forall_forall in F. specialize (F _ I).
      rewrite decisive_outc in F. destruct (effect_of pf r') eqn:Q; auto; exfalso; apply F; split; auto; congruence.
    - intros [pre [r [post [C [H [A F]]]]]]. rewrite C, map_app. simpl.
      exists (map (outc o e rf pf mat matcher req) pre), (map (outc o e rf pf mat matcher req) post). split.
      + f_equal. f_equal. apply outc_hit. auto.
      + rewrite Forall_map, Forall_forall. intros r' I. rewrite decisive_outc. intros [H1 H2]. auto.
  Qed.

  Lemma settles_decisive : forall pe oo, settles pe oo -> decisive oo /\ settled_effect pe oo = snd oo.
  Proof. intros [] oo; simpl; intros H; subst; unfold decisive; simpl; split; auto; split; congruence. Qed.
End Effects.

Lemma merge_unknown : forall eft es ms i n, (forall pe, eft <> effect_text pe) ->
  MergeEffects eft es ms i n = Throw UnsupportedOperation.
Proof.
  intros eft es ms i n H. unfold MergeEffects.
  pose proof (H AllowOverride) as A. pose proof (H DenyOverride) as B.
  pose proof (H AllowAndDeny) as C. pose proof (H Priority) as D. simpl in *.
  unfold eft_allow_override, eft_deny_override, eft_allow_and_deny, eft_priority.
  apply String.eqb_neq in A. apply String.eqb_neq in B. apply String.eqb_neq in C. apply String.eqb_neq in D.
  rewrite A, B, C, D. reflexivity.
Qed.

Lemma unknown_effect : forall o e rf pf eft mat matcher req,
  oracle_ext o -> asked o e rf pf eft mat matcher req -> (forall pe, eft <> effect_text pe) ->
  exists t, snd (EnforceExWithMatcher o matcher (map DStr req) e) = t /\ (forall r, t <> Ok r) /\
    forall r rest b, candidates (e_model e) req = r :: rest ->
      verdict o (e_model e) (e_heap e) rf pf (chosen matcher mat) req r = Ok b -> t = Throw UnsupportedOperation.
Proof.
  intros o e rf pf eft mat matcher req X [R EN L NE T] U.
  destruct (enforce_spec o e rf pf eft mat matcher req X R L T) as [ev' [E _]].
  rewrite E. cbn [snd]. eexists. split; [reflexivity|].
  unfold enforce_outcome. rewrite EN. simpl negb. cbv iota.
  destruct (candidates (e_model e) req) as [|r rs] eqn:C; [congruence|].
  unfold loop_outcome. cbn [map ploop].
  unfold rule_outcome at 1 3.
  destruct (verdict o (e_model e) (e_heap e) rf pf (chosen matcher mat) req r) eqn:V; cbn [bind].
  - rewrite merge_unknown by auto. cbn. split; congruence.
  - split; [congruence|]. intros r0 rest b Q W. inversion Q; subst. congruence.
  - split; [congruence|]. intros r0 rest b Q W. inversion Q; subst. congruence.
Qed.

Lemma candidates_stored : forall m req r, In r (candidates m req) -> In r (p_rules m).
Proof.
  intros m req r. unfold candidates. destruct (p_indexed m); auto.
  destruct (existsb (rule_eqb (map c_str req)) (p_rules m)) eqn:E; simpl; [|tauto].
  intros [<-|[]]. apply existsb_exists in E. destruct E as [x [I Q]]. apply rule_eqb_true in Q. congruence.
Qed.

(** Permuting the stored rules. *)
Definition reordered (e1 e2 : enforcer) : Prop :=
  exists a l1 l2, get_ast (e_model e1) "p" "p" = Ok a /\ a_policy a = Vec l1 /\ Permutation l1 l2 /\
    e2 = set_model (put_policy (e_model e1) "p" "p" a (Vec l2)) e1.

Lemma reorder_same : forall o e1 e2 rf pf pe mat matcher req,
  oracle_ext o -> answerable o e1 rf pf (effect_text pe) mat matcher req -> pe <> Priority -> reordered e1 e2 ->
  snd (EnforceWithMatcher o matcher (map DStr req) e1) = snd (EnforceWithMatcher o matcher (map DStr req) e2).
Proof.
  intros o e1 e2 rf pf pe mat matcher req X A NP [a [l1 [l2 [G [P [PM ->]]]]]].
  assert (C1 : candidates (e_model e1) req = l1).
  { unfold candidates, p_indexed, p_rules. rewrite G, P. reflexivity. }
  set (m2 := put_policy (e_model e1) "p" "p" a (Vec l2)).
  assert (C2 : candidates m2 req = l2).
  { unfold candidates, p_indexed, p_rules, m2. rewrite get_put_same. reflexivity. }
  assert (A2 : answerable o (set_model m2 e1) rf pf (effect_text pe) mat matcher req).
  { destruct A as [[R EN L NE [T1 T2]] V]. split.
    - constructor; auto.
      + destruct R as [D F]. split. { apply declares_put_p; auto. }
        simpl. destruct (e_ev e1); auto. apply fits_put_p. auto.
      + simpl. rewrite C2. intro Q. rewrite Q in PM. apply Permutation_sym, Permutation_nil in PM. congruence.
      + simpl. rewrite C2. split; auto. intros r I. apply T2. rewrite C1.
        eapply Permutation_in; [apply Permutation_sym|]; eauto.
    - simpl. rewrite C2. intros r I. unfold m2. rewrite verdict_put_p. apply V. rewrite C1.
      eapply Permutation_in; [apply Permutation_sym|]; eauto. }
  destruct (enforce_permits o e1 rf pf mat matcher req pe X A) as [b1 [E1 P1]].
  destruct (enforce_permits o (set_model m2 e1) rf pf mat matcher req pe X A2) as [b2 [E2 P2]].
  rewrite E1, E2. f_equal.
  assert (H : forall r, outc o (set_model m2 e1) rf pf mat matcher req r = outc o e1 rf pf mat matcher req r).
  { intros. unfold outc, holds. simpl. unfold m2. rewrite verdict_put_p. reflexivity. }
  cbn [e_model set_model] in P2. rewrite C2 in P2. rewrite (map_ext _ _ H) in P2. rewrite C1 in P1.
  assert (Q : permits pe (map (outc o e1 rf pf mat matcher req) l1) <-> permits pe (map (outc o e1 rf pf mat matcher req) l2)).
  { split; apply permits_perm; auto; [|apply Permutation_sym]; apply Permutation_map; auto. }
  destruct b1, b2; auto; intuition congruence.
Qed.
