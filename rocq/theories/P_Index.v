(** The hash index of the policy store against scanning all rules. *)
From Verif Require Import Base P_Base M_Util M_RoleManager M_Effector M_Model M_Persist M_Eval M_Evaluator M_Enforcer S_Effect S_Enforce P_Effect P_Enforce P_Decide M_Matcher.

(** [e2] is [e1] with the rules of type p in a hash set instead of a vector. *)
Definition reindexed (e1 e2 : enforcer) : Prop :=
  exists a l, get_ast (e_model e1) "p" "p" = Ok a /\ a_policy a = Vec l /\
    e2 = set_model (put_policy (e_model e1) "p" "p" a (Hash l)) e1.

(** The matcher compares the request with the rule, field by field. *)
Definition plain_equality (o : oracle) (e : enforcer) (rf pf : list string) (mat matcher : string) (req : list string) : Prop :=
  HasEval (chosen matcher mat) = false /\ chosen matcher mat <> "" /\
  forall vals, List.length vals = List.length pf ->
    verdict o (e_model e) (e_heap e) rf pf (chosen matcher mat) req vals = Ok (rule_eqb req vals).

Lemma permits_singleton : forall pe b ef, permits pe [(b, ef)] <->
  match pe with
  | AllowOverride | AllowAndDeny | Priority => b = true /\ ef = Allow
  | DenyOverride => ~ (b = true /\ ef = Deny)
  end.
Proof.
  intros [] b ef; simpl.
  - split; [intros [H|[]]; inversion H; auto|intros [-> ->]; auto].
  - split; intros H C; apply H; [destruct C as [-> ->]; auto|destruct C as [C|[]]; inversion C; auto].
  - split.
    + intros [[H|[]] _]. inversion H. auto.
    + intros [-> ->]. split; auto. intros [H|[]]. discriminate.
  - split.
    + intros [pre [post [E F]]]. destruct pre as [|x pre].
      * inversion E. auto.
      * destruct pre; discriminate.
    + intros [-> ->]. exists [], []. auto.
Qed.

Lemma same_bool : forall (b1 b2 : bool) (P1 P2 : Prop), (b1 = true <-> P1) -> (b2 = true <-> P2) -> (P1 <-> P2) -> b1 = b2.
Proof. intros [] [] P1 P2 H1 H2 H3; auto; intuition congruence. Qed.

Lemma permits_index : forall pe pf req l,
  permits pe (map (fun r => (rule_eqb req r, effect_of pf r)) l) <->
  (In req l -> permits pe [(true, effect_of pf req)]) /\ (~ In req l -> pe = DenyOverride).
Proof.
  intros pe pf req l.
  assert (IN : forall ef, In (true, ef) (map (fun r => (rule_eqb req r, effect_of pf r)) l) <-> In req l /\ effect_of pf req = ef).
  { intros ef. rewrite in_map_iff. split.
    - intros [r [Q I]]. inversion Q. apply rule_eqb_true in H0. subst. auto.
    - intros [I Q]. exists req. rewrite rule_eqb_refl. split; congruence. }
  destruct (in_dec (list_eq_dec string_dec) req l) as [I|I].
  - rewrite permits_singleton. transitivity (match pe with AllowOverride | AllowAndDeny | Priority => true = true /\ effect_of pf req = Allow | DenyOverride => ~ (true = true /\ effect_of pf req = Deny) end); [|tauto].
    destruct pe; simpl.
    + rewrite IN. tauto.
    + rewrite IN. tauto.
    + rewrite !IN. split; [tauto|]. intros [_ E]. split; auto. intros [_ D]. congruence.
    + split.
      * intros [pre [post [E F]]]. split; auto.
        assert (J : In (true, Allow) (map (fun r => (rule_eqb req r, effect_of pf r)) l)) by (rewrite E, in_app_iff; simpl; auto).
        apply IN in J. tauto.
      * intros [_ E]. clear IN. induction l as [|a l IH]; [destruct I|].
        simpl. destruct (rule_eqb req a) eqn:Q.
        -- apply rule_eqb_true in Q. subst a. rewrite E. exists [], (map (fun r => (rule_eqb req r, effect_of pf r)) l). auto.
        -- destruct I as [->|I]. { rewrite rule_eqb_refl in Q. discriminate. }
           destruct (IH I) as [pre [post [-> F]]].
           exists ((false, effect_of pf a) :: pre), post. split; auto. constructor; auto.
           intros [D _]. discriminate.
  - destruct pe; simpl.
    + rewrite IN. split; [tauto|]. intros [_ E]. specialize (E I). discriminate.
    + rewrite IN. tauto.
    + rewrite !IN. split; [tauto|]. intros [_ E]. specialize (E I). discriminate.
    + split.
      * intros [pre [post [E F]]].
        assert (J : In (true, Allow) (map (fun r => (rule_eqb req r, effect_of pf r)) l)) by (rewrite E, in_app_iff; simpl; auto).
        apply IN in J. tauto.
      * intros [_ E]. specialize (E I). discriminate.
Qed.

(** The decision of a scan for a plain equality matcher. *)
Lemma no_rule_same : forall pe (b : bool), b = false ->
  exists r, MergeEffects (effect_text pe) [if b then Allow else Indeterminate] [true] 0 1 = Ok r /\
    (effect_eqb (fst r) Allow = true <-> pe = DenyOverride).
Proof. intros [] b ->; vm_compute; eexists; (split; [reflexivity|]); split; congruence. Qed.

Lemma text_plain : forall expr pf r, HasEval expr = false -> matcher_text expr pf r = Ok expr.
Proof. intros. unfold matcher_text, rule_expression. rewrite H. reflexivity. Qed.

Lemma plain_candidates : forall o e rf pf pe mat matcher req cands,
  oracle_ext o -> ready o e rf pf (effect_text pe) mat -> e_enabled e = true ->
  List.length req = List.length rf ->
  plain_equality o e rf pf mat matcher req ->
  (exists v, In v req /\ v <> "") -> List.length req = List.length pf ->
  candidates (e_model e) req = cands -> (forall r, In r cands -> List.length r = List.length pf) ->
  exists b, snd (EnforceWithMatcher o matcher (map DStr req) e) = Ok b /\
    (b = true <-> (In req cands -> permits pe [(true, effect_of pf req)]) /\ (~ In req cands -> pe = DenyOverride)).
Proof.
  intros o e rf pf pe mat matcher req cands X R EN L [HE [NE PV]] [v [IV NV]] LP C AR.
  destruct cands as [|c cs] eqn:CC.
  - destruct (enforce_spec o e rf pf (effect_text pe) mat matcher req X R L) as [ev' [E _]].
    { rewrite C. split; simpl; auto; tauto. }
    rewrite snd_EnforceWithMatcher, E. cbn [snd]. unfold enforce_outcome. rewrite EN, C. cbn [negb].
    unfold empty_outcome. rewrite HE.
    specialize (PV (map (fun _ => "") pf)). rewrite map_length in PV. specialize (PV eq_refl).
    unfold verdict in PV. rewrite map_length, Nat.eqb_refl in PV. cbn [negb] in PV. rewrite text_plain in PV by auto.
    cbn [bind] in PV. destruct (o_compiles o (chosen matcher mat) (known_vars rf pf) (role_arity (e_model e))); [|discriminate].
    rewrite PV. cbn [bind].
    assert (Z : rule_eqb req (map (fun _ => "") pf) = false).
    { destruct (rule_eqb req (map (fun _ => "") pf)) eqn:Q; auto. apply rule_eqb_true in Q. exfalso.
      rewrite Q in IV. apply in_map_iff in IV. destruct IV as [_ [W _]]. auto. }
    destruct (no_rule_same pe _ Z) as [r [M1 M2]]. rewrite M1. cbn.
    eexists. split; [reflexivity|]. rewrite M2. tauto.
  - rewrite <- CC in *. assert (NC : cands <> []) by (rewrite CC; discriminate). clear c cs CC.
    assert (A : answerable o e rf pf (effect_text pe) mat matcher req).
    { split.
      - constructor; auto; rewrite C; auto. split; auto. intros r I. rewrite text_plain by auto. congruence.
      - rewrite C. intros r I. exists (rule_eqb req r). apply PV. auto. }
    destruct (enforce_permits o e rf pf mat matcher req pe X A) as [b [E P]].
    exists b. split; auto. rewrite P, C.
    replace (map (outc o e rf pf mat matcher req) cands) with (map (fun r => (rule_eqb req r, effect_of pf r)) cands).
    + apply permits_index.
    + apply map_ext_in. intros r I. unfold outc, holds. rewrite PV by auto. destruct (rule_eqb req r); reflexivity.
Qed.

Lemma index_same : forall o e1 e2 rf pf pe mat matcher req,
  oracle_ext o -> ready o e1 rf pf (effect_text pe) mat -> e_enabled e1 = true ->
  List.length req = List.length rf -> List.length pf = List.length rf ->
  reindexed e1 e2 -> plain_equality o e1 rf pf mat matcher req ->
  (forall r, In r (p_rules (e_model e1)) -> List.length r = List.length pf) ->
  (exists v, In v req /\ v <> "") -> map c_str req = req ->
  exists b, snd (EnforceWithMatcher o matcher (map DStr req) e1) = Ok b /\
            snd (EnforceWithMatcher o matcher (map DStr req) e2) = Ok b.
Proof.
  intros o e1 e2 rf pf pe mat matcher req X R EN L LP [a [l [G [P ->]]]] PE AR NV CS.
  set (m2 := put_policy (e_model e1) "p" "p" a (Hash l)).
  assert (P1 : p_rules (e_model e1) = l) by (unfold p_rules; rewrite G, P; reflexivity).
  assert (C1 : candidates (e_model e1) req = l).
  { unfold candidates, p_indexed. rewrite G, P, P1. reflexivity. }
  assert (C2 : candidates m2 req = if existsb (rule_eqb req) l then [req] else []).
  { unfold candidates, p_indexed, p_rules, m2. rewrite get_put_same. cbn. rewrite CS. reflexivity. }
  assert (R2 : ready o (set_model m2 e1) rf pf (effect_text pe) mat).
  { destruct R as [D F]. split. { exact (declares_put_p _ _ _ _ _ a (Hash l) D G). }
    cbn. destruct (e_ev e1); auto. apply fits_put_p. auto. }
  assert (PE2 : plain_equality o (set_model m2 e1) rf pf mat matcher req).
  { destruct PE as [A [B C]]. split; auto. split; auto. intros vals LV. cbn. unfold m2. rewrite verdict_put_p. auto. }
  rewrite P1 in AR.
  destruct (plain_candidates o e1 rf pf pe mat matcher req l X R EN L PE NV) as [b1 [E1 B1]]; auto; try congruence.
  destruct (plain_candidates o (set_model m2 e1) rf pf pe mat matcher req (if existsb (rule_eqb req) l then [req] else []) X R2 EN L PE2 NV) as [b2 [E2 B2]]; [congruence|exact C2| |].
  { destruct (existsb (rule_eqb req) l); simpl; [|tauto]. intros r [<-|[]]. congruence. }
  exists b1. split; auto. rewrite E2. f_equal. symmetry. eapply same_bool; [exact B1|exact B2|].
  destruct (existsb (rule_eqb req) l) eqn:Q.
  - assert (In req l). { apply existsb_exists in Q. destruct Q as [x [I Q]]. apply rule_eqb_true in Q. subst x. auto. }
    simpl. tauto.
  - assert (~ In req l). { intro I. assert (existsb (rule_eqb req) l = true); [|congruence].
      apply existsb_exists. exists req. split; auto. apply rule_eqb_refl. }
    simpl. tauto.
Qed.

From Verif Require Import E_Examples.
(** The standard matcher is such a comparison. *)
Lemma basic_plain : forall e req, List.length req = 3 -> plain_equality mini e f3 f3 basic_matcher "" req.
Proof.
  intros e req L. split; [reflexivity|]. split; [discriminate|]. intros vals LV.
  destruct req as [|a [|b [|c []]]]; try discriminate.
  destruct vals as [|x [|y [|z []]]]; try discriminate.
  unfold verdict. rewrite text_plain by reflexivity.
  cbn [List.length Nat.eqb negb bind f3 mini o_compiles o_value].
  change (parse_matcher (chosen "" basic_matcher)) with
    (Some (MAnd (MEq (TmVar "r.sub") (TmVar "p.sub")) (MAnd (MEq (TmVar "r.obj") (TmVar "p.obj")) (MEq (TmVar "r.act") (TmVar "p.act"))))).
  rewrite !rule_eqb_cons, rule_eqb_nil. cbn.
  destruct (String.eqb a x); cbn; auto. destruct (String.eqb b y); cbn; auto. destruct (String.eqb c z); reflexivity.
Qed.
