(** Proofs about whole models. *)
From Verif Require Import Base P_Base M_Util M_RoleManager M_Effector M_Model M_Persist M_Eval M_Evaluator M_Enforcer M_Matcher
  S_Effect S_Enforce S_Policy S_History S_Roles S_Sync S_Rbac S_Standard P_Enforce P_Decide P_Store P_Api P_History P_Roles P_Sync P_Ready T_Enforce.

Lemma candidate_stored : forall e req r, In r (candidates (e_model e) req) -> In r (stored e "p" "p").
Proof.
  intros e req r. unfold candidates. change (p_rules (e_model e)) with (stored e "p" "p"). destruct (p_indexed (e_model e)); auto.
  destruct (existsb (rule_eqb (map c_str req)) (stored e "p" "p")) eqn:E; [|intros []]. intros [<-|[]].
  apply existsb_exists in E. destruct E as [x [I Q]]. apply rule_eqb_true in Q. subst. auto.
Qed.

Lemma granted_ext : forall pe M M' eff l, (forall r, In r l -> (M r <-> M' r)) -> (granted pe M eff l <-> granted pe M' eff l).
Proof.
  intros pe M M' eff l H.
  assert (S : forall x, (exists r, In r l /\ M r /\ eff r = x) <-> (exists r, In r l /\ M' r /\ eff r = x)).
  { intros x. split; intros [r [I [Q F]]]; exists r; repeat split; auto; apply (H r I); auto. }
  unfold granted. destruct pe; rewrite ?S; try tauto.
  split; intros [pre [r [post [-> [Q [F P]]]]]]; exists pre, r, post; repeat split; auto; try (apply (H r); auto; apply in_elt);
    intros r' I Q'; apply P; auto; apply (H r'); auto; apply in_or_app; auto.
Qed.

(** Any enforcer whose role functions answer by the relation [G]. *)
Section Answers.
  Variables (o : oracle) (names : node -> Prop) (n : nat).
  Variables (hashed : bool) (rf pf : list string) (pe : policy_effect) (mat : string) (d : reading).
  Hypothesis X : oracle_ext o.
  Hypothesis RD : reads o n mat d.
  Hypothesis MAT : mat <> "".
  Hypothesis NOEVAL : HasEval mat = false.
  Hypothesis VARS : forall x, In x (rd_vars d) -> In x (r_names rf ++ p_names pf).
  Variables (e : enforcer) (G : string -> list string -> Prop).
  Hypothesis ARITY : forall f, In f (rd_funs d) -> role_arity (e_model e) f = Some n.
  Hypothesis ANSWER : forall f args, In f (rd_funs d) -> in_use names args ->
    exists b, role_fun (e_model e) (e_heap e) f args = Some (Ok b) /\ (b = true <-> G f args).

  Lemma env_known : forall req r x, List.length req = List.length rf -> List.length r = List.length pf ->
    In x (r_names rf ++ p_names pf) -> env rf req pf r x = Some (value_of rf req pf r x).
  Proof.
    intros req r x L1 L2 I. unfold value_of, env.
    destruct (aget x (combine (r_names rf) req ++ combine (p_names pf) r)) eqn:E; auto. exfalso.
    apply aget_None in E. apply E. rewrite map_app. rewrite !combine_fst; auto.
    all: unfold r_names, p_names; rewrite map_length; auto.
  Qed.
  Lemma any_compiles : o_compiles o mat (known_vars rf pf) (role_arity (e_model e)) = true.
  Proof. apply (rs_compiles _ _ _ _ RD); auto. intros x I. unfold known_vars. apply inb_true. auto. Qed.

  Lemma any_value : forall req r,
    List.length req = List.length rf -> List.length r = List.length pf -> calls_ok names d (value_of rf req pf r) ->
    exists b, o_value o mat (env rf req pf r) (role_fun (e_model e) (e_heap e)) = Ok b /\
      (b = true <-> rd_sem d (value_of rf req pf r) G).
  Proof.
    intros req r L1 L2 C.
    destruct (rs_value _ _ _ _ RD (env rf req pf r) (role_fun (e_model e) (e_heap e)) (value_of rf req pf r)) as [b [E B]].
    - intros x I. apply env_known; auto.
    - intros f args I. destruct (proj2 C f args I) as [F N]. destruct (ANSWER f args F N) as [b [Hb _]]. eauto.
    - exact (proj1 C).
    - exists b. split; auto. rewrite B. split; apply (rs_local _ _ _ _ RD); intros f args I;
        destruct (proj2 C f args I) as [F N]; destruct (ANSWER f args F N) as [b' [Hb B']]; rewrite Hb, <- B'; split; congruence.
  Qed.

  Lemma any_verdict : forall req r,
    List.length req = List.length rf -> List.length r = List.length pf -> calls_ok names d (value_of rf req pf r) ->
    exists b, verdict o (e_model e) (e_heap e) rf pf mat req r = Ok b /\
      (b = true <-> rd_sem d (value_of rf req pf r) G).
  Proof.
    intros req r L1 L2 C. unfold verdict. rewrite L2, Nat.eqb_refl. cbn [negb]. unfold matcher_text, rule_expression.
    rewrite NOEVAL. cbn [bind]. rewrite (any_compiles). apply any_value; auto.
  Qed.

  Lemma any_answerable : forall req, standard o hashed rf pf (effect_text pe) mat e -> 
    List.length req = List.length rf -> candidates (e_model e) req <> [] ->
    (forall r, In r (candidates (e_model e) req) -> calls_ok names d (value_of rf req pf r)) ->
    answerable o e rf pf (effect_text pe) mat "" req /\
    forall r, In r (candidates (e_model e) req) -> (matches o e rf pf mat "" req r <-> rd_sem d (value_of rf req pf r) G).
  Proof.
    intros req S L NE C.
    assert (V : forall r, In r (candidates (e_model e) req) -> exists b, verdict o (e_model e) (e_heap e) rf pf mat req r = Ok b /\
      (b = true <-> rd_sem d (value_of rf req pf r) G)).
    { intros r I. apply any_verdict; auto. apply (st_fields _ _ _ _ _ _ _ S). eapply candidate_stored; eauto. }
    split.
    - split.
      + constructor; [apply (st_ready _ _ _ _ _ _ _ S)|apply (st_on _ _ _ _ _ _ _ S)|auto| |].
        * auto.
        * apply plain_texts; auto.
      + intros r I. destruct (V r I) as [b [E _]]. exists b. exact E.
    - intros r I. destruct (V r I) as [b [E B]]. unfold matches. change (chosen "" mat) with mat. rewrite E, <- B. split; congruence.
  Qed.


  Lemma any_decision : forall req, standard o hashed rf pf (effect_text pe) mat e -> 
    List.length req = List.length rf ->
    (forall r, In r (candidates (e_model e) req) -> calls_ok names d (value_of rf req pf r)) ->
    (candidates (e_model e) req <> [] \/ calls_ok names d (value_of rf req pf (blank pf)) /\ ~ rd_sem d (value_of rf req pf (blank pf)) G) ->
    exists b, snd (Enforce o (map DStr req) e) = Ok b /\
      (b = true <-> granted pe (fun r => rd_sem d (value_of rf req pf r) G) (effect_of pf) (candidates (e_model e) req)).
  Proof.
    intros req S L C NE. unfold Enforce.
    destruct (list_eq_dec (list_eq_dec String.string_dec) (candidates (e_model e) req) []) as [ST|ST].
    - destruct NE as [NE|[CB NS]]; [elim NE; exact ST|].
      destruct (any_value req (blank pf) L) as [b [E B]]; auto. { unfold blank. rewrite map_length. auto. }
      assert (b = false) as -> by (destruct b; auto; exfalso; apply NS, B; auto).
      destruct (enforce_spec o e rf pf (effect_text pe) mat "" req X (st_ready _ _ _ _ _ _ _ S) L) as [ev [EQ _]].
      { apply plain_texts; auto. }
      rewrite snd_EnforceWithMatcher, EQ. unfold enforce_outcome. rewrite (st_on _ _ _ _ _ _ _ S), ST. cbn [negb snd].
      unfold empty_outcome. change (chosen "" mat) with mat. rewrite NOEVAL, (any_compiles). unfold blank in E. rewrite E. cbn [bind].
      assert (N : forall x, ~ exists r, In r (@nil rule) /\ rd_sem d (value_of rf req pf r) G /\ effect_of pf r = x) by (intros x [r [[] _]]).
      destruct pe; (eexists; split; [reflexivity|]); cbv zeta delta [granted] iota beta; split; try discriminate; auto.
      + intros H. destruct (N _ H).
      + intros [H _]. destruct (N _ H).
      + intros [pre [r [post [Q _]]]]. destruct pre; discriminate.
    - destruct (any_answerable req S L ST C) as [AN MA].
      assert (K : exists b, snd (EnforceWithMatcher o "" (map DStr req) e) = Ok b /\
        (b = true <-> granted pe (matches o e rf pf mat "" req) (effect_of pf) (candidates (e_model e) req))).
      { destruct pe; unfold granted.
        - apply C01_allow_override; auto.
        - destruct (C02_deny_override o e rf pf mat "" req X AN) as [b [E B]]. exists b. split; auto. rewrite <- B. destruct b; intuition congruence.
        - apply C03_allow_and_deny; auto.
        - apply C04_priority; auto. }
      destruct K as [b [E B]]. exists b. split; auto. rewrite B. apply granted_ext. auto.
  Qed.
End Answers.

Section Standard.
  Variables (o : oracle) (names : node -> Prop) (n : nat) (rules : rule -> Prop).
  Variables (hashed : bool) (rf pf : list string) (pe : policy_effect) (mat : string) (d : reading).
  Hypothesis X : oracle_ext o.
  Hypothesis RD : reads o n mat d.
  Hypothesis MAT : mat <> "".
  Hypothesis NOEVAL : HasEval mat = false.
  Hypothesis VARS : forall x, In x (rd_vars d) -> In x (r_names rf ++ p_names pf).
  Hypothesis T : tidy names n rules.

  Lemma std_candidates : forall e req, standard o false rf pf (effect_text pe) mat e -> candidates (e_model e) req = stored e "p" "p".
  Proof.
    intros e req S. unfold candidates. destruct (p_indexed (e_model e)) eqn:E; [|reflexivity]. discriminate (st_store _ _ _ _ _ _ _ S E).
  Qed.

  Lemma role_answer : forall e f args, managed o names n rules e -> declared e "g" f -> in_use names args ->
    exists b, role_fun (e_model e) (e_heap e) f args = Some (Ok b) /\ (b = true <-> linked e f args).
  Proof.
    intros e f args M [a A] N.
    destruct (managed_mirror names n rules T o e M) as [[r [H [R L]]] GO W _ _].
    pose proof (get_asts _ _ _ A) as G. pose proof (W _ _ G) as Q. unfold asts in G.
    unfold role_fun. rewrite G, Q.
    destruct args as [|x [|y [|z [|]]]]; simpl in N; try tauto; destruct N as [N1 N2]; cbn [call_g]; rewrite H; cbn [bind].
    - destruct (rep_HasLink names (t_names _ _ _ T) r (assigned e) None x y R N1 N2) as [v [Hv V]]. exists v. simpl in *.
      rewrite Hv, L in *. auto.
    - destruct (rep_HasLink names (t_names _ _ _ T) r (assigned e) (Some z) x y R N1 N2) as [v [Hv V]]. exists v. simpl in *.
      rewrite Hv, L in *. auto.
  Qed.

  Definition kept (e : enforcer) : Prop := forall f, In f (rd_funs d) -> managed o names n rules e.
  Lemma std_arity : forall e, kept e -> defines_all e d -> forall f, In f (rd_funs d) -> role_arity (e_model e) f = Some n.
  Proof.
    intros e M DA f I. destruct (DA f I) as [a A]. pose proof (get_asts _ _ _ A) as G. unfold asts in G.
    unfold role_arity. rewrite G. f_equal. destruct (managed_mirror names n rules T o e (M f I)) as [_ [_ GO] _ _ _]. apply (GO _ _ G).
  Qed.
  Lemma std_answer : forall e, kept e -> defines_all e d -> forall f args, In f (rd_funs d) -> in_use names args ->
    exists b, role_fun (e_model e) (e_heap e) f args = Some (Ok b) /\ (b = true <-> linked e f args).
  Proof. intros e M DA f args F N. apply (role_answer e f args (M f F) (DA f F) N). Qed.
  Lemma std_compiles : forall e, kept e -> defines_all e d ->
    o_compiles o mat (known_vars rf pf) (role_arity (e_model e)) = true.
  Proof.
    intros e M DA. apply (any_compiles o n rf pf mat d RD VARS e (std_arity e M DA)).
  Qed.


  Lemma std_value : forall e req r, kept e -> defines_all e d ->
    List.length req = List.length rf -> List.length r = List.length pf -> calls_ok names d (value_of rf req pf r) ->
    exists b, o_value o mat (env rf req pf r) (role_fun (e_model e) (e_heap e)) = Ok b /\
      (b = true <-> rd_sem d (value_of rf req pf r) (linked e)).
  Proof.
    intros e req r M DA. apply (any_value o names n rf pf mat d RD VARS e (linked e) (std_answer e M DA)).
  Qed.




  Lemma std_decision : forall e req, kept e -> standard o hashed rf pf (effect_text pe) mat e -> defines_all e d ->
    List.length req = List.length rf ->
    (forall r, In r (candidates (e_model e) req) -> calls_ok names d (value_of rf req pf r)) ->
    (candidates (e_model e) req <> [] \/ calls_ok names d (value_of rf req pf (blank pf)) /\ ~ rd_sem d (value_of rf req pf (blank pf)) (linked e)) ->
    exists b, snd (Enforce o (map DStr req) e) = Ok b /\
      (b = true <-> granted pe (fun r => rd_sem d (value_of rf req pf r) (linked e)) (effect_of pf) (candidates (e_model e) req)).
  Proof.
    intros e req M S DA. apply (any_decision o names n hashed rf pf pe mat d X RD MAT NOEVAL VARS e (linked e) (std_arity e M DA) (std_answer e M DA) req S).
  Qed.

  (** Through histories. *)
  Lemma std_reaches : forall cs e e', Forall (safe_call rules) cs -> Forall (shaped_call (List.length pf)) cs -> reaches o e cs e' ->
    managed o names n rules e -> standard o hashed rf pf (effect_text pe) mat e -> defines_all e d ->
    managed o names n rules e' /\ standard o hashed rf pf (effect_text pe) mat e' /\ defines_all e' d.
  Proof.
    intros cs e e' F1 F2 RE. induction RE; auto. intros M S DA. inversion F1; inversion F2; subst. apply IHRE; auto.
    - eapply managed_call; eauto.
    - eapply standard_run; eauto.
    - intros f I. replace e1 with (fst (run o c e)) by (rewrite H; reflexivity). eapply declared_run; eauto.
  Qed.
End Standard.
