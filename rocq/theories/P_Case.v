(** Proofs about the case of letters in names. *)
From Verif Require Import Base P_Base M_Util M_RoleManager M_Effector M_Model M_Persist M_Eval M_Evaluator M_Enforcer M_OwnEvaluator M_Case
  S_Effect S_Enforce S_OwnEvaluator S_Case P_Effect P_Enforce P_OwnEvaluator.
From Coq Require Import Lia.

(** ** Names *)
Lemma upper_range : forall c, is_upper c = true <-> 65 <= nat_of_ascii c <= 90.
Proof. intros c. unfold is_upper. rewrite Bool.andb_true_iff, !Nat.leb_le. lia. Qed.
Lemma nat_inj : forall c d, nat_of_ascii c = nat_of_ascii d -> c = d.
Proof. intros c d H. rewrite <- (ascii_nat_embedding c), <- (ascii_nat_embedding d), H. reflexivity. Qed.
Lemma nat_lower : forall c, nat_of_ascii (to_lower c) = if is_upper c then nat_of_ascii c + 32 else nat_of_ascii c.
Proof.
  intros c. unfold to_lower. destruct (is_upper c) eqn:U; auto. apply nat_ascii_embedding. apply upper_range in U. lia.
Qed.
Lemma letter_iff : forall c d, to_lower c = to_lower d <-> same_letter c d.
Proof.
  intros c d. split.
  - intros E. apply (f_equal nat_of_ascii) in E. rewrite !nat_lower in E.
    destruct (is_upper c) eqn:U; destruct (is_upper d) eqn:W.
    + replace d with c; [constructor|]. apply nat_inj. lia.
    + apply sl_down; auto.
    + apply sl_up; auto.
    + apply nat_inj in E. subst. constructor.
  - intros H. apply nat_inj. rewrite !nat_lower. destruct H as [c|c d U E|c d U E]; auto; pose proof (proj1 (upper_range _) U) as B.
    + rewrite U. destruct (is_upper d) eqn:W; auto. apply upper_range in W. lia.
    + rewrite U. destruct (is_upper c) eqn:W; auto. apply upper_range in W. lia.
Qed.
Lemma lower_iff : forall x y, lower x = lower y <-> same_but_case x y.
Proof.
  induction x as [|c x IH]; intros [|d y]; split; intros H; try (inversion H; fail); auto using sbc_nil.
  - cbn [lower] in H. inversion H. constructor; [apply letter_iff; auto|apply IH; auto].
  - inversion H; subst. cbn [lower]. f_equal; [apply letter_iff; auto|apply IH; auto].
Qed.
Lemma same_name_iff : forall x y, same_name x y = true <-> same_but_case x y.
Proof. intros. unfold same_name. rewrite String.eqb_eq. apply lower_iff. Qed.
Lemma same_name_refl : forall x, same_name x x = true.
Proof. intros. apply String.eqb_refl. Qed.
Lemma same_name_sym : forall x y, same_name x y = same_name y x.
Proof. intros. apply String.eqb_sym. Qed.
Lemma same_name_l : forall x y z, same_name x y = true -> same_name x z = same_name y z.
Proof. unfold same_name. intros x y z H. apply String.eqb_eq in H. rewrite H. reflexivity. Qed.
Lemma same_name_r : forall x y z, same_name x y = true -> same_name z x = same_name z y.
Proof. intros. rewrite !(same_name_sym z). apply same_name_l, H. Qed.
Lemma lower_app : forall x y, lower (x ++ y) = (lower x ++ lower y)%string.
Proof. induction x as [|c x IH]; intros y; [reflexivity|]. change ((String c x ++ y)%string) with (String c (x ++ y)). cbn [lower]. rewrite IH. reflexivity. Qed.
Lemma same_prefix : forall p x y, same_but_case x y -> same_but_case (p ++ x) (p ++ y).
Proof. intros p x y H. apply lower_iff. rewrite !lower_app. f_equal. apply lower_iff, H. Qed.
Lemma sbc_sym : forall x y, same_but_case x y -> same_but_case y x.
Proof. intros. apply lower_iff. symmetry. apply lower_iff, H. Qed.
Lemma sbc_trans : forall x y z, same_but_case x y -> same_but_case y z -> same_but_case x z.
Proof. intros x y z H1 H2. apply lower_iff. apply lower_iff in H1. apply lower_iff in H2. congruence. Qed.

(** ** Association lists *)
Section Lists.
  Context {V : Type}.
  Variable K : list string.
  Hypothesis AP : no_case_twins K.
  Definition over (l : list (string * V)) := forall x v, In (x, v) l -> In x K.

  Lemma spelling_of : forall x k, In k K -> same_name x k = true -> spelling K x = k.
  Proof.
    intros x k I S. unfold spelling. destruct (find (same_name x) K) as [y|] eqn:F.
    - apply find_some in F. destruct F as [I' S']. apply AP; auto. apply same_name_iff.
      rewrite <- (same_name_l x y k); auto.
    - apply find_none with (x := k) in F; auto. congruence.
  Qed.
  Lemma eqb_spelling : forall x k, In k K -> String.eqb (spelling K x) k = same_name x k.
  Proof.
    intros x k I. destruct (same_name x k) eqn:S.
    - rewrite (spelling_of x k I S). apply String.eqb_refl.
    - apply String.eqb_neq. intros E. unfold spelling in E. destruct (find (same_name x) K) as [y|] eqn:F.
      + apply find_some in F. destruct F as [_ S']. congruence.
      + subst. rewrite same_name_refl in S. discriminate.
  Qed.
  Lemma eqb_known : forall x k, In x K -> In k K -> String.eqb x k = same_name x k.
  Proof. intros x k X I. rewrite <- (eqb_spelling x k I). rewrite (spelling_of x x X (same_name_refl x)). reflexivity. Qed.
  Lemma get_over : forall l, over l -> forall x, i_get x l = aget (spelling K x) l.
  Proof.
    induction l as [|[k v] l IH]; intros O x; auto. cbn [i_get aget]. rewrite eqb_spelling by (apply (O k v); left; auto).
    destruct (same_name x k); auto. apply IH. intros y w I. apply (O y w). right. exact I.
  Qed.
  Lemma get_known : forall l, over l -> forall x, In x K -> i_get x l = aget x l.
  Proof. intros l O x X. rewrite (get_over l O x). rewrite (spelling_of x x X (same_name_refl x)). reflexivity. Qed.
  Lemma set_over : forall x v l, In x K -> over l -> i_set x v l = aset x v l.
  Proof.
    induction l as [|[k w] l IH]; intros X O; auto. cbn [i_set aset]. rewrite eqb_known by (auto; apply (O k w); left; auto).
    destruct (same_name x k); auto. f_equal. apply IH; auto. intros y z I. apply (O y z). right. exact I.
  Qed.
  Lemma over_set : forall x v l, In x K -> over l -> over (aset x v l).
  Proof.
    induction l as [|[k w] l IH]; intros X O y z I; cbn [aset] in I.
    - destruct I as [E|[]]. inversion E; subst. exact X.
    - destruct (String.eqb x k) eqn:Q.
      + destruct I as [E|I]; [inversion E; subst; apply (O y w); left; auto|]. apply (O y z). right. exact I.
      + destruct I as [E|I]; [inversion E; subst; apply (O y z); left; auto|]. apply (IH X) in I; auto.
        intros a b J. apply (O a b). right. exact J.
  Qed.
  Lemma insert_over : forall x v l, In x K -> over l -> i_insert x v l = ainsert x v l.
  Proof. intros x v l X O. unfold i_insert, ainsert, i_has, ahas. rewrite (get_known l O x X). reflexivity. Qed.
  Lemma over_insert : forall x v l, In x K -> over l -> over (ainsert x v l).
  Proof.
    intros x v l X O y z I. unfold ainsert in I. destruct (ahas x l); [apply (O y z I)|].
    apply in_app_iff in I. destruct I as [I|[E|[]]]; [apply (O y z I)|]. inversion E; subst. exact X.
  Qed.
End Lists.

(** ** Two evaluators side by side *)

(** The value of the compiled text, as asked for a rule (enforcer.cpp:145-158). *)
Definition result {St} (iv : ievaluator St) (h : heap) : V St bool :=
  t <~ iv h etype CCheckType ;;
  match t with
  | TyBool => iv h bool CGetBoolean
  | _ => t' <~ iv h etype CCheckType ;; match t' with TyFloat => iv h bool CGetFloat | _ => vlift (Throw CasbinEnforcer) end
  end.
Lemma result_exprtk : forall o fl h ev, result (exprtk o fl) h ev = (ev, checked_value o h ev).
Proof.
  intros o fl h ev. unfold result, vbind. cbn [exprtk]. unfold checked_value. destruct (ev_bad ev) eqn:B; auto.
  destruct (value o h ev) as [b|t|u] eqn:E; cbn [bind]; auto. destruct (fl ev) eqn:F; cbn [exprtk]; rewrite ?B, ?E; cbn [bind]; rewrite ?F, ?E; auto.
Qed.
Lemma result_ci : forall o fl h ev, result (exprtk_ci o fl) h ev = (ev, checked_value_ci o h ev).
Proof.
  intros o fl h ev. unfold result, vbind. cbn [exprtk_ci]. unfold checked_value_ci. destruct (ev_bad ev) eqn:B; auto.
  destruct (value_ci o h ev) as [b|t|u] eqn:E; cbn [bind]; auto. destruct (fl ev) eqn:F; cbn [exprtk_ci]; rewrite ?B, ?E; cbn [bind]; rewrite ?F, ?E; auto.
Qed.
Section Sim.
  Context {S1 S2 : Type}.
  Variables (iv1 : ievaluator S1) (iv2 : ievaluator S2) (h : heap) (R : S1 -> S2 -> Prop).
  Definition sim {A} (x : V S1 A) (y : V S2 A) : Prop :=
    forall s1 s2, R s1 s2 -> R (fst (x s1)) (fst (y s2)) /\ snd (x s1) = snd (y s2).
  Definition simc {A} (c : ecall A) : Prop := sim (iv1 h A c) (iv2 h A c).

  Lemma sim_bind : forall A B (x : V S1 A) y (f : A -> V S1 B) g, sim x y -> (forall a, sim (f a) (g a)) -> sim (vbind x f) (vbind y g).
  Proof.
    intros A B x y f g X F s1 s2 H. destruct (X s1 s2 H) as [H' E]. unfold vbind.
    destruct (x s1) as [t1 r1], (y s2) as [t2 r2]. cbn [fst snd] in *. subst r2. destruct r1 as [a|t|u]; [apply F; auto| |]; auto.
  Qed.
  Lemma sim_lift : forall A (r : res A), sim (vlift r) (vlift r).
  Proof. intros A r s1 s2 H. split; auto. Qed.
  Lemma sim_ret : forall A (a : A), sim (vret a) (vret a).
  Proof. intros A r s1 s2 H. split; auto. Qed.
  Lemma sim_known : forall A B (r : res A) (f : A -> V S1 B) g, (forall a, r = Ok a -> sim (f a) (g a)) ->
    sim (vbind (vlift r) f) (vbind (vlift r) g).
  Proof. intros A B r f g F s1 s2 H. unfold vbind, vlift. destruct r as [a|t|u]; [apply (F a eq_refl s1 s2 H)| |]; split; auto. Qed.
  Lemma sim_assoc : forall A B C (x : V S1 A) (y : V S2 A) (f : A -> V S1 B) (f' : A -> V S2 B) (g : B -> V S1 C) (g' : B -> V S2 C),
    sim (vbind (vbind x f) g) (vbind (vbind y f') g') -> sim (vbind x (fun a => vbind (f a) g)) (vbind y (fun a => vbind (f' a) g')).
  Proof. intros A B C x y f f' g g' Q s1 s2 H. rewrite <- !vbind_assoc. apply Q, H. Qed.
  Hint Resolve sim_lift sim_ret : sims.

  (** The calls that do not depend on the model. *)
  Hypotheses (QC : simc CClearList) (QL : simc CLoadFunctions) (QI : forall t, simc (CInitialObject t))
             (QN : simc (CClean false)) (QJ : forall t p j, simc (CPushJson t p j)) (QE : forall t, simc (CEval t))
             (QB : simc CGetBoolean) (QV : sim (result iv1 h) (result iv2 h)).

  Lemma sim_g : forall g, (forall n a, In (n, a) g -> simc (CLoadGFunction (a_rm a) n (scount "_" (a_value a)))) ->
    sim (load_g_ev iv1 h g) (load_g_ev iv2 h g).
  Proof.
    induction g as [|[n a] g IH]; intros G; cbn [load_g_ev]; auto with sims. apply sim_bind; [apply (G n a); left; auto|].
    intros _. apply IH. intros m b I. apply (G m b). right. exact I.
  Qed.
  Lemma sim_p : forall toks vals, (forall t v, In t toks -> simc (CPushString "p" (p_token_name t) v)) ->
    sim (push_p_ev iv1 h toks vals) (push_p_ev iv2 h toks vals).
  Proof.
    induction toks as [|t toks IH]; intros [|v vals] G; cbn [push_p_ev]; auto with sims. apply sim_bind; [apply (G t v); left; auto|].
    intros _. apply IH. intros m b I. apply (G m b). right. exact I.
  Qed.
  Lemma sim_rule : forall he expr toks vals, (forall t v, In t toks -> simc (CPushString "p" (p_token_name t) v)) ->
    sim (eval_rule_ev iv1 h he expr toks vals) (eval_rule_ev iv2 h he expr toks vals).
  Proof.
    intros he expr toks vals G. unfold eval_rule_ev. destruct (negb _); auto with sims.
    do 3 (apply sim_bind; [first [exact QN | apply QI | apply sim_p, G]|intros _]). apply sim_bind; [auto with sims|intros text].
    apply sim_bind; [apply QE|intros _].
    apply sim_assoc. apply sim_bind; [exact QV|]. intros b. apply sim_bind; auto with sims.
  Qed.
  Lemma sim_loop : forall he expr eft toks len todo idx effs ms last, (forall t v, In t toks -> simc (CPushString "p" (p_token_name t) v)) ->
    sim (rule_loop_ev iv1 h he expr eft toks len todo idx effs ms last) (rule_loop_ev iv2 h he expr eft toks len todo idx effs ms last).
  Proof.
    induction todo as [|v todo IH]; intros idx effs ms last G; cbn [rule_loop_ev]; auto with sims.
    apply sim_bind; [apply sim_rule, G|intros r]. apply sim_bind; [auto with sims|intros m]. destruct (fst m); auto with sims.
  Qed.
  Lemma sim_enforce : forall e matcher, h = e_heap e ->
    (forall n a, In (n, a) (sec_of (e_model e) "g") -> simc (CLoadGFunction (a_rm a) n (scount "_" (a_value a)))) ->
    (forall a t v, get_ast (e_model e) "p" "p" = Ok a -> In t (a_tokens a) -> simc (CPushString "p" (p_token_name t) v)) ->
    (p_indexed (e_model e) = true -> simc CRequestValues) ->
    sim (m_enforce_ev iv1 e matcher) (m_enforce_ev iv2 e matcher).
  Proof.
    intros e matcher EH G P X. unfold m_enforce_ev. destruct (negb (e_enabled e)); [apply sim_ret|]. cbv zeta. rewrite <- EH.
    apply sim_bind; [exact QC|intros _]. apply sim_bind; [exact QL|intros _]. apply sim_bind; [apply sim_g, G|intros _].
    apply sim_bind; [auto with sims|intros expr]. apply sim_bind; [auto with sims|intros r].
    apply sim_known; intros p GP. apply sim_bind.
    - unfold selected_policies_ev. apply sim_known. intros p' GP'. unfold p_indexed in X. rewrite GP' in X. cbn [is_hash] in X.
      destruct (a_policy p') as [l|l]; auto with sims. apply sim_bind; [auto with sims|intros r']. apply sim_bind; [apply X; reflexivity|intros vals].
      apply sim_bind; auto with sims.
    - assert (P' : forall t v, In t (a_tokens p) -> simc (CPushString "p" (p_token_name t) v)) by (intros t v; apply (P p t v GP)).
      intros [|r0 rules].
      + destruct (HasEval expr); auto with sims. apply sim_bind; [exact QN|intros _]. apply sim_bind; [apply QI|intros _].
        apply sim_bind; [apply sim_p, P'|intros _]. apply sim_bind; [apply QE|intros valid]. destruct (negb valid); auto with sims.
        apply sim_bind; [apply QB|intros b]. apply sim_bind; [auto with sims|intros ea]. apply sim_bind; auto with sims.
      + apply sim_bind; [auto with sims|intros ea]. apply sim_bind; [apply sim_loop, P'|intros d]. auto with sims.
  Qed.

  Lemma sim_r : forall toks ps, (forall t v, In t toks -> simc (CPushString "r" (sdrop 2 t) v)) ->
    sim (push_r_ev iv1 h toks ps) (push_r_ev iv2 h toks ps).
  Proof.
    induction toks as [|t toks IH]; intros [|[v|v] ps] G; cbn [push_r_ev]; auto with sims.
    - apply sim_bind; [apply (G t v); left; auto|]. intros _. apply IH. intros m b I. apply (G m b). right. exact I.
    - apply sim_bind; [apply QJ|]. intros _. apply IH. intros m b I. apply (G m b). right. exact I.
  Qed.
  Lemma sim_map : forall ps, (forall n d, In (n, d) ps -> forall v, simc (CPushString "r" n v)) ->
    sim (push_map_ev iv1 h ps) (push_map_ev iv2 h ps).
  Proof.
    induction ps as [|[n [v|v]] ps IH]; intros G; cbn [push_map_ev]; auto with sims.
    - apply sim_bind; [apply (G n (OStr v)); left; auto|]. intros _. apply IH. intros m b I. apply (G m b). right. exact I.
    - apply sim_bind; [apply QJ|]. intros _. apply IH. intros m b I. apply (G m b). right. exact I.
  Qed.
  Lemma sim_once : forall e matcher q, h = e_heap e ->
    (forall n a, In (n, a) (sec_of (e_model e) "g") -> simc (CLoadGFunction (a_rm a) n (scount "_" (a_value a)))) ->
    (forall a t v, get_ast (e_model e) "p" "p" = Ok a -> In t (a_tokens a) -> simc (CPushString "p" (p_token_name t) v)) ->
    (forall a t v, get_ast (e_model e) "r" "r" = Ok a -> In t (a_tokens a) -> simc (CPushString "r" (sdrop 2 t) v)) ->
    (match q with InOrder _ => True | ByName ps => forall n d, In (n, d) ps -> forall v, simc (CPushString "r" n v) end) ->
    (p_indexed (e_model e) = true -> simc CRequestValues) ->
    sim (enforce_once iv1 e (matcher, q)) (enforce_once iv2 e (matcher, q)).
  Proof.
    intros e matcher q EH G P W Q X. unfold enforce_once. cbn [fst snd]. destruct q as [ps|ps].
    - unfold EnforceExWithMatcher_ev. rewrite <- EH. apply sim_known. intros r GR. destruct (negb _); auto with sims.
      apply sim_bind; [apply QI|intros _]. apply sim_bind; [apply sim_r; intros t v; apply (W r t v GR)|intros _].
      apply sim_enforce; auto.
    - unfold EnforceExWithMatcherMap_ev. rewrite <- EH. apply sim_bind; [apply QI|intros _]. apply sim_bind; [apply sim_map, Q|intros _].
      apply sim_enforce; auto.
  Qed.
End Sim.

(** ** Names that differ when case is ignored *)
Section Same.
  Variables (o : oracle) (fl : evaluator -> bool) (rf pf funs : list string).
  Notation vars := (field_names rf pf).
  Hypotheses (X : oracle_ext o) (AV : no_case_twins vars) (AF : no_case_twins funs) (BF : incl builtin_names funs).
  Notation iv1 := (exprtk_ci o fl).
  Notation iv2 := (exprtk (respelt vars funs o) fl).
  Definition agree (s1 s2 : evaluator) := s1 = s2 /\ knows_only vars funs s1.

  Lemma agree_value : forall h ev, knows_only vars funs ev -> value_ci o h ev = value (respelt vars funs o) h ev.
  Proof.
    intros h ev [KV KF]. unfold value_ci, value. destruct (ev_prog ev); auto. cbn [respelt o_value]. apply (proj2 X).
    - intros x. apply (get_over vars AV); auto.
    - intros f args. unfold funs_of_ci, funs_of. rewrite (get_over funs AF); auto.
  Qed.
  Lemma agree_checked : forall h ev, knows_only vars funs ev -> checked_value_ci o h ev = checked_value (respelt vars funs o) h ev.
  Proof. intros h ev K. unfold checked_value_ci, checked_value. rewrite (agree_value h ev K). reflexivity. Qed.
  Lemma agree_eval : forall ev t, knows_only vars funs ev -> Eval_ci o ev t = Eval (respelt vars funs o) ev t.
  Proof.
    intros ev t [KV KF]. unfold Eval_ci, Eval. destruct (String.eqb _ _); auto. cbn [respelt o_compiles].
    rewrite (proj1 X t (sig_vars_ci ev) (fun x => sig_vars ev (spelling vars x)) (sig_funs_ci ev) (fun x => sig_funs ev (spelling funs x))); auto.
    - intros x. unfold sig_vars_ci, sig_vars, i_has, ahas. rewrite (get_over vars AV); auto.
    - intros f. unfold sig_funs_ci, sig_funs. rewrite (get_over funs AF); auto.
  Qed.
  Lemma knows_eval : forall ev t, knows_only vars funs ev -> knows_only vars funs (fst (Eval_ci o ev t)).
  Proof. intros ev t K. unfold Eval_ci. destruct (String.eqb _ _); auto. Qed.
  Lemma agree_add : forall ev n f, In n funs -> knows_only vars funs ev ->
    AddFunction_ci ev n f = AddFunction ev n f /\ knows_only vars funs (AddFunction ev n f).
  Proof.
    intros ev n f I [KV KF]. unfold AddFunction_ci, AddFunction. rewrite (insert_over funs AF); auto. split; auto.
    split; cbn; auto. apply over_insert; auto.
  Qed.
  Lemma agree_funs : forall l ev, incl l funs -> knows_only vars funs ev ->
    fold_left (fun e n => AddFunction_ci e n FBuiltin) l ev = fold_left (fun e n => AddFunction e n FBuiltin) l ev /\
    knows_only vars funs (fold_left (fun e n => AddFunction e n FBuiltin) l ev).
  Proof.
    induction l as [|n l IH]; intros ev I K; cbn [fold_left]; auto. destruct (agree_add ev n FBuiltin) as [E K']; auto.
    { apply I. left. auto. } rewrite E. apply IH; auto. intros x J. apply I. right. exact J.
  Qed.
  Lemma agree_push : forall h t p v, In (t ++ "." ++ p)%string vars -> simc iv1 iv2 h agree (CPushString t p v).
  Proof.
    intros h t p v I s1 s2 [E K]. subst s2. cbn [exprtk_ci exprtk]. unfold PushObjectString_ci, PushObjectString.
    destruct (valid_symbol _); [|split; [split; auto|reflexivity]]. cbn [fst snd]. destruct K as [KV KF].
    rewrite (set_over vars AV); auto. split; auto. split; auto. split; cbn; auto. apply over_set; auto.
  Qed.
  Lemma agree_values : forall ev, knows_only vars funs ev -> requestValues_ci ev = requestValues ev.
  Proof.
    intros ev [KV KF]. unfold requestValues_ci, requestValues. set (l := ev_vars ev) at 2 4. assert (I : incl l (ev_vars ev)) by (intros x; auto).
    clearbody l. induction l as [|[k v] l IH]; auto. cbn [flat_map fst]. rewrite IH by (intros x J; apply I; right; exact J). f_equal.
    assert (J : In k vars) by (apply (KV k v), I; left; auto). unfold field_names in J. apply in_app_iff in J.
    destruct J as [J|J]; apply in_map_iff in J; destruct J as [f [E J]]; subst k; [|reflexivity].
    change (("r." ++ f)%string) with (String "r" (String "." f)). cbn iota.
    rewrite (get_known vars AV); auto. apply in_app_iff. left. apply in_map_iff. exists f. auto.
  Qed.
  Lemma token_name : forall f, p_token_name ("p_" ++ f) = f.
  Proof. intros f. unfold p_token_name. change (("p_" ++ f)%string) with (String "p" (String "_" f)). destruct f; reflexivity. Qed.
  Lemma request_name : forall f, sdrop 2 ("r_" ++ f) = f.
  Proof. intros f. destruct f; reflexivity. Qed.

  Lemma agree_once : forall e matcher q, uses_names rf pf funs e q -> sim agree (enforce_once iv1 e (matcher, q)) (enforce_once iv2 e (matcher, q)).
  Proof.
    intros e matcher q [W1 [W2 [W3 W4]]]. apply sim_once with (h := e_heap e); auto;
      try (intros; intros s1 s2 [E K]; subst s2; split; [split; [reflexivity|exact K]|reflexivity]).
    - intros s1 s2 [E K]. subst s2. cbn [exprtk_ci exprtk fst snd]. unfold LoadFunctions_ci, LoadFunctions.
      destruct (agree_funs builtin_names s1 BF K) as [E K']. rewrite E. split; auto. split; auto.
    - intros t s1 s2 [E K]. subst s2. cbn [exprtk_ci exprtk fst snd]. rewrite <- (agree_eval s1 t K). split; auto. split; auto. apply knows_eval, K.
    - intros s1 s2 [E K]. subst s2. cbn [exprtk_ci exprtk fst snd]. rewrite <- (agree_value (e_heap e) s1 K). split; auto. split; auto.
    - intros s1 s2 [E K]. subst s2. rewrite result_ci, result_exprtk. cbn [fst snd]. rewrite <- (agree_checked (e_heap e) s1 K). split; auto. split; auto.
    - intros n a I s1 s2 [E K]. subst s2. cbn [exprtk_ci exprtk fst snd]. unfold LoadGFunction.
      destruct (agree_add s1 n (FG (a_rm a) (scount "_" (a_value a))) (W3 n a I) K) as [E K']. rewrite E. split; auto. split; auto.
    - intros a t v G I. destruct (W2 a G) as [l [T L]]. rewrite T in I. apply in_map_iff in I. destruct I as [f [E I]]. subst t.
      rewrite token_name. apply agree_push. apply in_app_iff. right. apply in_map_iff. exists f. split; auto.
    - intros a t v G I. destruct (W1 a G) as [l [T L]]. rewrite T in I. apply in_map_iff in I. destruct I as [f [E I]]. subst t.
      rewrite request_name. apply agree_push. apply in_app_iff. left. apply in_map_iff. exists f. split; auto.
    - destruct q as [ps|ps]; auto. intros n d I v. apply agree_push. apply in_app_iff. left. apply in_map_iff. exists n. split; auto. apply (W4 n d I).
    - intros _ s1 s2 [E K]. subst s2. cbn [exprtk_ci exprtk fst snd]. rewrite (agree_values s1 K). split; auto. split; auto.
  Qed.
  Lemma agree_all : forall qs ev, (forall e m q, In (e, (m, q)) qs -> uses_names rf pf funs e q) -> knows_only vars funs ev ->
    enforce_all iv1 qs ev = enforce_all iv2 qs ev /\ knows_only vars funs (fst (enforce_all iv1 qs ev)).
  Proof.
    induction qs as [|[e [m q]] qs IH]; intros ev W K; cbn [enforce_all]; auto.
    destruct (agree_once e m q (W e m q (or_introl eq_refl)) ev ev (conj eq_refl K)) as [[E K'] A].
    destruct (enforce_once iv1 e (m, q) ev) as [s1 a1], (enforce_once iv2 e (m, q) ev) as [s2 a2]. cbn [fst snd] in *. subst s2 a2.
    destruct (IH s1) as [E' K'']; auto. { intros e' m' q' I. apply (W e' m' q'). right. exact I. }
    rewrite <- E'. destruct (enforce_all iv1 qs s1) as [s l]. auto.
  Qed.
End Same.

(** ** Names in any case *)
Definition entry_alike {A} (a b : string * A) : Prop := same_but_case (fst a) (fst b) /\ snd a = snd b.
Record alike (s1 s2 : evaluator) : Prop := mkAlike {
  al_vars : Forall2 entry_alike (ev_vars s1) (ev_vars s2);
  al_funs : ev_funs s1 = ev_funs s2;
  al_expr : ev_expr s1 = ev_expr s2;
  al_bad : ev_bad s1 = ev_bad s2;
  al_prog : ev_prog s1 = ev_prog s2 }.
Lemma alike_refl : forall s, alike s s.
Proof.
  intros s. split; auto. induction (ev_vars s) as [|a l IH]; constructor; auto. split; auto. apply lower_iff. auto.
Qed.
Lemma get_alike : forall (l1 l2 : list (string * string)), Forall2 entry_alike l1 l2 -> forall x, i_get x l1 = i_get x l2.
Proof.
  induction 1 as [|[k v] [k' v'] l1 l2 [E1 E2] _ IH]; intros x; auto. cbn [fst snd] in *. subst v'. cbn [i_get].
  apply same_name_iff in E1. rewrite (same_name_r k k' x E1), IH. reflexivity.
Qed.
Lemma set_alike : forall (l1 l2 : list (string * string)) x y v, Forall2 entry_alike l1 l2 -> same_but_case x y ->
  Forall2 entry_alike (i_set x v l1) (i_set y v l2).
Proof.
  intros l1 l2 x y v H S. induction H as [|[k w] [k' w'] l1 l2 [E1 E2] T IH].
  - constructor; [split; auto|constructor].
  - cbn [fst snd] in *. subst w'. cbn [i_set]. pose proof E1 as E3. apply same_name_iff in E3. apply same_name_iff in S.
    rewrite (same_name_r k k' x E3), (same_name_l x y k' S). destruct (same_name y k'); constructor; auto; split; auto.
Qed.
Lemma valid_alike : forall x y, same_but_case x y -> valid_symbol x = valid_symbol y.
Proof.
  assert (W : forall c d, same_letter c d -> is_word c = is_word d /\ Ascii.eqb c "." = Ascii.eqb d "." /\ (is_lower c || is_upper c = is_lower d || is_upper d)%bool).
  { assert (Q : forall c d, is_upper c = true -> nat_of_ascii d = nat_of_ascii c + 32 ->
      is_word c = true /\ is_word d = true /\ Ascii.eqb c "." = false /\ Ascii.eqb d "." = false /\ is_lower d = true).
    { intros c d U E. apply upper_range in U. assert (L : is_lower d = true).
      { unfold is_lower. rewrite Bool.andb_true_iff, !Nat.leb_le. lia. }
      unfold is_word, is_alnum. rewrite L. assert (U' : is_upper c = true) by (apply upper_range; lia). rewrite U'.
      rewrite !Bool.orb_true_r. repeat split; auto; apply Ascii.eqb_neq; intros X; subst; cbn in *; lia. }
    intros c d [e|a b U E|a b U E]; auto; destruct (Q _ _ U E) as [Q1 [Q2 [Q3 [Q4 Q5]]]]; rewrite Q1, Q2, Q3, Q4, Q5, U, ?Bool.orb_true_r; auto. }
  assert (R : forall x y, same_but_case x y -> symbol_rest x = symbol_rest y).
  { induction 1 as [|c d s t L H IH]; auto. cbn [symbol_rest]. destruct (W c d L) as [W1 [W2 W3]]. rewrite W1, W2, IH.
    replace (String.eqb s "") with (String.eqb t ""); auto. inversion H; reflexivity. }
  intros x y H. destruct H as [|c d s t L H]; auto. cbn [valid_symbol]. destruct (W c d L) as [W1 [W2 W3]]. rewrite W3, (R _ _ H). reflexivity.
Qed.
Section AnyCase.
  Variables (o : oracle) (fl1 fl2 : evaluator -> bool).
  Hypothesis X : oracle_ext o.
  Notation iv1 := (exprtk_ci o fl1).
  Notation iv2 := (exprtk_ci o fl2).

  Lemma alike_value : forall h s1 s2, alike s1 s2 -> value_ci o h s1 = value_ci o h s2.
  Proof.
    intros h s1 s2 [V F E B P]. unfold value_ci. rewrite P. destruct (ev_prog s2); auto. apply (proj2 X).
    - intros x. apply get_alike, V.
    - intros f args. unfold funs_of_ci. rewrite F. reflexivity.
  Qed.
  Lemma alike_push : forall h t p q v s1 s2, same_but_case p q -> alike s1 s2 ->
    alike (fst (iv1 h unit (CPushString t p v) s1)) (fst (iv2 h unit (CPushString t q v) s2)) /\
    snd (iv1 h unit (CPushString t p v) s1) = snd (iv2 h unit (CPushString t q v) s2).
  Proof.
    intros h t p q v s1 s2 S [V F E B P]. cbn [exprtk_ci]. unfold PushObjectString_ci.
    assert (S' : same_but_case (t ++ "." ++ p) (t ++ "." ++ q)) by (apply same_prefix, same_prefix, S).
    rewrite (valid_alike _ _ S'). destruct (valid_symbol _); split; auto; split; auto. cbn. apply set_alike; auto.
  Qed.
  Lemma same_refl : forall x, same_but_case x x.
  Proof. intros. apply lower_iff. auto. Qed.
  Lemma alike_funs : forall l s1 s2, alike s1 s2 ->
    alike (fold_left (fun e n => AddFunction_ci e n FBuiltin) l s1) (fold_left (fun e n => AddFunction_ci e n FBuiltin) l s2).
  Proof.
    induction l as [|n l IH]; intros s1 s2 [V F E B P]; cbn [fold_left]; [split; auto|]. apply IH. split; cbn; auto. rewrite F. reflexivity.
  Qed.
  Lemma alike_enforce : forall e matcher, p_indexed (e_model e) = false -> sim alike (m_enforce_ev iv1 e matcher) (m_enforce_ev iv2 e matcher).
  Proof.
    intros e matcher NI. apply sim_enforce with (h := e_heap e); auto; try (intros; intros s1 s2 H; split; [exact H|reflexivity]).
    - intros s1 s2 H. cbn [exprtk_ci fst snd]. split; auto. apply alike_funs, H.
    - intros t s1 s2 [V F E B P]. cbn [exprtk_ci]. unfold Eval_ci. rewrite E, B. destruct (String.eqb (ev_expr s2) t); [split; [split; auto|reflexivity]|].
      rewrite (proj1 X t (sig_vars_ci s1) (sig_vars_ci s2) (sig_funs_ci s1) (sig_funs_ci s2)), P.
      + split; auto. split; auto.
      + intros x. unfold sig_vars_ci, i_has. rewrite (get_alike _ _ V). reflexivity.
      + intros f. unfold sig_funs_ci. rewrite F. reflexivity.
    - intros s1 s2 H. cbn [exprtk_ci fst snd]. split; auto. apply alike_value, H.
    - intros s1 s2 H. rewrite !result_ci. split; auto. unfold checked_value_ci. cbn [fst snd].
      rewrite (alike_value (e_heap e) s1 s2 H), (al_bad _ _ H). reflexivity.
    - intros n a _ s1 s2 [V F E B P]. split; auto. split; auto. cbn. rewrite F. reflexivity.
    - intros a t v _ _ s1 s2 H. apply alike_push; auto. apply same_refl.
    - intros C. congruence.
  Qed.
  Lemma alike_r : forall h toks ps, sim alike (push_r_ev iv1 h toks ps) (push_r_ev iv2 h toks ps).
  Proof.
    induction toks as [|t toks IH]; intros [|[v|v] ps]; cbn [push_r_ev]; try apply sim_ret; (apply sim_bind; [|intros _; apply IH]); intros s1 s2 H.
    - apply alike_push; auto. apply same_refl.
    - split; [exact H|reflexivity].
  Qed.
  Lemma alike_map : forall h ps qs, recased ps qs -> sim alike (push_map_ev iv1 h ps) (push_map_ev iv2 h qs).
  Proof.
    induction 1 as [|[n d] [m d'] ps qs [E1 E2] _ IH]; [apply sim_ret|]. cbn [fst snd] in *. subst d'. destruct d; cbn [push_map_ev].
    - apply sim_bind; [|intros _; apply IH]. intros s1 s2 H. apply alike_push; auto.
    - apply sim_bind; [|intros _; apply IH]. intros s1 s2 H. split; [exact H|reflexivity].
  Qed.
  Lemma alike_once : forall e matcher q1 q2, p_indexed (e_model e) = false -> request_alike q1 q2 ->
    sim alike (enforce_once iv1 e (matcher, q1)) (enforce_once iv2 e (matcher, q2)).
  Proof.
    intros e matcher [a|a] [b|b] NI Q; cbn [request_alike] in Q; try contradiction; unfold enforce_once; cbn [fst snd].
    - subst b. unfold EnforceExWithMatcher_ev. apply sim_known. intros r GR. destruct (negb _); [apply sim_ret|].
      apply sim_bind; [intros s1 s2 H; split; [exact H|reflexivity]|intros _]. apply sim_bind; [apply alike_r|intros _]. apply alike_enforce, NI.
    - unfold EnforceExWithMatcherMap_ev. apply sim_bind; [intros s1 s2 H; split; [exact H|reflexivity]|intros _].
      apply sim_bind; [apply alike_map, Q|intros _]. apply alike_enforce, NI.
  Qed.
End AnyCase.

(** ** Two fields that are one *)
Inductive eqx (k : string) : list (string * string) -> list (string * string) -> Prop :=
| eqx_here : forall x y z b, same_name k x = true -> eqx k ((x, y) :: b) ((x, z) :: b)
| eqx_next : forall x y l1 l2, same_name k x = false -> eqx k l1 l2 -> eqx k ((x, y) :: l1) ((x, y) :: l2).
Lemma eqx_set : forall k v w l, eqx k (i_set k v l) (i_set k w l).
Proof.
  induction l as [|[x y] l IH]; cbn [i_set]; [constructor; apply same_name_refl|]. destruct (same_name k x) eqn:S; constructor; auto.
Qed.
Lemma eqx_keep : forall k m u l1 l2, eqx k l1 l2 -> eqx k (i_set m u l1) (i_set m u l2).
Proof.
  induction 1 as [x y z b S|x y l1 l2 S H IH]; cbn [i_set]; destruct (same_name m x); try (constructor; auto; fail).
Qed.
Lemma eqx_over : forall k m u l1 l2, same_name k m = true -> eqx k l1 l2 -> i_set m u l1 = i_set m u l2.
Proof.
  intros k m u l1 l2 K. induction 1 as [x y z b S|x y l1 l2 S H IH]; cbn [i_set]; rewrite <- (same_name_l k m x K), S; congruence.
Qed.

(** ** An index that no longer finds its fields *)
Lemma set_keys : forall k v (l : list (string * string)) x w, In (x, w) (i_set k v l) ->
  (exists w', In (x, w') l) \/ (x = k /\ forall y z, In (y, z) l -> same_name k y = false).
Proof.
  induction l as [|[y z] l IH]; intros x w I; cbn [i_set] in I.
  - destruct I as [E|[]]. inversion E; subst. right. split; auto. intros y z [].
  - destruct (same_name k y) eqn:S.
    + left. destruct I as [E|I]; [inversion E; subst; exists z; left; auto|exists w; right; exact I].
    + destruct I as [E|I]; [inversion E; subst; left; exists w; left; auto|]. destruct (IH x w I) as [[w' J]|[E J]].
      * left. exists w'. right. exact J.
      * right. split; auto. intros a b [Q|Q]; [inversion Q; subst; exact S|apply (J a b Q)].
Qed.
Lemma keys_set : forall k v (l : list (string * string)) x w, In (x, w) l -> exists w', In (x, w') (i_set k v l).
Proof.
  induction l as [|[y z] l IH]; intros x w I; [destruct I|]. cbn [i_set]. destruct (same_name k y).
  - destruct I as [E|I]; [inversion E; subst; exists v; left; auto|exists w; right; exact I].
  - destruct I as [E|I]; [inversion E; subst; exists w; left; auto|]. destruct (IH x w I) as [w' J]. exists w'. right. exact J.
Qed.
Lemma misled_vars : forall f ev ev', ev_vars ev = ev_vars ev' -> misled f ev -> misled f ev'.
Proof. intros f ev ev' E M. unfold misled in *. rewrite <- E. exact M. Qed.
Lemma misled_set : forall f ev k v n, k = ("r." ++ n)%string \/ k = ("p." ++ n)%string -> misled f ev ->
  misled f (mkEv (i_set k v (ev_vars ev)) (ev_funs ev) (ev_expr ev) (ev_bad ev) (ev_prog ev)).
Proof.
  intros f ev k v n K [D [[m [w [I S]]] N]]. split; [|split]; cbn [ev_vars].
  - intros x y J. apply set_keys in J. destruct J as [[w' J]|[E J]]; [apply (D x w' J)|]. subst x. exists n. exact K.
  - destruct (keys_set k v _ _ _ I) as [w' J]. exists m, w'. auto.
  - intros y J. apply set_keys in J. destruct J as [[w' J]|[E J]]; [apply (N w' J)|]. rewrite E in S. apply J in I.
    apply sbc_sym, same_name_iff in S. congruence.
Qed.

(** The values of a request as they reach the table. *)
Definition with_vars (l : list (string * string)) (ev : evaluator) : evaluator :=
  mkEv l (ev_funs ev) (ev_expr ev) (ev_bad ev) (ev_prog ev).
Fixpoint sets (l : list (string * odata)) (t : list (string * string)) : list (string * string) :=
  match l with
  | [] => t
  | (f, OStr v) :: rest => sets rest (i_set ("r." ++ f) v t)
  | (f, OJson _) :: rest => sets rest t
  end.
Lemma with_vars_same : forall ev, with_vars (ev_vars ev) ev = ev.
Proof. intros []. reflexivity. Qed.
Lemma sets_app : forall a b t, sets (a ++ b) t = sets b (sets a t).
Proof. induction a as [|[f [v|v]] a IH]; intros b t; cbn [sets app]; auto. Qed.
Lemma pushed_map : forall o fl h ps ev, (forall f v, In (f, OStr v) ps -> valid_symbol ("r." ++ f) = true) ->
  push_map_ev (exprtk_ci o fl) h ps ev = (with_vars (sets ps (ev_vars ev)) ev, Ok tt).
Proof.
  induction ps as [|[f [v|v]] ps IH]; intros ev V; cbn [push_map_ev sets].
  - rewrite with_vars_same. reflexivity.
  - unfold vbind. cbn [exprtk_ci]. unfold PushObjectString_ci. change (("r" ++ "." ++ f)%string) with (("r." ++ f)%string).
    rewrite (V f v) by (left; auto). rewrite IH; [reflexivity|]. intros g w I. apply (V g w). right. exact I.
  - unfold vbind. cbn [exprtk_ci]. rewrite IH; [reflexivity|]. intros g w I. apply (V g w). right. exact I.
Qed.
Lemma pushed_r : forall o fl h fs ps ev, push_r_ev (exprtk_ci o fl) h (map (fun f => ("r_" ++ f)%string) fs) ps ev =
  push_map_ev (exprtk_ci o fl) h (combine fs ps) ev.
Proof.
  induction fs as [|f fs IH]; intros [|[v|v] ps] ev; cbn [push_r_ev push_map_ev map combine]; auto; rewrite request_name; unfold vbind.
  - destruct (exprtk_ci o fl h unit (CPushString "r" f v) ev) as [ev' [x|t|u]]; auto.
  - cbn [exprtk_ci]. auto.
Qed.
Lemma eqx_sets : forall k l t1 t2, eqx k t1 t2 -> eqx k (sets l t1) (sets l t2).
Proof. induction l as [|[f [v|v]] l IH]; intros t1 t2 H; cbn [sets]; auto. apply IH, eqx_keep, H. Qed.
Lemma overwritten : forall a f v v' b g w c t, same_but_case f g ->
  sets (a ++ (f, OStr v) :: b ++ (g, OStr w) :: c) t = sets (a ++ (f, OStr v') :: b ++ (g, OStr w) :: c) t.
Proof.
  intros a f v v' b g w c t S. rewrite !sets_app. cbn [sets]. rewrite !sets_app. cbn [sets]. f_equal.
  apply eqx_over with (k := ("r." ++ f)%string); [apply same_name_iff, same_prefix, S|]. apply eqx_sets, eqx_set.
Qed.

Lemma misled_sets : forall f l ev, misled f ev -> misled f (with_vars (sets l (ev_vars ev)) ev).
Proof.
  induction l as [|[n [v|v]] l IH]; intros ev M; cbn [sets]; [rewrite with_vars_same; auto| |auto].
  apply (misled_set f ev ("r." ++ n) v n) in M; [|left; reflexivity]. apply IH in M. exact M.
Qed.
Lemma aget_absent : forall (l : list (string * string)) k, (forall v, ~ In (k, v) l) -> aget k l = None.
Proof.
  induction l as [|[x v] l IH]; intros k N; auto. cbn [aget]. destruct (String.eqb k x) eqn:E.
  - apply String.eqb_eq in E. subst. destruct (N v). left. auto.
  - apply IH. intros w I. apply (N w). right. exact I.
Qed.
Lemma misled_values : forall f ev, misled f ev -> aget f (requestValues_ci ev) = None.
Proof.
  intros f ev [D [_ N]]. apply aget_absent. intros v I. unfold requestValues_ci in I. apply in_flat_map in I. destruct I as [[k w] [I J]].
  destruct (D k w I) as [n [E|E]]; subst k; cbn [fst] in J.
  - change (("r." ++ n)%string) with (String "r" (String "." n)) in J. cbn iota in J. destruct J as [J|[]]. inversion J; subst. apply (N w I).
  - change (("p." ++ n)%string) with (String "p" (String "." n)) in J. destruct J.
Qed.
Lemma no_request : forall vals rf f, In f rf -> aget f vals = None ->
  requested_policy vals (map (fun f => ("r_" ++ f)%string) rf) = Throw StdLogicError.
Proof.
  induction rf as [|g rf IH]; intros f I N; [destruct I|]. cbn [map requested_policy]. rewrite request_name. destruct I as [E|I].
  - subst g. rewrite N. reflexivity.
  - destruct (aget g vals); auto. rewrite (IH f I N). reflexivity.
Qed.
Lemma kept_vars_funs : forall l ev, ev_vars (fold_left (fun e n => AddFunction_ci e n FBuiltin) l ev) = ev_vars ev.
Proof. induction l as [|n l IH]; intros ev; cbn [fold_left]; auto. rewrite IH. reflexivity. Qed.
Lemma kept_vars_g : forall o fl h g ev, exists ev', load_g_ev (exprtk_ci o fl) h g ev = (ev', Ok tt) /\ ev_vars ev' = ev_vars ev.
Proof.
  induction g as [|[n a] g IH]; intros ev; cbn [load_g_ev]; [exists ev; auto|]. unfold vbind. cbn [exprtk_ci].
  destruct (IH (AddFunction_ci ev n (FG (a_rm a) (scount "_" (a_value a))))) as [ev' [E V]]. exists ev'. rewrite E, V. auto.
Qed.
Lemma misled_enforce : forall o fl e matcher rf pf eft mat f ev, outline (e_model e) rf pf eft mat -> e_enabled e = true ->
  p_indexed (e_model e) = true -> In f rf -> misled f ev ->
  exists ev', m_enforce_ev (exprtk_ci o fl) e matcher ev = (ev', Throw StdLogicError) /\ ev_vars ev' = ev_vars ev.
Proof.
  intros o fl e matcher rf pf eft mat f ev [[ra [GR TR]] [pa [GP TP]] _ [ma [GM VM]] _] EN IX I M. unfold m_enforce_ev. rewrite EN. cbn [negb].
  cbv zeta. unfold vbind at 1. cbn [exprtk_ci]. unfold vbind at 1. cbn [exprtk_ci].
  destruct (kept_vars_g o fl (e_heap e) (sec_of (e_model e) "g") (LoadFunctions_ci ev)) as [ev' [E V]]. unfold vbind at 1. rewrite E.
  unfold LoadFunctions_ci in V. rewrite kept_vars_funs in V. exists ev'. split; auto.
  assert (EX : exists x, (if String.eqb matcher "" then let! a := get_ast (e_model e) "m" "m" in Ok (a_value a) else Ok matcher) = Ok x).
  { destruct (String.eqb matcher ""); [rewrite GM; cbn [bind]|]; eauto. }
  destruct EX as [x EX]. rewrite EX, GR, GP. unfold vbind at 1, vlift at 1. unfold vbind at 1, vlift at 1. unfold vbind at 1, vlift at 1.
  unfold vbind at 1, selected_policies_ev. rewrite GR, GP. unfold p_indexed in IX. rewrite GP in IX.
  unfold vbind, vlift. destruct (a_policy pa) as [l|l]; [discriminate|]. cbn [exprtk_ci]. rewrite TR.
  rewrite (no_request _ rf f I (misled_values f ev' (misled_vars f ev ev' (eq_sym V) M))). reflexivity.
Qed.

(** ** The table has one spelling of each name *)
Lemma one_sets : forall l ev, one_spelling ev -> one_spelling (with_vars (sets l (ev_vars ev)) ev).
Proof.
  induction l as [|[n [v|v]] l IH]; intros ev [D U]; cbn [sets].
  - rewrite with_vars_same. split; auto.
  - specialize (IH (with_vars (i_set ("r." ++ n) v (ev_vars ev)) ev)). apply IH. split; cbn [with_vars ev_vars].
    + intros k w I. apply set_keys in I. destruct I as [[w' I]|[E _]]; [apply (D k w' I)|]. exists n. auto.
    + intros k w k' w' I I' S. apply set_keys in I. apply set_keys in I'.
      destruct I as [[x I]|[E I]], I' as [[x' I']|[E' I']]; subst; auto.
      * apply (U k x k' x' I I' S).
      * apply I' in I. apply sbc_sym, same_name_iff in S. congruence.
      * apply I in I'. apply same_name_iff in S. congruence.
  - apply IH. split; auto.
Qed.
Lemma set_there : forall k v (l : list (string * string)), exists k' w, In (k', w) (i_set k v l) /\ same_but_case k' k.
Proof.
  induction l as [|[y z] l [k' [w [I S]]]]; cbn [i_set].
  - exists k, v. split; [left; auto|apply lower_iff; auto].
  - destruct (same_name k y) eqn:Q.
    + exists y, v. split; [left; auto|]. apply sbc_sym, same_name_iff, Q.
    + exists k', w. split; [right; exact I|exact S].
Qed.
Lemma sets_keep : forall l t x w, In (x, w) t -> exists w', In (x, w') (sets l t).
Proof.
  induction l as [|[n [v|v]] l IH]; intros t x w I; cbn [sets]; eauto. destruct (keys_set ("r." ++ n) v t x w I) as [w' I']. eauto.
Qed.
Lemma sets_there : forall l t f v, In (f, OStr v) l -> exists k w, In (k, w) (sets l t) /\ same_but_case k ("r." ++ f).
Proof.
  induction l as [|[n d] l IH]; intros t f v I; [destruct I|]. destruct I as [E|I].
  - inversion E; subst. cbn [sets]. destruct (set_there ("r." ++ f) v t) as [k [w [I S]]]. destruct (sets_keep l _ k w I) as [w' I']. eauto.
  - destruct d; cbn [sets]; eauto.
Qed.
Lemma one_of_two : forall l ev f g v, one_spelling ev -> In (f, OStr v) l -> same_but_case f g -> f <> g ->
  misled f (with_vars (sets l (ev_vars ev)) ev) \/ misled g (with_vars (sets l (ev_vars ev)) ev).
Proof.
  intros l ev f g v O I S NE. destruct (one_sets l ev O) as [D U]. cbn [with_vars ev_vars] in *.
  destruct (sets_there l (ev_vars ev) f v I) as [k [w [J T]]].
  destruct (string_dec k ("r." ++ f)) as [E|N].
  - right. split; [exact D|]. split; [exists k, w; split; [exact J|apply sbc_trans with ("r." ++ f)%string; auto; apply same_prefix, S]|].
    cbn [with_vars ev_vars]. intros x Q. subst k. assert (Z : ("r." ++ f)%string = ("r." ++ g)%string).
    { apply (U _ w _ x J Q). apply same_prefix, S. }
    apply NE. inversion Z. reflexivity.
  - left. split; [exact D|]. split; [exists k, w; auto|]. cbn [with_vars ev_vars]. intros x Q. apply N, (U _ w _ x J Q T).
Qed.

(** ** The library with the spelling of the model *)
Lemma spelling_in : forall K x, no_case_twins K -> In x K -> spelling K x = x.
Proof. intros K x A I. apply (spelling_of K A x x I (same_name_refl x)). Qed.
Lemma no_twins_by : forall K, forallb (fun x => forallb (fun y => negb (same_name x y) || String.eqb x y) K) K = true -> no_case_twins K.
Proof.
  intros K H x y I J S. apply same_name_iff in S. rewrite forallb_forall in H. specialize (H x I). rewrite forallb_forall in H.
  specialize (H y J). rewrite S in H. apply String.eqb_eq, H.
Qed.
Lemma in_order : forall o fl e m ps ev ra rf, get_ast (e_model e) "r" "r" = Ok ra -> a_tokens ra = map (fun f => ("r_" ++ f)%string) rf ->
  EnforceExWithMatcher_ev (exprtk_ci o fl) e m ps ev =
  if negb (Nat.eqb (List.length ps) (List.length rf)) then (ev, Ok (false, []))
  else (push_map_ev (exprtk_ci o fl) (e_heap e) (combine rf ps) ;~ m_enforce_ev (exprtk_ci o fl) e m) ev.
Proof.
  intros o fl e m ps ev ra rf GR TR. unfold EnforceExWithMatcher_ev. rewrite GR. unfold vbind at 1, vlift at 1. rewrite TR, map_length.
  destruct (negb _); [reflexivity|]. unfold vbind at 1. cbn [exprtk_ci]. unfold vbind. rewrite pushed_r. reflexivity.
Qed.
