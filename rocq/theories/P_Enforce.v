(** Enforcement with an evaluator object in order computes the specification of
    S_Enforce, and leaves the evaluator in order. *)
From Coq Require FinFun.
From Verif Require Import Base P_Base M_Util M_RoleManager M_Effector M_Model M_Persist M_Eval M_Evaluator M_Enforcer S_Effect S_Enforce P_Effect.

Lemma sdrop2 : forall c d f, sdrop 2 (String c (String d f)) = f.
Proof. intros. simpl. destruct f; reflexivity. Qed.

Lemma p_token_name_p : forall f, p_token_name ("p_" ++ f)%string = f.
Proof. intros. unfold p_token_name. simpl. destruct f; reflexivity. Qed.

Lemma r_names_inj : forall rf, NoDup rf -> NoDup (r_names rf).
Proof.
  intros. unfold r_names. apply FinFun.Injective_map_NoDup; auto.
  intros x y E. inversion E. reflexivity.
Qed.
Lemma p_names_inj : forall rf, NoDup rf -> NoDup (p_names rf).
Proof.
  intros. unfold p_names. apply FinFun.Injective_map_NoDup; auto.
  intros x y E. inversion E. reflexivity.
Qed.

Lemma r_p_disjoint : forall x rf pf, In x (r_names rf) -> In x (p_names pf) -> False.
Proof.
  intros x rf pf R P. apply in_map_iff in R. apply in_map_iff in P.
  destruct R as [a [<- _]]. destruct P as [b [E _]]. inversion E.
Qed.

(** Pushing a list of variables. *)
Fixpoint setall (l : list (string * string)) (vars : list (string * string)) : list (string * string) :=
  match l with [] => vars | (k, v) :: t => setall t (aset k v vars) end.

Lemma aget_setall : forall l vars x, NoDup (map fst l) ->
  aget x (setall l vars) = match aget x l with Some v => Some v | None => aget x vars end.
Proof.
  induction l as [|[k v] l IH]; simpl; intros vars x ND; auto.
  inversion ND; subst. rewrite IH by auto. seqb x k.
  - subst. rewrite (proj2 (aget_None k l)) by auto. apply aget_aset_same.
  - rewrite aget_aset_other by auto. reflexivity.
Qed.

Lemma combine_fst : forall A B (a : list A) (b : list B), List.length a = List.length b -> map fst (combine a b) = a.
Proof. induction a; destruct b; simpl; intros; try discriminate; auto. f_equal. auto. Qed.

Definition with_vars (ev : evaluator) (v : list (string * string)) : evaluator :=
  mkEv v (ev_funs ev) (ev_expr ev) (ev_bad ev) (ev_prog ev).

Lemma push_p_ok : forall pf vals ev,
  (forall f, In f pf -> valid_symbol ("p." ++ f)%string = true) ->
  push_p ev (map (fun f => ("p_" ++ f)%string) pf) vals =
  (with_vars ev (setall (combine (p_names pf) vals) (ev_vars ev)), Ok tt).
Proof.
  induction pf as [|f pf IH]; intros vals ev V.
  - simpl. destruct ev; reflexivity.
  - destruct vals as [|v vals]; [simpl; destruct ev; reflexivity|].
    cbn [map push_p]. rewrite p_token_name_p. unfold PushObjectString.
    change ("p" ++ "." ++ f)%string with ("p." ++ f)%string.
    rewrite V by (left; reflexivity).
    rewrite IH by (intros; apply V; right; auto). reflexivity.
Qed.

Lemma push_r_ok : forall rf req ev,
  (forall f, In f rf -> valid_symbol ("r." ++ f)%string = true) ->
  push_r ev (map (fun f => ("r_" ++ f)%string) rf) (map DStr req) =
  (with_vars ev (setall (combine (r_names rf) req) (ev_vars ev)), Ok tt).
Proof.
  induction rf as [|f rf IH]; intros req ev V.
  - simpl. destruct ev; reflexivity.
  - destruct req as [|v req]; [simpl; destruct ev; reflexivity|].
    cbn [map push_r]. change (("r_" ++ f)%string) with (String "r" (String "_" f)). rewrite sdrop2.
    unfold PushObjectString. change ("r" ++ "." ++ f)%string with ("r." ++ f)%string.
    rewrite V by (left; reflexivity).
    rewrite IH by (intros; apply V; right; auto). reflexivity.
Qed.

(** Function tables. *)
Lemma funs_fold : forall (l : list (string * efun)) ev f,
  aget f (ev_funs (fold_left (fun e kv => AddFunction e (fst kv) (snd kv)) l ev)) =
  match aget f (ev_funs ev) with Some k => Some k | None => aget f l end.
Proof.
  induction l as [|[k v] l IH]; simpl; intros ev f.
  - destruct (aget f (ev_funs ev)); reflexivity.
  - rewrite IH. simpl. rewrite aget_ainsert. seqb f k.
    + subst. destruct (aget k (ev_funs ev)); reflexivity.
    + reflexivity.
Qed.

Lemma addf_frame : forall (l : list (string * efun)) ev,
  let ev' := fold_left (fun e kv => AddFunction e (fst kv) (snd kv)) l ev in
  ev_vars ev' = ev_vars ev /\ ev_expr ev' = ev_expr ev /\ ev_bad ev' = ev_bad ev /\ ev_prog ev' = ev_prog ev.
Proof. induction l; simpl; intros; auto. apply (IHl (AddFunction ev (fst a) (snd a))). Qed.

Definition builtin_list : list (string * efun) := map (fun n => (n, FBuiltin)) builtin_names.
Definition g_list (m : model) : list (string * efun) :=
  map (fun kv => (fst kv, FG (a_rm (snd kv)) (scount "_" (a_value (snd kv))))) (sec_of m "g").

Lemma LoadFunctions_fold : forall ev,
  LoadFunctions ev = fold_left (fun e kv => AddFunction e (fst kv) (snd kv)) builtin_list ev.
Proof. reflexivity. Qed.

Lemma load_g_fold : forall m ev,
  load_g_functions m ev = fold_left (fun e kv => AddFunction e (fst kv) (snd kv)) (g_list m) ev.
Proof.
  intros. unfold load_g_functions, g_list. revert ev.
  induction (sec_of m "g") as [|[k a] l IH]; simpl; intros; auto.
Qed.

Lemma aget_g_list : forall m f,
  aget f (g_list m) = match aget f (sec_of m "g") with
                      | Some a => Some (FG (a_rm a) (scount "_" (a_value a))) | None => None end.
Proof.
  intros. unfold g_list. induction (sec_of m "g") as [|[k a] l IH]; simpl; auto.
  seqb f k; auto.
Qed.

Lemma aget_builtin : forall f, aget f builtin_list = if inb f builtin_names then Some FBuiltin else None.
Proof.
  intros. unfold builtin_list. generalize builtin_names.
  induction l as [|k l IH]; simpl; auto. destruct (String.eqb f k); simpl; auto.
Qed.

Definition prepared (m : model) (ev : evaluator) : evaluator := load_g_functions m (LoadFunctions ev).

Lemma prepared_frame : forall m ev,
  ev_vars (prepared m ev) = ev_vars ev /\ ev_expr (prepared m ev) = ev_expr ev /\
  ev_bad (prepared m ev) = ev_bad ev /\ ev_prog (prepared m ev) = ev_prog ev.
Proof.
  intros. unfold prepared. rewrite load_g_fold, LoadFunctions_fold.
  destruct (addf_frame (g_list m) (fold_left (fun e kv => AddFunction e (fst kv) (snd kv)) builtin_list ev))
    as [A [B [C D]]].
  destruct (addf_frame builtin_list ev) as [A' [B' [C' D']]].
  rewrite A, B, C, D, A', B', C', D'. auto.
Qed.

(** The functions known after loading are exactly the built-in ones and the current
    role functions. *)
Definition funs_current (m : model) (ev : evaluator) : Prop :=
  forall f, aget f (ev_funs ev) =
            if inb f builtin_names then Some FBuiltin
            else match aget f (sec_of m "g") with
                 | Some a => Some (FG (a_rm a) (scount "_" (a_value a))) | None => None end.

Lemma prepared_funs : forall o m rf pf eft mat ev,
  declares m rf pf eft mat -> fits o m rf pf ev -> funs_current m (prepared m ev).
Proof.
  intros o m rf pf eft mat ev D F f. unfold prepared.
  rewrite load_g_fold, LoadFunctions_fold, !funs_fold, aget_builtin, aget_g_list.
  destruct (aget f (ev_funs ev)) eqn:E.
  - apply (f_funs _ _ _ _ _ F) in E. destruct E as [[I ->]|[a [A ->]]].
    + apply inb_true in I. rewrite I. reflexivity.
    + destruct (inb f builtin_names) eqn:I; [|rewrite A; reflexivity].
      apply inb_true in I. apply (d_g _ _ _ _ _ D) in I. congruence.
  - destruct (inb f builtin_names); auto.
Qed.

Lemma funs_of_current : forall m rf pf eft mat h ev, declares m rf pf eft mat -> funs_current m ev ->
  forall f args, funs_of h ev f args = role_fun m h f args.
Proof.
  intros m rf pf eft mat h ev D C f args. unfold funs_of, role_fun. rewrite C.
  destruct (inb f builtin_names) eqn:I.
  - apply inb_true in I. rewrite (d_g _ _ _ _ _ D) by auto. reflexivity.
  - destruct (aget f (sec_of m "g")); reflexivity.
Qed.

Lemma sig_funs_current : forall m rf pf eft mat ev, declares m rf pf eft mat -> funs_current m ev ->
  forall f, sig_funs ev f = role_arity m f.
Proof.
  intros m rf pf eft mat ev D C f. unfold sig_funs, role_arity. rewrite C.
  destruct (inb f builtin_names) eqn:I.
  - apply inb_true in I. rewrite (d_g _ _ _ _ _ D) by auto. reflexivity.
  - destruct (aget f (sec_of m "g")); reflexivity.
Qed.

Lemma funs_current_fits : forall o m rf pf ev,
  (forall x, ahas x (ev_vars ev) = true -> known_vars rf pf x = true) ->
  funs_current m ev ->
  ((ev_expr ev = "" /\ ev_bad ev = false) \/
      (ev_bad ev = negb (o_compiles o (ev_expr ev) (known_vars rf pf) (role_arity m)) /\
       (ev_bad ev = false -> ev_prog ev = Some (ev_expr ev)))) ->
  fits o m rf pf ev.
Proof.
  intros o m rf pf ev V C P. constructor; auto.
  intros f k E. rewrite C in E. destruct (inb f builtin_names) eqn:I.
  - left. apply inb_true in I. split; congruence.
  - right. destruct (aget f (sec_of m "g")) eqn:A; [|discriminate]. exists a. split; congruence.
Qed.

(** The evaluator during the evaluation of a request: all request fields are set. *)
Record running (o : oracle) (m : model) (rf pf req : list string) (ev : evaluator) : Prop := mkRun {
  ru_vars : forall x, ahas x (ev_vars ev) = true -> known_vars rf pf x = true;
  ru_req : forall x, In x (r_names rf) -> aget x (ev_vars ev) = aget x (combine (r_names rf) req);
  ru_funs : funs_current m ev;
  ru_prog : (ev_expr ev = "" /\ ev_bad ev = false) \/
      (ev_bad ev = negb (o_compiles o (ev_expr ev) (known_vars rf pf) (role_arity m)) /\
       (ev_bad ev = false -> ev_prog ev = Some (ev_expr ev))) }.

Lemma running_fits : forall o m rf pf req ev, running o m rf pf req ev -> fits o m rf pf ev.
Proof. intros o m rf pf req ev [A B C D]. apply funs_current_fits; auto. Qed.

Lemma known_setall : forall rf pf l vars,
  (forall x, ahas x vars = true -> known_vars rf pf x = true) ->
  (forall x, In x (map fst l) -> known_vars rf pf x = true) ->
  forall x, ahas x (setall l vars) = true -> known_vars rf pf x = true.
Proof.
  induction l as [|[k v] l IH]; simpl; intros vars A B x H; auto.
  apply (IH (aset k v vars)); auto.
  intros y Y. rewrite ahas_aset in Y. seqb y k; auto.
Qed.

Lemma in_combine_fst : forall (a b : list string) x, In x (map fst (combine a b)) -> In x a.
Proof. induction a; destruct b; simpl; intros; try tauto. destruct H; auto. right. eapply IHa; eauto. Qed.

Lemma known_p : forall rf pf x, In x (p_names pf) -> known_vars rf pf x = true.
Proof. intros. unfold known_vars. apply inb_true. apply in_app_iff. auto. Qed.
Lemma known_r : forall rf pf x, In x (r_names rf) -> known_vars rf pf x = true.
Proof. intros. unfold known_vars. apply inb_true. apply in_app_iff. auto. Qed.

(** Pushing the fields of a rule. *)
Definition pushed (ev : evaluator) (pf vals : list string) : evaluator :=
  with_vars ev (setall (combine (p_names pf) vals) (ev_vars ev)).

Lemma NoDup_combine_fst : forall (a b : list string), NoDup a -> NoDup (map fst (combine a b)).
Proof.
  induction a; destruct b; simpl; intros; try constructor; inversion H; subst; auto.
  intro C. apply in_combine_fst in C. auto.
Qed.

Lemma running_pushed : forall o m rf pf eft mat req ev vals, declares m rf pf eft mat ->
  running o m rf pf req ev -> running o m rf pf req (pushed ev pf vals).
Proof.
  intros o m rf pf eft mat req ev vals D [A B C E]. constructor; auto.
  - simpl. apply known_setall; auto. intros x H. apply in_combine_fst in H. apply known_p; auto.
  - simpl. intros x H. rewrite aget_setall.
    + rewrite (proj2 (aget_None x _)); auto.
      intro P. apply in_combine_fst in P. eapply r_p_disjoint; eauto.
    + apply NoDup_combine_fst, p_names_inj, (d_pf _ _ _ _ _ D).
Qed.

Lemma pushed_env : forall o m rf pf eft mat req ev vals, declares m rf pf eft mat ->
  running o m rf pf req ev -> List.length req = List.length rf -> List.length vals = List.length pf ->
  forall x, vars_of (pushed ev pf vals) x = env rf req pf vals x.
Proof.
  intros o m rf pf eft mat req ev vals D [A B C E] LR LP x. unfold vars_of, env, pushed. simpl.
  rewrite aget_setall by (apply NoDup_combine_fst, p_names_inj, (d_pf _ _ _ _ _ D)).
  rewrite aget_app.
  destruct (aget x (combine (p_names pf) vals)) eqn:P.
  - rewrite (proj2 (aget_None x (combine (r_names rf) req))); auto.
    intro R. apply in_combine_fst in R. apply aget_In, (in_map fst), in_combine_fst in P. simpl in P.
    eapply r_p_disjoint; eauto.
  - destruct (in_dec string_dec x (r_names rf)) as [R|R].
    + rewrite B by auto. destruct (aget x (combine (r_names rf) req)); reflexivity.
    + rewrite (proj2 (aget_None x (combine (r_names rf) req))).
      2:{ intro Q. apply in_combine_fst in Q. auto. }
      destruct (aget x (ev_vars ev)) eqn:V; auto.
      assert (K : known_vars rf pf x = true) by (apply A; unfold ahas; rewrite V; auto).
      unfold known_vars in K. apply inb_true, in_app_iff in K. destruct K as [K|K]; [tauto|].
      apply aget_None in P. rewrite combine_fst in P; [tauto|].
      unfold p_names. rewrite map_length. auto.
Qed.

Lemma aget_combine_some : forall (a : list string) (b : list string) x,
  List.length b = List.length a -> In x a -> ahas x (combine a b) = true.
Proof. intros. apply ahas_true. rewrite combine_fst by auto. auto. Qed.

Lemma pushed_sig : forall o m rf pf eft mat req ev vals, declares m rf pf eft mat ->
  running o m rf pf req ev -> List.length req = List.length rf -> List.length vals = List.length pf ->
  forall x, sig_vars (pushed ev pf vals) x = known_vars rf pf x.
Proof.
  intros. unfold sig_vars.
  destruct (known_vars rf pf x) eqn:K.
  - pose proof (pushed_env o m rf pf eft mat req ev vals H H0 H1 H2 x) as P.
    unfold ahas. unfold vars_of in P. rewrite P.
    unfold known_vars in K. apply inb_true in K. unfold env.
    assert (I : ahas x (combine (r_names rf) req ++ combine (p_names pf) vals) = true).
    { apply ahas_true. rewrite map_app, !combine_fst by (unfold r_names, p_names; rewrite map_length; auto). auto. }
    exact I.
  - destruct (ahas x (ev_vars (pushed ev pf vals))) eqn:I; auto.
    rewrite (ru_vars _ _ _ _ _ _ (running_pushed _ _ _ _ _ _ _ _ vals H H0) x I) in K. discriminate.
Qed.

(** Evaluating a non-empty text. *)
Lemma eval_text : forall o m rf pf eft mat req ev vals text h,
  oracle_ext o -> declares m rf pf eft mat -> running o m rf pf req ev ->
  List.length req = List.length rf -> List.length vals = List.length pf -> text <> "" ->
  let ev2 := fst (Eval o (pushed ev pf vals) text) in
  running o m rf pf req ev2 /\
  snd (Eval o (pushed ev pf vals) text) = o_compiles o text (known_vars rf pf) (role_arity m) /\
  checked_value o h ev2 = (if o_compiles o text (known_vars rf pf) (role_arity m)
                           then o_value o text (env rf req pf vals) (role_fun m h) else Throw ThrownString) /\
  (o_compiles o text (known_vars rf pf) (role_arity m) = true ->
   value o h ev2 = o_value o text (env rf req pf vals) (role_fun m h)).
Proof.
  intros o m rf pf eft mat req ev vals text h X D R LR LP NE.
  pose proof (running_pushed o m rf pf eft mat req ev vals D R) as RP.
  pose proof (pushed_env o m rf pf eft mat req ev vals D R LR LP) as PE.
  pose proof (pushed_sig o m rf pf eft mat req ev vals D R LR LP) as PS.
  cbv zeta. set (ev1 := pushed ev pf vals) in *. clearbody ev1.
  assert (CE : o_compiles o text (sig_vars ev1) (sig_funs ev1) = o_compiles o text (known_vars rf pf) (role_arity m)).
  { apply (proj1 X); auto. intro f. eapply sig_funs_current; eauto. apply RP. }
  assert (VE : o_value o text (vars_of ev1) (funs_of h ev1) = o_value o text (env rf req pf vals) (role_fun m h)).
  { apply (proj2 X); auto. intros f args. eapply funs_of_current; eauto. apply RP. }
  unfold Eval. seqb (ev_expr ev1) text.
  - (* the text is the one compiled before *)
    simpl. destruct (ru_prog _ _ _ _ _ _ RP) as [[E0 _]|[B P]]; [congruence|].
    rewrite E in *. split; [exact RP|]. split; [|split].
    + rewrite B. apply negb_involutive.
    + unfold checked_value, value. rewrite B in *.
      destruct (o_compiles o text (known_vars rf pf) (role_arity m)); simpl; auto.
      rewrite P by auto. auto.
    + intros C. unfold value. rewrite P; auto. rewrite B, C. reflexivity.
  - (* compile *)
    cbn zeta. cbn [fst snd]. rewrite CE. split; [constructor|split; [reflexivity|split]].
    + apply (ru_vars _ _ _ _ _ _ RP).
    + apply (ru_req _ _ _ _ _ _ RP).
    + apply (ru_funs _ _ _ _ _ _ RP).
    + right. cbn. split; auto. intros C. apply negb_false_iff in C. rewrite C. reflexivity.
    + unfold checked_value, value. cbn.
      destruct (o_compiles o text (known_vars rf pf) (role_arity m)); simpl; auto.
    + intros C. unfold value. cbn. rewrite C. exact VE.
Qed.

(** ** The effect column *)
Lemma token_index_acc : forall toks i name acc,
  token_index_from i name toks acc =
  match token_index_from i name toks None with Some j => Some j | None => acc end.
Proof.
  induction toks as [|t toks IH]; simpl; intros; auto.
  rewrite IH. destruct (String.eqb t name); auto.
  rewrite (IH (S i) name (Some i)). destruct (token_index_from (S i) name toks None); auto.
Qed.

Lemma token_index_nodup : forall pf i name, NoDup pf ->
  forall vals : list string, List.length vals = List.length pf ->
  match token_index_from i ("p_" ++ name)%string (map (fun f => ("p_" ++ f)%string) pf) None with
  | Some j => exists k, j = i + k /\ nth_error vals k = aget name (combine pf vals) /\ k < List.length pf
  | None => aget name (combine pf vals) = None
  end.
Proof.
  induction pf as [|f pf IH]; intros i name ND vals L; [reflexivity|].
  destruct vals as [|v vals]; [discriminate|]. inversion ND; subst. simpl in L. inversion L as [L'].
  cbn [map token_index_from combine]. rewrite token_index_acc. simpl aget.
  specialize (IH (S i) name H2 vals L').
  destruct (token_index_from (S i) ("p_" ++ name)%string (map (fun f => ("p_" ++ f)%string) pf) None) eqn:T.
  - destruct IH as [k [-> [Q K]]]. exists (S k). split; [lia|]. split; [|simpl; lia].
    simpl. rewrite Q. seqb name f; auto. subst. exfalso. apply H1.
    assert (HH : ahas f (combine pf vals) = true).
    { unfold ahas. rewrite <- Q. destruct (nth_error vals k) eqn:N; auto. apply nth_error_None in N. lia. }
    apply ahas_true in HH. apply in_combine_fst in HH. auto.
  - replace (String.eqb ("p_" ++ f)%string ("p_" ++ name)%string) with (String.eqb f name).
    2:{ simpl. reflexivity. }
    rewrite eqb_sym_s. seqb name f.
    + exists 0. subst. simpl. repeat split; try lia.
    + exact IH.
Qed.

Lemma rule_effect_spec : forall pf vals, NoDup pf -> List.length vals = List.length pf ->
  rule_effect (map (fun f => ("p_" ++ f)%string) pf) vals = Ok (effect_of pf vals).
Proof.
  intros pf vals ND L. unfold rule_effect, token_index, effect_of.
  pose proof (token_index_nodup pf 0 "eft" ND vals L) as T.
  change ("p_" ++ "eft")%string with "p_eft" in T.
  destruct (token_index_from 0 "p_eft" (map (fun f => ("p_" ++ f)%string) pf) None) eqn:E.
  - destruct T as [k [-> [Q K]]]. simpl. unfold vget. rewrite Q.
    destruct (aget "eft" (combine pf vals)) eqn:A.
    + simpl. destruct (String.eqb s "allow"); auto.
    + apply nth_error_None in Q. lia.
  - rewrite T. reflexivity.
Qed.

(** ** One rule *)
Lemma eval_rule_spec : forall o m rf pf eft mat req ev vals expr h,
  oracle_ext o -> declares m rf pf eft mat -> running o m rf pf req ev ->
  List.length req = List.length rf -> matcher_text expr pf vals <> Ok "" ->
  exists ev', eval_rule o h (HasEval expr) expr (map (fun f => ("p_" ++ f)%string) pf) ev vals =
              (ev', rule_outcome o m h rf pf expr req vals) /\ running o m rf pf req ev'.
Proof.
  intros o m rf pf eft mat req ev vals expr h X D R LR NE.
  unfold eval_rule, rule_outcome, verdict. rewrite map_length.
  destruct (Nat.eqb (List.length pf) (List.length vals)) eqn:L; simpl negb.
  2:{ exists ev. auto. }
  apply Nat.eqb_eq in L.
  rewrite push_p_ok by apply (d_sym_p _ _ _ _ _ D).
  fold (pushed ev pf vals).
  unfold matcher_text in *.
  destruct (rule_expression (HasEval expr) expr (map (fun f => ("p_" ++ f)%string) pf) vals) as [text|t|u] eqn:T.
  - assert (NT : text <> "") by congruence.
    destruct (eval_text o m rf pf eft mat req ev vals text h X D R LR (eq_sym L) NT) as [R2 [_ [CV _]]].
    destruct (Eval o (pushed ev pf vals) text) as [ev2 b] eqn:E. cbn [fst] in *.
    cbn iota. rewrite CV. cbn [bind].
    rewrite rule_effect_spec by (auto; apply (d_pf _ _ _ _ _ D)).
    exists ev2.
    destruct (o_compiles o text (known_vars rf pf) (role_arity m)).
    + destruct (o_value o text (env rf req pf vals) (role_fun m h)); auto.
    + auto.
  - exists (pushed ev pf vals). split; auto. eapply running_pushed; eauto.
  - exists (pushed ev pf vals). split; auto. eapply running_pushed; eauto.
Qed.

(** ** The loop *)
Lemma rule_loop_spec : forall o m rf pf eft mat req expr h,
  oracle_ext o -> declares m rf pf eft mat -> List.length req = List.length rf ->
  forall todo idx len effects matches last ev,
  running o m rf pf req ev ->
  (forall r, In r todo -> matcher_text expr pf r <> Ok "") ->
  exists ev', rule_loop o h (HasEval expr) expr eft (map (fun f => ("p_" ++ f)%string) pf) len todo idx
                        effects matches last ev =
              (ev', ploop eft len (map (rule_outcome o m h rf pf expr req) todo) idx effects matches last)
              /\ running o m rf pf req ev'.
Proof.
  intros o m rf pf eft mat req expr h X D LR.
  induction todo as [|v todo IH]; intros idx len effects matches last ev R NE.
  - exists ev. auto.
  - cbn [rule_loop map ploop].
    destruct (eval_rule_spec o m rf pf eft mat req ev v expr h X D R LR (NE v (or_introl eq_refl)))
      as [ev' [E R']].
    rewrite E. destruct (rule_outcome o m h rf pf expr req v) as [[b e]|t|u]; cbn [bind].
    + destruct (MergeEffects eft (upd idx e effects) (upd idx b matches) idx len) as [[[] x]|t|u];
        try (exists ev'; auto; fail).
      apply IH; auto. intros; apply NE; right; auto.
    + exists ev'; auto.
    + exists ev'; auto.
Qed.

(** ** Selecting the rules *)
Lemma requestValues_get : forall (vars : list (string * string)) name,
  (forall x, ahas x vars = true -> exists f, x = ("r." ++ f)%string \/ x = ("p." ++ f)%string) ->
  forall full, aget name (flat_map (fun kv => match fst kv with
                      | String "r" (String _ tok) =>
                          [(tok, c_str (match aget ("r." ++ tok)%string full with Some v => v | None => "" end))]
                      | _ => [] end) vars) =
  if ahas ("r." ++ name)%string vars
  then Some (c_str (match aget ("r." ++ name)%string full with Some v => v | None => "" end)) else None.
Proof.
  induction vars as [|[k v] vars IH]; intros name H full; [reflexivity|].
  assert (HK : exists f, k = ("r." ++ f)%string \/ k = ("p." ++ f)%string).
  { apply H. unfold ahas. simpl. rewrite eqb_refl_s. reflexivity. }
  assert (HV : forall x, ahas x vars = true -> exists f, x = ("r." ++ f)%string \/ x = ("p." ++ f)%string).
  { intros x Hx. apply H. unfold ahas in *. simpl. destruct (String.eqb x k); auto. }
  cbn [flat_map fst]. rewrite aget_app. rewrite (IH name HV full). unfold ahas. cbn [aget].
  destruct HK as [f [->| ->]].
  - cbn [append]. cbn [aget].
    change (String.eqb (String "r" (String "." name)) (String "r" (String "." f))) with (String.eqb name f).
    seqb name f; auto. subst. reflexivity.
  - cbn [append aget].
    change (String.eqb (String "r" (String "." name)) (String "p" (String "." f))) with false. reflexivity.
Qed.

Lemma known_form : forall rf pf x, known_vars rf pf x = true -> exists f, x = ("r." ++ f)%string \/ x = ("p." ++ f)%string.
Proof.
  intros. unfold known_vars in H. apply inb_true, in_app_iff in H.
  destruct H as [H|H]; apply in_map_iff in H; destruct H as [f [<- _]]; exists f; auto.
Qed.

Lemma requested_policy_ok : forall rf req vals,
  (forall f v, aget f (combine rf req) = Some v -> aget f vals = Some (c_str v)) ->
  NoDup rf -> List.length req = List.length rf ->
  requested_policy vals (map (fun f => ("r_" ++ f)%string) rf) = Ok (map c_str req).
Proof.
  induction rf as [|f rf IH]; intros req vals H ND L; destruct req as [|v req]; try discriminate; auto.
  cbn [map requested_policy]. change ("r_" ++ f)%string with (String "r" (String "_" f)). rewrite sdrop2.
  rewrite (H f v) by (simpl; rewrite eqb_refl_s; reflexivity).
  inversion ND; subst. rewrite (IH req); auto.
  intros g w G. apply H. simpl. seqb g f; auto. subst. exfalso. apply H2.
  apply aget_In, (in_map fst), in_combine_fst in G. exact G.
Qed.

Lemma aget_combine_names : forall f rf (req : list string),
  aget ("r." ++ f)%string (combine (r_names rf) req) = aget f (combine rf req).
Proof.
  induction rf as [|g rf IH]; destruct req; simpl; auto. destruct (String.eqb f g); auto.
Qed.

Lemma find_rule : forall r l, List.find (rule_eqb r) l = if existsb (rule_eqb r) l then Some r else None.
Proof.
  induction l; simpl; auto. destruct (rule_eqb r a) eqn:E; simpl; auto.
  apply rule_eqb_true in E. congruence.
Qed.

Lemma selected_spec : forall o m rf pf eft mat req ev,
  declares m rf pf eft mat -> running o m rf pf req ev -> List.length req = List.length rf ->
  selected_policies m ev = Ok (candidates m req).
Proof.
  intros o m rf pf eft mat req ev D R L. unfold selected_policies, candidates, p_indexed, p_rules.
  destruct (d_p _ _ _ _ _ D) as [p [P _]]. rewrite P. cbn [bind].
  destruct (a_policy p) as [l|l] eqn:A; [reflexivity|].
  destruct (d_r _ _ _ _ _ D) as [r [G T]]. rewrite G. cbn [bind]. rewrite T.
  rewrite (requested_policy_ok rf req); auto.
  - cbn [bind is_hash rules_of]. unfold store_find. cbn [rules_of]. rewrite find_rule.
    destruct (existsb (rule_eqb (map c_str req)) l); reflexivity.
  - intros f v Q. unfold requestValues. rewrite requestValues_get.
    + assert (I : In f rf) by (apply aget_In, (in_map fst), in_combine_fst in Q; exact Q).
      assert (V : aget ("r." ++ f)%string (ev_vars ev) = Some v).
      { rewrite (ru_req _ _ _ _ _ _ R). - rewrite aget_combine_names. exact Q.
        - unfold r_names. apply in_map_iff. exists f. auto. }
      unfold ahas. rewrite V. reflexivity.
    + intros x Hx. eapply known_form. eapply (ru_vars _ _ _ _ _ _ R). exact Hx.
  - apply (d_rf _ _ _ _ _ D).
Qed.

(** ** The whole function *)

(** The specification of enforcement with an empty set of candidates. *)
Definition empty_outcome (o : oracle) (m : model) (h : heap) (rf pf : list string) (eft expr : string)
           (req : list string) : res (bool * list string) :=
  if HasEval expr then Throw CasbinEnforcer
  else if o_compiles o expr (known_vars rf pf) (role_arity m)
       then let! b := o_value o expr (env rf req pf (map (fun _ => "") pf)) (role_fun m h) in
            let! r := MergeEffects eft [if b then Allow else Indeterminate] [true] 0 1 in
            Ok (effect_eqb (fst r) Allow, [])
       else Ok (false, []).

Definition loop_outcome (o : oracle) (m : model) (h : heap) (rf pf : list string) (eft expr : string)
           (req : list string) (rules : list rule) : res (bool * list string) :=
  let len := List.length rules in
  let! r := ploop eft len (map (rule_outcome o m h rf pf expr req) rules) 0
                  (repeat Indeterminate len) (repeat false len) (UB Uninitialised) in
  Ok (decide rules r).

Definition enforce_outcome (o : oracle) (e : enforcer) (rf pf : list string) (eft mat matcher : string)
           (req : list string) : res (bool * list string) :=
  if negb (e_enabled e) then Ok (true, [])
  else match candidates (e_model e) req with
       | [] => empty_outcome o (e_model e) (e_heap e) rf pf eft (chosen matcher mat) req
       | rules => loop_outcome o (e_model e) (e_heap e) rf pf eft (chosen matcher mat) req rules
       end.

Lemma HasEval_empty : HasEval "" = false.
Proof. reflexivity. Qed.

Lemma decide_nil : forall r, decide [] r = (effect_eqb (fst r) Allow, []).
Proof. intros [e [i|]]; unfold decide; simpl; auto. destruct i; reflexivity. Qed.

Lemma m_enforce_spec : forall o e rf pf eft mat matcher req ev,
  oracle_ext o -> declares (e_model e) rf pf eft mat ->
  fits o (e_model e) rf pf ev ->
  (forall x, In x (r_names rf) -> aget x (ev_vars ev) = aget x (combine (r_names rf) req)) ->
  List.length req = List.length rf ->
  texts_ok (chosen matcher mat) pf (candidates (e_model e) req) ->
  exists ev', m_enforce o e ev matcher = (ev', enforce_outcome o e rf pf eft mat matcher req)
              /\ fits o (e_model e) rf pf ev'.
Proof.
  intros o e rf pf eft mat matcher req ev X D F RV L [TE TR].
  unfold m_enforce, enforce_outcome. destruct (e_enabled e); simpl negb.
  2:{ exists ev. auto. }
  cbv iota. fold (prepared (e_model e) ev).
  pose proof (prepared_funs o (e_model e) rf pf eft mat ev D F) as PF.
  destruct (prepared_frame (e_model e) ev) as [PV [PE [PB PP]]].
  set (ev1 := prepared (e_model e) ev) in *. cbv zeta.
  assert (R : running o (e_model e) rf pf req ev1).
  { constructor.
    - rewrite PV. apply (f_vars _ _ _ _ _ F).
    - rewrite PV. exact RV.
    - exact PF.
    - rewrite PE, PB, PP. apply (f_prog _ _ _ _ _ F). }
  clearbody ev1. clear PV PE PB PP F RV ev PF.
  destruct (d_m _ _ _ _ _ D) as [am [AM1 AM2]].
  destruct (d_r _ _ _ _ _ D) as [ar [AR1 AR2]].
  destruct (d_p _ _ _ _ _ D) as [ap [AP1 AP2]].
  destruct (d_e _ _ _ _ _ D) as [ae [AE1 AE2]].
  assert (EX : (if String.eqb matcher "" then let! a := get_ast (e_model e) "m" "m" in Ok (a_value a) else Ok matcher)
               = Ok (chosen matcher mat)).
  { unfold chosen. rewrite AM1. simpl. rewrite AM2. destruct (String.eqb matcher ""); reflexivity. }
  rewrite EX, AR1, AP1, AE1. cbn [bind].
  rewrite (selected_spec o (e_model e) rf pf eft mat req ev1 D R L). cbn [bind]. rewrite AP2, AE2.
  set (expr := chosen matcher mat) in *.
  destruct (candidates (e_model e) req) as [|r0 rules] eqn:CN.
  - unfold empty_outcome. destruct (HasEval expr) eqn:HE.
    + exists ev1. split; auto. eapply running_fits; eauto.
    + assert (PN : map (fun _ : string => "") (map (fun f : string => ("p_" ++ f)%string) pf) = map (fun _ => "") pf).
      { rewrite map_map. reflexivity. }
      rewrite PN. rewrite push_p_ok by apply (d_sym_p _ _ _ _ _ D).
      fold (pushed ev1 pf (map (fun _ => "") pf)).
      destruct (eval_text o (e_model e) rf pf eft mat req ev1 (map (fun _ => "") pf) expr (e_heap e) X D R L)
        as [R2 [EV [_ VV]]]; auto.
      { rewrite map_length. reflexivity. }
      destruct (Eval o (pushed ev1 pf (map (fun _ => "") pf)) expr) as [ev3 b]. cbn [fst snd] in *. subst b.
      exists ev3. split; [|eapply running_fits; eauto].
      destruct (o_compiles o expr (known_vars rf pf) (role_arity (e_model e))); simpl negb; cbv iota; auto.
      rewrite VV by auto.
      destruct (o_value o expr (env rf req pf (map (fun _ => "") pf)) (role_fun (e_model e) (e_heap e))); auto.
      cbn [bind]. destruct (MergeEffects eft [if a then Allow else Indeterminate] [true] 0 1); auto.
      cbn [bind]. rewrite decide_nil. reflexivity.
  - destruct (rule_loop_spec o (e_model e) rf pf eft mat req expr (e_heap e) X D L (r0 :: rules) 0
                (List.length (r0 :: rules)) (repeat Indeterminate (List.length (r0 :: rules)))
                (repeat false (List.length (r0 :: rules))) (UB Uninitialised) ev1 R TR) as [ev' [E R']].
    rewrite E. exists ev'. split; [reflexivity|]. eapply running_fits; eauto.
Qed.

Lemma fits_new : forall o m rf pf, fits o m rf pf new_evaluator.
Proof. intros. constructor; simpl; intros; try discriminate. auto. Qed.

(** The main lemma: positional requests. *)
Lemma enforce_spec : forall o e rf pf eft mat matcher req,
  oracle_ext o -> ready o e rf pf eft mat -> List.length req = List.length rf ->
  texts_ok (chosen matcher mat) pf (candidates (e_model e) req) ->
  exists ev', EnforceExWithMatcher o matcher (map DStr req) e =
              (set_ev (Some ev') e, enforce_outcome o e rf pf eft mat matcher req)
              /\ fits o (e_model e) rf pf ev'.
Proof.
  intros o e rf pf eft mat matcher req X [D F] L T.
  unfold EnforceExWithMatcher.
  destruct (d_r _ _ _ _ _ D) as [ar [AR1 AR2]]. rewrite AR1, AR2, !map_length.
  rewrite (proj2 (Nat.eqb_eq _ _) L). simpl negb. cbv iota.
  rewrite push_r_ok by apply (d_sym_r _ _ _ _ _ D).
  set (ev0 := with_vars (own_evaluator e) (setall (combine (r_names rf) req) (ev_vars (own_evaluator e)))).
  assert (F0 : fits o (e_model e) rf pf (own_evaluator e)).
  { unfold own_evaluator. destruct (e_ev e); auto. apply fits_new. }
  assert (F1 : fits o (e_model e) rf pf ev0).
  { destruct F0 as [A B C]. constructor; auto. simpl. apply known_setall; auto.
    intros x H. apply in_combine_fst in H. apply known_r; auto. }
  assert (RV : forall x, In x (r_names rf) -> aget x (ev_vars ev0) = aget x (combine (r_names rf) req)).
  { intros x H. simpl. rewrite aget_setall by apply NoDup_combine_fst, r_names_inj, (d_rf _ _ _ _ _ D).
    assert (HA : ahas x (combine (r_names rf) req) = true).
    { apply aget_combine_some; auto. unfold r_names. rewrite map_length. auto. }
    unfold ahas in HA. destruct (aget x (combine (r_names rf) req)); [reflexivity|discriminate]. }
  destruct (m_enforce_spec o e rf pf eft mat matcher req ev0 X D F1 RV L T) as [ev' [E F']].
  rewrite E. exists ev'. auto.
Qed.
