(** Decisions and queries with a role manager of the caller. *)
From Verif Require Import Base P_Base M_Util M_RoleManager M_Effector M_Model M_Persist M_Eval M_Evaluator M_Enforcer M_OwnEvaluator M_OwnQueries
  S_Effect S_Enforce S_OwnQueries P_Effect P_Enforce P_Decide P_Ready P_OwnEvaluator P_Implicit.

(** ** Evaluators that agree on the states that occur *)
Section Agree.
  Context {St : Type}.
  Variables (iv iv' : ievaluator St) (h : heap) (Inv : St -> Prop).
  Definition late {A} (c : ecall A) : bool := match c with CLoadFunctions | CLoadGFunction _ _ _ => false | _ => true end.
  Hypothesis agree : forall A (c : ecall A) st, late c = true -> Inv st -> iv h A c st = iv' h A c st /\ Inv (fst (iv' h A c st)).

  Definition alike {A} (x y : V St A) : Prop := forall st, Inv st -> x st = y st /\ Inv (fst (y st)).
  Lemma alike_lift : forall A (r : res A), alike (vlift r) (vlift r).
  Proof. intros A r st I. split; auto. Qed.
  Lemma alike_bind : forall A B (x y : V St A) (f g : A -> V St B), alike x y -> (forall a, alike (f a) (g a)) -> alike (vbind x f) (vbind y g).
  Proof.
    intros A B x y f g H K st I. destruct (H st I) as [E J]. unfold vbind. rewrite E. destruct (y st) as [s [a|t|u]]; cbn [fst] in *; auto.
    apply K. auto.
  Qed.
  Lemma alike_call : forall A (c : ecall A), late c = true -> alike (iv h A c) (iv' h A c).
  Proof. intros A c L st I. apply agree; auto. Qed.
  Lemma alike_push_p : forall toks vals, alike (push_p_ev iv h toks vals) (push_p_ev iv' h toks vals).
  Proof.
    induction toks as [|t toks IH]; intros [|v vals]; cbn [push_p_ev]; try apply (alike_lift _ (Ok tt)).
    apply alike_bind; [apply alike_call; reflexivity|]. intros _. apply IH.
  Qed.
  Lemma alike_rule : forall he expr toks vals, alike (eval_rule_ev iv h he expr toks vals) (eval_rule_ev iv' h he expr toks vals).
  Proof.
    intros he expr toks vals. unfold eval_rule_ev. destruct (negb _); [apply alike_lift|].
    apply alike_bind; [apply alike_call; reflexivity|intros _]. apply alike_bind; [apply alike_call; reflexivity|intros _].
    apply alike_bind; [apply alike_push_p|intros _]. apply alike_bind; [apply alike_lift|intros text].
    apply alike_bind; [apply alike_call; reflexivity|intros _]. apply alike_bind; [apply alike_call; reflexivity|intros t].
    apply alike_bind.
    - destruct t; try (apply alike_call; reflexivity); (apply alike_bind; [apply alike_call; reflexivity|]); intros []; try apply alike_lift;
        apply alike_call; reflexivity.
    - intros b. apply alike_bind; [apply alike_lift|]. intros eft. apply (alike_lift _ (Ok _)).
  Qed.
  Lemma alike_loop : forall he expr eft toks len todo idx effs ms last,
    alike (rule_loop_ev iv h he expr eft toks len todo idx effs ms last) (rule_loop_ev iv' h he expr eft toks len todo idx effs ms last).
  Proof.
    induction todo as [|v todo IH]; intros; cbn [rule_loop_ev]; [apply alike_lift|].
    apply alike_bind; [apply alike_rule|]. intros r. apply alike_bind; [apply alike_lift|]. intros m.
    destruct (fst m); try apply (alike_lift _ (Ok _)). apply IH.
  Qed.
  Lemma alike_selected : forall m, alike (selected_policies_ev iv h m) (selected_policies_ev iv' h m).
  Proof.
    intros m. unfold selected_policies_ev. apply alike_bind; [apply alike_lift|]. intros p. destruct (a_policy p); [apply (alike_lift _ (Ok _))|].
    apply alike_bind; [apply alike_lift|intros r]. apply alike_bind; [apply alike_call; reflexivity|intros vals].
    apply alike_bind; [apply alike_lift|intros req]. apply (alike_lift _ (Ok _)).
  Qed.
End Agree.

(** ** The managers of the caller as part of the expression library *)
Definition told_by (o : oracle) (ms : managers) (m : model) : oracle :=
  mkOracle (o_compiles o) (fun t v _ => o_value o t v (role_answer ms m)).

Section Reduce.
  Variables (o : oracle) (fl : evaluator -> bool) (ms : managers).

  Lemma told_ext : forall m, oracle_ext o -> oracle_ext (told_by o ms m).
  Proof. intros m [X Y]. split; [exact X|]. intros t v1 v2 g1 g2 H _. apply Y; auto. Qed.
  Lemma told_fits : forall m m' rf pf ev, fits o m' rf pf ev <-> fits (told_by o ms m) m' rf pf ev.
  Proof. intros m m' rf pf ev. split; intros [A B C]; constructor; auto. Qed.
  Lemma told_ready : forall m e rf pf eft mat, ready o e rf pf eft mat <-> ready (told_by o ms m) e rf pf eft mat.
  Proof. intros m e rf pf eft mat. unfold ready. destruct (e_ev e) as [ev|]; [rewrite (told_fits m)|]; reflexivity. Qed.
  Lemma told_verdict : forall m h rf pf expr req r, verdict (told_by o ms m) m h rf pf expr req r = own_verdict o ms m rf pf expr req r.
  Proof. reflexivity. Qed.

  Lemma own_funs_current : forall m rf pf eft mat ev, declares m rf pf eft mat -> funs_current m ev ->
    forall f args, own_funs ms ev f args = role_answer ms m f args.
  Proof.
    intros m rf pf eft mat ev D C f args. unfold own_funs, role_answer. rewrite C. destruct (inb f builtin_names) eqn:I.
    - apply inb_true in I. rewrite (d_g _ _ _ _ _ D) by auto. reflexivity.
    - destruct (aget f (sec_of m "g")) as [a|]; auto. unfold own_call_g. destruct (a_rm a); destruct args as [|x [|y [|d [|z args]]]]; reflexivity.
  Qed.

  Lemma own_agree : forall m rf pf eft mat h, oracle_ext o -> declares m rf pf eft mat ->
    forall A (c : ecall A) ev, late c = true -> funs_current m ev ->
    own_exprtk ms o fl h A c ev = exprtk (told_by o ms m) fl h A c ev /\ funs_current m (fst (exprtk (told_by o ms m) fl h A c ev)).
  Proof.
    intros m rf pf eft mat h X D A c ev L C.
    assert (VE : own_value ms o ev = value (told_by o ms m) h ev).
    { unfold own_value, value. destruct (ev_prog ev) as [p|]; auto. simpl. apply (proj2 X); auto. eapply own_funs_current; eauto. }
    assert (CE : own_checked ms o ev = checked_value (told_by o ms m) h ev) by (unfold own_checked, checked_value; rewrite VE; auto).
    destruct c; try discriminate; cbn [own_exprtk exprtk]; try rewrite VE; try rewrite CE; auto.
    - split; auto. unfold PushObjectString. destruct (valid_symbol _); auto.
    - split; [reflexivity|]. cbn [fst]. unfold Eval. destruct (String.eqb _ _); auto.
  Qed.

  Lemma own_load : forall h g ev, load_g_ev (own_exprtk ms o fl) h g ev =
    (fold_left (fun ev kv => LoadGFunction ev (a_rm (snd kv)) (fst kv) (scount "_" (a_value (snd kv)))) g ev, Ok tt).
  Proof. induction g as [|[n a] g IH]; intros ev; cbn [load_g_ev fold_left]; auto. apply IH. Qed.
  Lemma own_push_r : forall h toks ps ev o', push_r_ev (own_exprtk ms o fl) h toks ps ev = push_r_ev (exprtk o' fl) h toks ps ev.
  Proof.
    induction toks as [|t toks IH]; intros [|[v|v] ps] ev o'; cbn [push_r_ev]; auto; unfold vbind; cbn [own_exprtk exprtk]; auto.
  Qed.

  Lemma own_m_enforce : forall e rf pf eft mat ev matcher, oracle_ext o -> declares (e_model e) rf pf eft mat ->
    fits o (e_model e) rf pf ev ->
    m_enforce_ev (own_exprtk ms o fl) e matcher ev = m_enforce_ev (exprtk (told_by o ms (e_model e)) fl) e matcher ev.
  Proof.
    intros e rf pf eft mat ev matcher X D F. unfold m_enforce_ev. destruct (negb (e_enabled e)); [reflexivity|]. cbv zeta.
    rewrite (vbind_ok _ _ _ (own_exprtk ms o fl (e_heap e) unit CClearList) _ ev ev tt eq_refl).
    rewrite (vbind_ok _ _ _ (own_exprtk ms o fl (e_heap e) unit CLoadFunctions) _ ev (LoadFunctions ev) tt eq_refl).
    rewrite (vbind_ok _ _ _ (load_g_ev (own_exprtk ms o fl) (e_heap e) (sec_of (e_model e) "g")) _ _ _ tt (own_load _ _ _)).
    rewrite (vbind_ok _ _ _ (exprtk (told_by o ms (e_model e)) fl (e_heap e) unit CClearList) _ ev ev tt eq_refl).
    rewrite (vbind_ok _ _ _ (exprtk (told_by o ms (e_model e)) fl (e_heap e) unit CLoadFunctions) _ ev (LoadFunctions ev) tt eq_refl).
    rewrite (vbind_ok _ _ _ (load_g_ev (exprtk (told_by o ms (e_model e)) fl) (e_heap e) (sec_of (e_model e) "g")) _ _ _ tt (exprtk_g _ _ _ _ _)).
    fold (load_g_functions (e_model e) (LoadFunctions ev)). fold (prepared (e_model e) ev).
    pose proof (prepared_funs o (e_model e) rf pf eft mat ev D F) as PF. set (ev1 := prepared (e_model e) ev) in *. clearbody ev1.
    pose proof (own_agree (e_model e) rf pf eft mat (e_heap e) X D) as AG.
    revert ev1 PF. match goal with |- forall ev1, _ -> ?x ev1 = ?y ev1 => cut (alike (funs_current (e_model e)) x y) end.
    { intros H ev1 PF. apply H. auto. }
    apply alike_bind; [apply alike_lift|intros expr]. apply alike_bind; [apply alike_lift|intros r].
    apply alike_bind; [apply alike_lift|intros p]. apply alike_bind; [apply alike_selected; exact AG|intros [|r0 rules]].
    - destruct (HasEval expr); [apply alike_lift|].
      apply alike_bind; [apply alike_call; auto|intros _]. apply alike_bind; [apply alike_call; auto|intros _].
      apply alike_bind; [apply alike_push_p; auto|intros _]. apply alike_bind; [apply alike_call; auto|intros valid].
      destruct (negb valid); [apply (alike_lift _ _ (Ok _))|]. apply alike_bind; [apply alike_call; auto|intros b].
      apply alike_bind; [apply alike_lift|intros ea]. apply alike_bind; [apply alike_lift|intros d]. apply (alike_lift _ _ (Ok _)).
    - apply alike_bind; [apply alike_lift|intros ea]. apply alike_bind; [apply alike_loop; auto|intros d]. apply (alike_lift _ _ (Ok _)).
  Qed.

  Lemma own_enforce : forall e rf pf eft mat matcher req, oracle_ext o -> ready o e rf pf eft mat ->
    own_EnforceExWithMatcher ms o fl matcher (map OStr req) e = EnforceExWithMatcher (told_by o ms (e_model e)) matcher (map DStr req) e.
  Proof.
    intros e rf pf eft mat matcher req X [D F]. replace (map DStr req) with (map plain (map OStr req)) by (rewrite map_map; reflexivity).
    rewrite (exprtk_enforce (told_by o ms (e_model e)) fl). unfold own_EnforceExWithMatcher.
    destruct (d_r _ _ _ _ _ D) as [ar [AR1 AR2]]. rewrite AR1. rewrite AR2, !map_length.
    destruct (Nat.eqb (List.length req) (List.length rf)) eqn:L; cbn [negb]; [|reflexivity].
    set (ev0 := with_vars (own_evaluator e) (setall (combine (r_names rf) req) (ev_vars (own_evaluator e)))).
    assert (F1 : fits o (e_model e) rf pf ev0).
    { assert (F0 : fits o (e_model e) rf pf (own_evaluator e)) by (unfold own_evaluator; destruct (e_ev e); auto; apply fits_new).
      destruct F0 as [A B C]. constructor; auto. simpl. apply known_setall; auto.
      intros x H. apply in_combine_fst in H. apply known_r; auto. }
    assert (P2 : push_r_ev (exprtk (told_by o ms (e_model e)) fl) (e_heap e) (map (fun f => ("r_" ++ f)%string) rf) (map OStr req) (own_evaluator e) = (ev0, Ok tt)).
    { rewrite exprtk_push_r, map_map. apply push_r_ok. apply (d_sym_r _ _ _ _ _ D). }
    assert (P1 : push_r_ev (own_exprtk ms o fl) (e_heap e) (map (fun f => ("r_" ++ f)%string) rf) (map OStr req) (own_evaluator e) = (ev0, Ok tt)).
    { rewrite (own_push_r _ _ _ _ (told_by o ms (e_model e))). exact P2. }
    assert (Q : forall iv : ievaluator evaluator,
      iv (e_heap e) unit (CInitialObject "r") (own_evaluator e) = (own_evaluator e, Ok tt) ->
      push_r_ev iv (e_heap e) (map (fun f => ("r_" ++ f)%string) rf) (map OStr req) (own_evaluator e) = (ev0, Ok tt) ->
      EnforceExWithMatcher_ev iv e matcher (map OStr req) (own_evaluator e) = m_enforce_ev iv e matcher ev0).
    { intros iv I P. unfold EnforceExWithMatcher_ev. unfold vbind at 1, vlift. rewrite AR1, AR2, !map_length, L. cbn [negb].
      rewrite (vbind_ok _ _ _ _ _ _ _ _ I). rewrite (vbind_ok _ _ _ _ _ _ _ _ P). reflexivity. }
    rewrite (Q _ eq_refl P1), (Q _ eq_refl P2). rewrite (own_m_enforce e rf pf eft mat _ matcher X D F1). reflexivity.
  Qed.
End Reduce.

(** ** The default managers *)
Lemma default_call : forall h rm args, own_call_g (default_answers h) rm args = call_g h rm args.
Proof.
  intros h rm args. unfold own_call_g, call_g. destruct args as [|x [|y [|d [|z args]]]]; auto; destruct rm; auto.
Qed.
Lemma default_value : forall o h ev, oracle_ext o -> own_value (default_answers h) o ev = value o h ev.
Proof. reflexivity. Qed.
Lemma default_exprtk : forall o fl h, oracle_ext o -> forall A (c : ecall A) ev,
  own_exprtk (default_answers h) o fl h A c ev = exprtk o fl h A c ev.
Proof.
  intros o fl h X A c ev. destruct c; cbn [own_exprtk exprtk]; auto; unfold own_checked, checked_value; rewrite ?default_value by auto; reflexivity.
Qed.
Lemma alike_true : forall St A (x y : V St A), alike (fun _ => True) x y <-> forall st, x st = y st.
Proof. intros. unfold alike. split; [intros H st; apply H; auto|intros H st _; auto]. Qed.

Section Default.
  Variables (o : oracle) (fl : evaluator -> bool) (e : enforcer).
  Hypothesis X : oracle_ext o.
  Let iv := own_exprtk (default_answers (e_heap e)) o fl.
  Let iv' := exprtk o fl.
  Lemma default_agree : forall A (c : ecall A) st, late c = true -> True -> iv (e_heap e) A c st = iv' (e_heap e) A c st /\ True.
  Proof. intros. split; [apply default_exprtk; auto|auto]. Qed.
  Lemma default_load : forall g, alike (fun _ => True) (load_g_ev iv (e_heap e) g) (load_g_ev iv' (e_heap e) g).
  Proof.
    intros g. apply alike_true. intros st. unfold iv, iv'. rewrite own_load, exprtk_g. reflexivity.
  Qed.
  Lemma default_m_enforce : forall matcher ev, m_enforce_ev iv e matcher ev = m_enforce_ev iv' e matcher ev.
  Proof.
    intros matcher. apply alike_true. pose proof default_agree as AG. unfold m_enforce_ev. destruct (negb (e_enabled e)); [apply (alike_lift _ _ (Ok _))|].
    cbv zeta. apply alike_bind; [apply alike_call; auto|intros _]. apply alike_bind; [apply alike_true; intros; apply default_exprtk; auto|intros _].
    apply alike_bind; [apply default_load|intros _].
    apply alike_bind; [apply alike_lift|intros expr]. apply alike_bind; [apply alike_lift|intros r].
    apply alike_bind; [apply alike_lift|intros p]. apply alike_bind; [apply alike_selected; exact AG|intros [|r0 rules]].
    - destruct (HasEval expr); [apply alike_lift|].
      apply alike_bind; [apply alike_call; auto|intros _]. apply alike_bind; [apply alike_call; auto|intros _].
      apply alike_bind; [apply alike_push_p; auto|intros _]. apply alike_bind; [apply alike_call; auto|intros valid].
      destruct (negb valid); [apply (alike_lift _ _ (Ok _))|]. apply alike_bind; [apply alike_call; auto|intros b].
      apply alike_bind; [apply alike_lift|intros ea]. apply alike_bind; [apply alike_lift|intros d]. apply (alike_lift _ _ (Ok _)).
    - apply alike_bind; [apply alike_lift|intros ea]. apply alike_bind; [apply alike_loop; auto|intros d]. apply (alike_lift _ _ (Ok _)).
  Qed.
  Lemma default_enforce : forall matcher params,
    own_EnforceExWithMatcher (default_answers (e_heap e)) o fl matcher params e = EnforceExWithMatcher o matcher (map plain params) e.
  Proof.
    intros matcher params. rewrite (exprtk_enforce o fl). unfold own_EnforceExWithMatcher.
    destruct (get_ast (e_model e) "r" "r") as [r|t|u] eqn:G; [|reflexivity|reflexivity].
    destruct (Nat.eqb _ _) eqn:L; cbn [negb]; [|reflexivity].
    assert (Q : forall ev, EnforceExWithMatcher_ev iv e matcher params ev = EnforceExWithMatcher_ev iv' e matcher params ev).
    { intros ev. unfold EnforceExWithMatcher_ev. apply vbind_ext; [reflexivity|]. intros r0 s. destruct (negb _); [reflexivity|].
      apply vbind_ext; [reflexivity|]. intros _ s1. apply vbind_ext; [apply own_push_r|]. intros _ s2. apply default_m_enforce. }
    unfold iv, iv' in Q. rewrite Q. reflexivity.
  Qed.
End Default.

(** ** The work list of GetImplicitRolesForUser *)
Section Worklist.
  Variables (mg : answers) (domain : list string) (u : string).

  Record sound (q seen acc : list string) : Prop := mkSound {
    w_seen : seen = rev acc ++ [u];
    w_nodup : NoDup seen;
    w_queue : forall x, In x q -> In x seen;
    w_reach : forall x, In x acc -> reaches_role mg domain u x;
    w_closed : forall x, In x seen -> ~ In x q -> exists l, q_GetRoles mg x domain = Ok l /\ forall y, In y l -> In y seen }.

  Lemma sound_start : sound [u] [u] [].
  Proof.
    constructor; simpl; auto; try tauto. repeat constructor. simpl. tauto.
  Qed.
  Lemma sound_step : forall name q seen acc roles, sound (name :: q) seen acc -> q_GetRoles mg name domain = Ok roles ->
    sound (q ++ new_roles seen roles) (rev (new_roles seen roles) ++ seen) (acc ++ new_roles seen roles).
  Proof.
    intros name q seen acc roles [A B C D E] G. destruct (new_roles_spec roles seen) as [ND IN]. set (fresh := new_roles seen roles) in *.
    constructor.
    - rewrite A, rev_app_distr, app_assoc. reflexivity.
    - apply NoDup_app_iff. split; [apply NoDup_rev; auto|]. split; auto. intros x I. apply in_rev in I. apply IN in I. tauto.
    - intros x I. rewrite in_app_iff, <- in_rev. apply in_app_iff in I. destruct I as [I|I]; auto. right. apply C. right. auto.
    - intros x I. apply in_app_iff in I. destruct I as [I|I]; auto. apply IN in I. destruct I as [I _].
      assert (S : In name seen) by (apply C; left; auto). rewrite A, in_app_iff, <- in_rev in S. destruct S as [S|[<-|[]]].
      + eapply reaches_more; eauto.
      + eapply reaches_one; eauto.
    - intros x I N. rewrite in_app_iff in N. rewrite in_app_iff, <- in_rev in I. destruct I as [I|I]; [tauto|].
      destruct (string_dec x name) as [->|NE].
      + exists roles. split; auto. intros y J. rewrite in_app_iff, <- in_rev. destruct (in_dec string_dec y seen) as [K|K]; auto.
        left. apply IN. auto.
      + destruct (E x I) as [l [GL SL]]. { intros [->|J]; tauto. } exists l. split; auto. intros y J. apply in_app_iff. right. auto.
  Qed.
  Lemma sound_end : forall seen acc, sound [] seen acc -> NoDup acc /\ forall x, In x acc <-> x <> u /\ reaches_role mg domain u x.
  Proof.
    intros seen acc [A B C D E].
    assert (NA : NoDup acc /\ ~ In u acc).
    { rewrite A in B. apply NoDup_app_iff in B. destruct B as [B [_ K]]. split.
      - apply NoDup_rev in B. rewrite rev_involutive in B. auto.
      - intros I. apply (K u); simpl; auto. apply in_rev. rewrite rev_involutive. auto. }
    split; [apply NA|]. intros x. split.
    - intros I. split; auto. intros ->. tauto.
    - intros [NE R].
      assert (K : forall y, reaches_role mg domain u y -> In y seen).
      { intros y H. induction H as [b l G I|b c l H IH G I].
        - destruct (E u) as [l' [G' S]]; [rewrite A; apply in_app_iff; simpl; auto|simpl; tauto|]. rewrite G in G'. inversion G'; subst. auto.
        - destruct (E b IH) as [l' [G' S]]; [simpl; tauto|]. rewrite G in G'. inversion G'; subst. auto. }
      apply K in R. rewrite A, in_app_iff, <- in_rev in R. destruct R as [R|[->|[]]]; auto. congruence.
  Qed.

  Lemma loop_ok : forall steps q seen acc l, sound q seen acc -> own_implicit_loop steps mg domain q seen acc = Some (Ok l) ->
    NoDup l /\ (forall x, In x l <-> x <> u /\ reaches_role mg domain u x) /\
    (forall x, x = u \/ reaches_role mg domain u x -> exists rs, q_GetRoles mg x domain = Ok rs).
  Proof.
    induction steps as [|n IH]; intros [|name q] seen acc l S H; cbn [own_implicit_loop] in H.
    1, 3: inversion H; subst; destruct (sound_end _ _ S) as [N I]; split; auto; split; auto; intros x K;
      destruct (w_closed _ _ _ S x) as [rs [G _]]; eauto; rewrite (w_seen _ _ _ S), in_app_iff, <- in_rev; destruct (string_dec x u) as [->|D]; simpl; auto;
      left; apply I; tauto.
    - discriminate.
    - destruct (q_GetRoles mg name domain) as [roles|t|w] eqn:G; try discriminate. eapply IH; [|exact H]. eapply sound_step; eauto.
  Qed.
  Lemma queued : forall name q seen acc, sound (name :: q) seen acc -> name = u \/ reaches_role mg domain u name.
  Proof.
    intros name q seen acc S. assert (I : In name seen) by (apply (w_queue _ _ _ S); left; auto).
    rewrite (w_seen _ _ _ S), in_app_iff, <- in_rev in I. destruct I as [I|[<-|[]]]; auto. right. apply (w_reach _ _ _ S). auto.
  Qed.
  Lemma loop_throw : forall steps q seen acc t, sound q seen acc -> own_implicit_loop steps mg domain q seen acc = Some (Throw t) ->
    exists x, (x = u \/ reaches_role mg domain u x) /\ q_GetRoles mg x domain = Throw t.
  Proof.
    induction steps as [|n IH]; intros [|name q] seen acc t S H; cbn [own_implicit_loop] in H; try discriminate.
    destruct (q_GetRoles mg name domain) as [roles|t'|w] eqn:G; try discriminate.
    - eapply IH; [|exact H]. eapply sound_step; eauto.
    - inversion H; subst. exists name. split; auto. eapply queued; eauto.
  Qed.
  Lemma loop_ub : forall steps q seen acc w, sound q seen acc -> own_implicit_loop steps mg domain q seen acc = Some (UB w) ->
    exists x, (x = u \/ reaches_role mg domain u x) /\ q_GetRoles mg x domain = UB w.
  Proof.
    induction steps as [|n IH]; intros [|name q] seen acc t S H; cbn [own_implicit_loop] in H; try discriminate.
    destruct (q_GetRoles mg name domain) as [roles|t'|w] eqn:G; try discriminate.
    - eapply IH; [|exact H]. eapply sound_step; eauto.
    - inversion H; subst. exists name. split; auto. eapply queued; eauto.
  Qed.

  (** It ends when finitely many names can be reached. *)
  Lemma loop_ends : forall U, (forall x, reaches_role mg domain u x -> In x U) ->
    forall steps q seen acc, sound q seen acc -> List.length q + List.length U + 1 <= steps + List.length seen ->
    exists r, own_implicit_loop steps mg domain q seen acc = Some r.
  Proof.
    intros U FIN. induction steps as [|n IH]; intros [|name q] seen acc S L; cbn [own_implicit_loop]; eauto.
    - exfalso. assert (LE : List.length seen <= List.length (u :: U)).
      { apply NoDup_incl_length; [apply (w_nodup _ _ _ S)|]. intros x I. rewrite (w_seen _ _ _ S), in_app_iff, <- in_rev in I.
        destruct I as [I|[<-|[]]]; [right; apply FIN, (w_reach _ _ _ S); auto|left; auto]. }
      simpl in *. lia.
    - destruct (q_GetRoles mg name domain) as [roles|t'|w] eqn:G; eauto. apply IH; [eapply sound_step; eauto|].
      rewrite !app_length, rev_length. simpl in L. lia.
  Qed.
End Worklist.
