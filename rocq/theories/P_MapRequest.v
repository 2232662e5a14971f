(** Proofs for property C87. *)
From Coq Require Import Permutation.
From Verif Require Import Base P_Base M_Util M_RoleManager M_Effector M_Model M_Persist M_Eval M_Evaluator M_Enforcer
  S_Effect S_Enforce S_MapRequest P_Effect P_Enforce P_Decide.

(** The values of the request stay in the evaluator. *)
Lemma m_enforce_keeps : forall o e rf pf eft mat matcher req ev,
  oracle_ext o -> declares (e_model e) rf pf eft mat ->
  fits o (e_model e) rf pf ev ->
  (forall x, In x (r_names rf) -> aget x (ev_vars ev) = aget x (combine (r_names rf) req)) ->
  List.length req = List.length rf ->
  texts_ok (chosen matcher mat) pf (candidates (e_model e) req) ->
  forall x, In x (r_names rf) -> aget x (ev_vars (fst (m_enforce o e ev matcher))) = aget x (combine (r_names rf) req).
Proof.
  intros o e rf pf eft mat matcher req ev X D F RV L [TE TR] y Y.
  unfold m_enforce. destruct (e_enabled e); simpl negb.
  2:{ cbn [fst]. auto. }
  cbv iota. fold (prepared (e_model e) ev).
  pose proof (prepared_funs o (e_model e) rf pf eft mat ev D F) as PF.
  destruct (prepared_frame (e_model e) ev) as [PV [PE [PB PP]]].
  set (ev1 := prepared (e_model e) ev) in *. cbv zeta.
  assert (R : running o (e_model e) rf pf req ev1).
  { constructor.
    - rewrite PV. apply (f_vars _ _ _ _ _ F).
    - rewrite PV. exact RV.
    - exact PF.
    - rewrite PE, PB, PP. apply (f_prog _ _ _ _ _ F). }
  clearbody ev1. clear PV PE PB PP F RV ev PF.
  destruct (d_m _ _ _ _ _ D) as [am [AM1 AM2]].
  destruct (d_r _ _ _ _ _ D) as [ar [AR1 AR2]].
  destruct (d_p _ _ _ _ _ D) as [ap [AP1 AP2]].
  destruct (d_e _ _ _ _ _ D) as [ae [AE1 AE2]].
  assert (EX : (if String.eqb matcher "" then let! a := get_ast (e_model e) "m" "m" in Ok (a_value a) else Ok matcher)
               = Ok (chosen matcher mat)).
  { unfold chosen. rewrite AM1. simpl. rewrite AM2. destruct (String.eqb matcher ""); reflexivity. }
  rewrite EX, AR1, AP1, AE1. cbn [bind].
  rewrite (selected_spec o (e_model e) rf pf eft mat req ev1 D R L). cbn [bind]. rewrite AP2, AE2.
  set (expr := chosen matcher mat) in *.
  destruct (candidates (e_model e) req) as [|r0 rules] eqn:CN.
  - destruct (HasEval expr) eqn:HE.
    + apply (ru_req _ _ _ _ _ _ R); auto.
    + assert (PN : map (fun _ : string => "") (map (fun f : string => ("p_" ++ f)%string) pf) = map (fun _ => "") pf).
      { rewrite map_map. reflexivity. }
      rewrite PN. rewrite push_p_ok by apply (d_sym_p _ _ _ _ _ D).
      fold (pushed ev1 pf (map (fun _ => "") pf)).
      destruct (eval_text o (e_model e) rf pf eft mat req ev1 (map (fun _ => "") pf) expr (e_heap e) X D R L)
        as [R2 [EV [_ VV]]]; auto.
      { rewrite map_length. reflexivity. }
      destruct (Eval o (pushed ev1 pf (map (fun _ => "") pf)) expr) as [ev3 b]. cbn [fst snd] in *. subst b.
      pose proof (ru_req _ _ _ _ _ _ R2 y Y) as Z.
      destruct (o_compiles o expr (known_vars rf pf) (role_arity (e_model e))); simpl negb; cbv iota; auto.
      rewrite VV by auto.
      destruct (o_value o expr (env rf req pf (map (fun _ => "") pf)) (role_fun (e_model e) (e_heap e))); auto.
  - destruct (rule_loop_spec o (e_model e) rf pf eft mat req expr (e_heap e) X D L (r0 :: rules) 0
                (List.length (r0 :: rules)) (repeat Indeterminate (List.length (r0 :: rules)))
                (repeat false (List.length (r0 :: rules))) (UB Uninitialised) ev1 R TR) as [ev' [E R']].
    rewrite E. apply (ru_req _ _ _ _ _ _ R'); auto.
Qed.

(** Pushing a map. *)
Fixpoint given_list (ps : list (string * data)) : list (string * string) :=
  match ps with
  | [] => []
  | (n, DStr v) :: t => (("r." ++ n)%string, v) :: given_list t
  | (_, DJson) :: t => given_list t
  end.

Lemma push_map_ok : forall rf ps ev,
  (forall f, In f rf -> valid_symbol ("r." ++ f)%string = true) ->
  (forall f, In f (map fst ps) -> In f rf) ->
  push_map ev ps = (with_vars ev (setall (given_list ps) (ev_vars ev)), Ok tt).
Proof.
  intros rf. induction ps as [|[n d] ps IH]; intros ev V S.
  - simpl. destruct ev; reflexivity.
  - destruct d as [v|].
    + cbn [push_map given_list setall]. unfold PushObjectString. change ("r" ++ "." ++ n)%string with ("r." ++ n)%string.
      rewrite V by (apply S; left; reflexivity). rewrite IH; auto. intros f I. apply S. right; auto.
    + cbn [push_map given_list]. apply IH; auto. intros f I. apply S. right; auto.
Qed.

Lemma given_list_in : forall ps x, In x (map fst (given_list ps)) -> exists f, x = ("r." ++ f)%string /\ In f (map fst ps).
Proof.
  induction ps as [|[n d] ps IH]; cbn [given_list map fst]; intros x I; [destruct I|].
  destruct d as [v|].
  - destruct I as [<-|I].
    + exists n. split; auto. left; auto.
    + destruct (IH x I) as [f [-> J]]. exists f. split; auto. right; auto.
  - destruct (IH x I) as [f [-> J]]. exists f. split; auto. right; auto.
Qed.

Lemma r_dot_inj : forall a b, ("r." ++ a)%string = ("r." ++ b)%string -> a = b.
Proof. intros a b E. inversion E. auto. Qed.

Lemma given_list_NoDup : forall ps, NoDup (map fst ps) -> NoDup (map fst (given_list ps)).
Proof.
  induction ps as [|[n d] ps IH]; cbn [given_list map fst]; intros N; [constructor|].
  inversion N as [|? ? A B]; subst. destruct d as [v|]; auto.
  cbn [map fst]. constructor; auto. intro I. apply given_list_in in I. destruct I as [f [E I]].
  apply r_dot_inj in E. subst. auto.
Qed.

Lemma given_list_get : forall ps f, NoDup (map fst ps) -> aget ("r." ++ f)%string (given_list ps) = given ps f.
Proof.
  unfold given. induction ps as [|[n d] ps IH]; intros f N; auto.
  inversion N as [|? ? A B]; subst. cbn [given_list aget].
  destruct (String.eqb f n) eqn:E.
  - apply String.eqb_eq in E. subst. destruct d as [v|].
    + cbn [aget]. rewrite String.eqb_refl. auto.
    + rewrite (proj2 (aget_None _ _)); auto. intro I. apply given_list_in in I. destruct I as [g [Q I]].
      apply r_dot_inj in Q. subst. auto.
  - destruct d as [v|].
    + cbn [aget]. replace (String.eqb ("r." ++ f)%string ("r." ++ n)%string) with false; auto.
    + apply IH; auto.
Qed.

(** What the evaluator holds for the declared fields. *)
Definition holds_request (rf req : list string) (e : enforcer) : Prop :=
  exists ev, e_ev e = Some ev /\
    forall x, In x (r_names rf) -> aget x (ev_vars ev) = aget x (combine (r_names rf) req).

Lemma get_field : forall (rf req : list string) f v, NoDup rf -> In (f, v) (combine rf req) ->
  aget ("r." ++ f)%string (combine (r_names rf) req) = Some v.
Proof.
  induction rf as [|g rf IH]; intros req f v N I; [destruct I|].
  destruct req as [|w req]; [destruct I|]. inversion N as [|? ? A B]; subst.
  cbn [r_names map combine aget]. cbn [combine] in I. destruct I as [I|I].
  - inversion I; subst. rewrite String.eqb_refl. auto.
  - replace (String.eqb ("r." ++ f)%string ("r." ++ g)%string) with false; [apply IH; auto|].
    symmetry. apply String.eqb_neq. intro Q. apply r_dot_inj in Q. subst. apply A.
    apply in_combine_l in I. auto.
Qed.

Lemma In_combine_ex : forall (rf req : list string) f, List.length req = List.length rf -> In f rf -> exists v, In (f, v) (combine rf req).
Proof.
  induction rf as [|g rf IH]; intros req f L I; [destruct I|]. destruct req as [|w req]; [discriminate|].
  destruct I as [->|I]; [exists w; left; auto|]. destruct (IH req f) as [v J]; auto. exists v. right; auto.
Qed.

(** The lemma for maps: the request values after the push are [req]. *)
Lemma map_spec : forall o e rf pf eft mat matcher ps req,
  oracle_ext o -> ready o e rf pf eft mat -> names_fields rf ps -> List.length req = List.length rf ->
  (forall f v, In (f, v) (combine rf req) ->
     given ps f = Some v \/ given ps f = None /\ exists ev, e_ev e = Some ev /\ aget ("r." ++ f)%string (ev_vars ev) = Some v) ->
  texts_ok (chosen matcher mat) pf (candidates (e_model e) req) ->
  exists ev', EnforceExWithMatcherMap o matcher ps e = (set_ev (Some ev') e, enforce_outcome o e rf pf eft mat matcher req)
              /\ fits o (e_model e) rf pf ev' /\ holds_request rf req (set_ev (Some ev') e).
Proof.
  intros o e rf pf eft mat matcher ps req X [D F] [ND NF] L G T.
  unfold EnforceExWithMatcherMap. rewrite (push_map_ok rf) by (auto; apply (d_sym_r _ _ _ _ _ D)).
  set (ev0 := with_vars (own_evaluator e) (setall (given_list ps) (ev_vars (own_evaluator e)))).
  assert (F0 : fits o (e_model e) rf pf (own_evaluator e)).
  { unfold own_evaluator. destruct (e_ev e); auto. apply fits_new. }
  assert (F1 : fits o (e_model e) rf pf ev0).
  { destruct F0 as [A B C]. constructor; auto. simpl. apply known_setall; auto.
    intros x H. apply given_list_in in H. destruct H as [f [-> H]]. apply known_r. apply in_map_iff. exists f. auto. }
  assert (RV : forall x, In x (r_names rf) -> aget x (ev_vars ev0) = aget x (combine (r_names rf) req)).
  { intros x H. apply in_map_iff in H. destruct H as [f [<- H]].
    destruct (In_combine_ex rf req f L H) as [v IV]. rewrite (get_field rf req f v (d_rf _ _ _ _ _ D) IV).
    unfold ev0, with_vars. cbn [ev_vars]. rewrite aget_setall by (apply given_list_NoDup; auto).
    rewrite given_list_get by auto. destruct (G f v IV) as [->|[-> [ev [E1 E2]]]]; auto.
    unfold own_evaluator. rewrite E1. auto. }
  destruct (m_enforce_spec o e rf pf eft mat matcher req ev0 X D F1 RV L T) as [ev' [E F']].
  pose proof (m_enforce_keeps o e rf pf eft mat matcher req ev0 X D F1 RV L T) as K. rewrite E in K. cbn [fst] in K.
  rewrite E. exists ev'. split; auto. split; auto. exists ev'. split; auto.
Qed.

Lemma position_spec : forall o e rf pf eft mat matcher req,
  oracle_ext o -> ready o e rf pf eft mat -> List.length req = List.length rf ->
  texts_ok (chosen matcher mat) pf (candidates (e_model e) req) ->
  exists ev', EnforceExWithMatcher o matcher (map DStr req) e =
              (set_ev (Some ev') e, enforce_outcome o e rf pf eft mat matcher req)
              /\ fits o (e_model e) rf pf ev' /\ holds_request rf req (set_ev (Some ev') e).
Proof.
  intros o e rf pf eft mat matcher req X [D F] L T.
  unfold EnforceExWithMatcher.
  destruct (d_r _ _ _ _ _ D) as [ar [AR1 AR2]]. rewrite AR1, AR2, !map_length.
  rewrite (proj2 (Nat.eqb_eq _ _) L). simpl negb. cbv iota.
  rewrite push_r_ok by apply (d_sym_r _ _ _ _ _ D).
  set (ev0 := with_vars (own_evaluator e) (setall (combine (r_names rf) req) (ev_vars (own_evaluator e)))).
  assert (F0 : fits o (e_model e) rf pf (own_evaluator e)).
  { unfold own_evaluator. destruct (e_ev e); auto. apply fits_new. }
  assert (F1 : fits o (e_model e) rf pf ev0).
  { destruct F0 as [A B C]. constructor; auto. simpl. apply known_setall; auto.
    intros x H. apply in_combine_fst in H. apply known_r; auto. }
  assert (RV : forall x, In x (r_names rf) -> aget x (ev_vars ev0) = aget x (combine (r_names rf) req)).
  { intros x H. simpl. rewrite aget_setall by apply NoDup_combine_fst, r_names_inj, (d_rf _ _ _ _ _ D).
    assert (HA : ahas x (combine (r_names rf) req) = true).
    { apply aget_combine_some; auto. unfold r_names. rewrite map_length. auto. }
    unfold ahas in HA. destruct (aget x (combine (r_names rf) req)); [reflexivity|discriminate]. }
  destruct (m_enforce_spec o e rf pf eft mat matcher req ev0 X D F1 RV L T) as [ev' [E F']].
  pose proof (m_enforce_keeps o e rf pf eft mat matcher req ev0 X D F1 RV L T) as K. rewrite E in K. cbn [fst] in K.
  rewrite E. exists ev'. split; auto. split; auto. exists ev'. split; auto.
Qed.

Lemma ready_ev : forall o e rf pf eft mat ev, ready o e rf pf eft mat -> fits o (e_model e) rf pf ev ->
  ready o (set_ev (Some ev) e) rf pf eft mat.
Proof. intros o e rf pf eft mat ev [D _] F. split; auto. Qed.

(** The values of a completed map. *)
Lemma Forall2_len : forall A B (P : A -> B -> Prop) a b, Forall2 P a b -> List.length a = List.length b.
Proof. induction 1; simpl; auto. Qed.

Lemma completes_length : forall rf req ps req', completes rf req ps req' -> List.length req' = List.length rf.
Proof. intros rf req ps req' [L F]. apply Forall2_len in F. rewrite combine_length in F. lia. Qed.

Lemma combine_last : forall (rf req req' : list string) (P : string * string -> string -> Prop) f w,
  List.length req = List.length rf -> Forall2 P (combine rf req) req' -> In (f, w) (combine rf req') ->
  exists v, In (f, v) (combine rf req) /\ P (f, v) w.
Proof.
  induction rf as [|g rf IH]; intros req req' P f w L F I; [destruct I|].
  destruct req as [|v req]; [discriminate|]. cbn [combine] in F. inversion F as [|? w' ? req1 A B]; subst.
  cbn [combine] in I. destruct I as [I|I].
  - inversion I; subst. exists v. split; auto. left; auto.
  - destruct (IH req req1 P f w) as [u [U1 U2]]; auto. exists u. split; auto. right; auto.
Qed.

Lemma holds_field : forall rf req e f v, NoDup rf -> holds_request rf req e -> In (f, v) (combine rf req) ->
  exists ev, e_ev e = Some ev /\ aget ("r." ++ f)%string (ev_vars ev) = Some v.
Proof.
  intros rf req e f v N [ev [E H]] I. exists ev. split; auto. rewrite H.
  - apply get_field; auto.
  - apply in_map_iff. exists f. split; auto. apply in_combine_l in I. auto.
Qed.

Lemma texts_candidates : forall expr pf m req, texts_ok expr pf (p_rules m) -> texts_ok expr pf (candidates m req).
Proof. intros expr pf m req [A B]. split; auto. intros r I. apply B. apply candidates_stored in I. auto. Qed.

Lemma ask_by_name : forall o e rf pf eft mat matcher ps req req',
  oracle_ext o -> ready o e rf pf eft mat -> names_fields rf ps -> holds_request rf req e -> completes rf req ps req' ->
  texts_ok (chosen matcher mat) pf (p_rules (e_model e)) ->
  exists ev', EnforceExWithMatcherMap o matcher ps e = (set_ev (Some ev') e, enforce_outcome o e rf pf eft mat matcher req')
              /\ fits o (e_model e) rf pf ev' /\ holds_request rf req' (set_ev (Some ev') e).
Proof.
  intros o e rf pf eft mat matcher ps req req' X R N H C T.
  apply map_spec; auto.
  - eapply completes_length; eauto.
  - intros f w I. destruct C as [L C]. destruct (combine_last _ _ _ _ _ _ L C I) as [v [V P]]. cbn [fst snd] in P.
    destruct P as [P|[P ->]]; [left; auto|]. right. split; auto. eapply holds_field; eauto. apply (d_rf _ _ _ _ _ (proj1 R)).
  - apply texts_candidates; auto.
Qed.

Lemma outcome_ev : forall o e rf pf eft mat matcher req ev,
  enforce_outcome o (set_ev ev e) rf pf eft mat matcher req = enforce_outcome o e rf pf eft mat matcher req.
Proof. reflexivity. Qed.

Lemma history_m : forall o rf pf eft mat qs req e last, oracle_ext o -> ready o e rf pf eft mat -> holds_request rf req e ->
  stands rf req qs last -> Forall (fun q => texts_ok (chosen (fst q) mat) pf (p_rules (e_model e))) qs ->
  exists ev, ask_all_m o qs e = set_ev (Some ev) e /\ fits o (e_model e) rf pf ev /\ holds_request rf last (set_ev (Some ev) e).
Proof.
  intros o rf pf eft mat. induction qs as [|[m q] qs IH]; intros req e last X R H S T.
  - inversion S; subst. destruct H as [ev [E H]]. exists ev. repeat split.
    + destruct e; simpl in *; subst; auto.
    + destruct R as [_ F]. rewrite E in F. apply (f_vars _ _ _ _ _ F).
    + destruct R as [_ F]. rewrite E in F. apply (f_funs _ _ _ _ _ F).
    + destruct R as [_ F]. rewrite E in F. apply (f_prog _ _ _ _ _ F).
    + exists ev. auto.
  - inversion T as [|? ? T1 T2]; subst. cbn [fst] in T1. cbn [ask_all_m].
    inversion S as [|? ? req1 ? ? L S'|? ? ps req1 ? ? N C S']; subst.
    + destruct (position_spec o e rf pf eft mat m req1 X R L (texts_candidates _ _ _ _ T1)) as [ev [E [F H1]]].
      cbn [ask_m]. rewrite E. cbn [fst].
      destruct (IH req1 (set_ev (Some ev) e) last X (ready_ev _ _ _ _ _ _ _ R F) H1 S' T2) as [ev2 [E2 [F2 H2]]].
      exists ev2. rewrite E2. auto.
    + destruct (ask_by_name o e rf pf eft mat m ps req req1 X R N H C T1) as [ev [E [F H1]]].
      cbn [ask_m]. rewrite E. cbn [fst].
      destruct (IH req1 (set_ev (Some ev) e) last X (ready_ev _ _ _ _ _ _ _ R F) H1 S' T2) as [ev2 [E2 [F2 H2]]].
      exists ev2. rewrite E2. auto.
Qed.
