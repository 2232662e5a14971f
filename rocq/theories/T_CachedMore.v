(** Property C47, continued: the other functions of the cached enforcer that answer
    requests. *)
From Verif Require Import Base P_Base M_Util M_Cached M_Matcher S_Text P_Text S_History S_Cached S_Effect S_Enforce S_Policy P_Enforce P_Decide P_Store P_Api P_History P_Sync P_Ready P_Cached E_Examples T_Enforce T_Policy T_Rbac T_Users T_Cached.

(** What the subjects that are allowed are, given an answer for each. *)
Fixpoint pick (ask : string -> res bool) (subs : list string) : res (list string) :=
  match subs with
  | [] => Ok []
  | s :: ss => let! b := ask s in let! rest := pick ask ss in Ok (if b : bool then s :: rest else rest)
  end.
Lemma pick_ext : forall f g subs, (forall s, f s = g s) -> pick f subs = pick g subs.
Proof. intros f g subs H. induction subs as [|s ss IH]; [reflexivity|]. cbn [pick]. rewrite H, IH. reflexivity. Qed.

Section Picks.
  Variables (o : oracle) (e : enforcer) (rf pf : list string) (eft mat : string).
  Hypotheses (X : oracle_ext o) (R : ready o e rf pf eft mat).
  Lemma picks : forall p0 p1 subs c, faithful o e rf pf eft mat c -> (forall s, In s subs -> good e rf pf mat ("", [s; p0; p1])) ->
    snd (c_allowed_subjects o [p0; p1] subs c) = pick (fun s => plain_answer o e ("", [s; p0; p1])) subs.
  Proof.
    intros p0 p1. induction subs as [|s ss IH]; intros c F G; [reflexivity|]. cbn [c_allowed_subjects pick vget nth_error bind].
    destruct (ask_step o e rf pf eft mat X R c ("", [s; p0; p1]) F) as [F' A]; [apply G; left; reflexivity|]. cbn [fst snd map] in F', A.
    unfold c_Enforce. destruct (c_EnforceWithMatcher o "" [DStr s; DStr p0; DStr p1] c) as [c1 out]. cbn [fst snd] in F', A. subst out.
    destruct (plain_answer o e ("", [s; p0; p1])) as [b|t|u]; [|reflexivity|reflexivity]. cbn [bind]. rewrite <- (IH c1 F'). 2: { intros; apply G; right; auto. }
    destruct (c_allowed_subjects o [p0; p1] ss c1). reflexivity.
  Qed.
End Picks.

(** A cached enforcer with the cache off is the plain one. *)
Lemma off_allowed : forall o perm subs e, snd (c_allowed_subjects o perm subs (mkC e [] false)) = snd (allowed_subjects o perm subs e).
Proof.
  intros o perm. induction subs as [|s ss IH]; intros e; [reflexivity|]. cbn [c_allowed_subjects allowed_subjects].
  unfold mbind, lift. destruct (vget perm 0) as [p0|t|u]; cbn [bind]; [|reflexivity|reflexivity]. destruct (vget perm 1) as [p1|t|u]; cbn [bind]; [|reflexivity|reflexivity].
  unfold c_Enforce, c_EnforceWithMatcher, through_cache, inherited, Enforce. cbn [c_on negb c_base c_map].
  destruct (EnforceWithMatcher o "" [DStr s; DStr p0; DStr p1] e) as [e1 [b|t|u]]; cbn; [|reflexivity|reflexivity].
  specialize (IH e1). destruct (c_allowed_subjects o perm ss (mkC e1 [] false)) as [c2 out2]. destruct (allowed_subjects o perm ss e1) as [e2 out]. cbn [snd] in *. subst.
  destruct out; reflexivity.
Qed.

Lemma candidates_touch : forall m s q, candidates (touch m s) q = candidates m q.
Proof. intros. unfold candidates, p_indexed, p_rules. rewrite !get_touch. reflexivity. Qed.
Lemma admissible_touch : forall m s rf pf mat q, admissible (touch m s) rf pf mat q <-> admissible m rf pf mat q.
Proof. intros. unfold admissible. rewrite candidates_touch. tauto. Qed.
Lemma faithful_touch : forall o e rf pf eft mat s ev mp on, oracle_ext o -> ready o e rf pf eft mat ->
  faithful o e rf pf eft mat (mkC (set_ev ev e) mp on) ->
  faithful o (set_model (touch (e_model e) s) e) rf pf eft mat (mkC (set_ev ev (set_model (touch (e_model e) s) e)) mp on).
Proof.
  intros o e rf pf eft mat s ev mp on X R [_ [R' K]]. cbn [c_base c_map] in *. split; [exists ev; reflexivity|]. split.
  - exact (ready_touch o rf pf eft mat (set_ev ev e) s R').
  - cbn [c_map]. intros q b [A D] G. cbn [e_model set_model] in A. apply (proj1 (admissible_touch _ _ _ _ _ _)) in A.
    rewrite <- (K q b); [|split; [exact A|exact D]|exact G].
    unfold plain_answer. rewrite !snd_EnforceWithMatcher. destruct A as [L T].
    destruct (enforce_spec o e rf pf eft mat (fst q) (snd q) X R L T) as [ev1 [E1 _]].
    assert (T' : texts_ok (chosen (fst q) mat) pf (candidates (touch (e_model e) s) (snd q))) by (rewrite candidates_touch; exact T).
    destruct (enforce_spec o (set_model (touch (e_model e) s) e) rf pf eft mat (fst q) (snd q) X (ready_touch o rf pf eft mat e s R) L T') as [ev2 [E2 _]].
    rewrite E1, E2. cbn [snd]. rewrite outcome_touch. reflexivity.
Qed.

(** The listing of the subjects and roles. *)
Definition lists : M (list string * list string) :=
  ps <- GetAllSubjects ;; gi <- all_types "g" 1 ;; gs <- all_types "g" 0 ;; ret (ArrayRemoveDuplicates (ps ++ gs), gi).
Lemma lists_shape : forall e ev,
  (exists out, all_types "p" 0 e = (set_model (touch (e_model e) "p") e, out)) /\
  snd (lists (set_ev ev e)) = snd (lists e) /\
  forall v, snd (lists e) = Ok v ->
    fst (lists (set_ev ev e)) = set_ev ev (set_model (touch (touch (touch (e_model e) "p") "g") "g") e) /\
    fst (lists e) = set_model (touch (touch (touch (e_model e) "p") "g") "g") e.
Proof.
  intros e ev. split; [eexists; reflexivity|]. unfold lists, mbind, GetAllSubjects, all_types, ret.
  unfold GetValuesForFieldInPolicyAllTypes. cbn [e_model set_ev set_model].
  repeat match goal with |- context [match ?x with Ok _ => _ | Throw _ => _ | UB _ => _ end] => destruct x eqn:?; cbn [fst snd e_model set_ev set_model]; try (split; [reflexivity|intros ? Q; discriminate Q]) end.
  split; [reflexivity|]. intros v _. split; reflexivity.
Qed.

(** GetImplicitUsersForPermission of a cached enforcer that was asked any sequence of
    requests answers like the plain enforcer.  Missing, as above: names with '$'. *)
Theorem C47_implicit_users_partial : forall o e rf pf eft mat qs p0 p1,
  oracle_ext o -> ready o e rf pf eft mat -> mat <> "" -> HasEval mat = false -> List.length rf = 3 ->
  Forall (admissible (e_model e) rf pf mat) qs -> Forall no_dollar qs ->
  (forall s, is_subject e s -> lacks "$" s) -> lacks "$" p0 -> lacks "$" p1 ->
  snd (c_GetImplicitUsersForPermission o [p0; p1] (c_ask o qs (new_cached e))) = snd (GetImplicitUsersForPermission o [p0; p1] e).
Proof.
  intros o e rf pf eft mat qs p0 p1 X R MAT NE L3 AQ DQ DS D0 D1.
  assert (G : Forall (good e rf pf mat) qs) by (rewrite Forall_forall in *; intros x Hx; split; auto).
  pose proof (ask_all o e rf pf eft mat X R qs (new_cached e) (fresh_faithful o e rf pf eft mat R true) G) as F.
  destruct (c_ask o qs (new_cached e)) as [b mp on]. destruct F as [[ev B] F]. cbn [c_base] in B. subst b.
  assert (F0 : faithful o e rf pf eft mat (mkC (set_ev ev e) mp on)) by (split; [exists ev; reflexivity|exact F]). clear F.
  set (e3 := set_model (touch (touch (touch (e_model e) "p") "g") "g") e).
  assert (F3 : faithful o e3 rf pf eft mat (mkC (set_ev ev e3) mp on)).
  { pose proof (faithful_touch o e rf pf eft mat "p" ev mp on X R F0) as F1. pose proof (ready_touch o rf pf eft mat e "p" R) as R1.
    pose proof (faithful_touch o _ rf pf eft mat "g" ev mp on X R1 F1) as F2. pose proof (ready_touch o rf pf eft mat _ "g" R1) as R2.
    exact (faithful_touch o _ rf pf eft mat "g" ev mp on X R2 F2). }
  assert (R3 : ready o e3 rf pf eft mat).
  { pose proof (ready_touch o rf pf eft mat e "p" R) as R1. pose proof (ready_touch o rf pf eft mat _ "g" R1) as R2. exact (ready_touch o rf pf eft mat _ "g" R2). }
  unfold c_GetImplicitUsersForPermission, inherited. cbn [c_base c_map c_on]. fold lists.
  destruct (lists_shape e ev) as [_ [L1 L2]].
  replace (snd (GetImplicitUsersForPermission o [p0; p1] e)) with
    (match snd (lists e) with
     | Ok (subs, gi) => let! l := snd (allowed_subjects o [p0; p1] subs (fst (lists e))) in Ok (SetSubtract l gi)
     | Throw t => Throw t | UB u => UB u end).
  2: { unfold GetImplicitUsersForPermission, lists, mbind, ret. clear.
       destruct (GetAllSubjects e) as [e1 [ps|t|u]]; cbn [fst snd]; try reflexivity.
       destruct (all_types "g" 1 e1) as [e2 [gi|t|u]]; cbn [fst snd]; try reflexivity.
       destruct (all_types "g" 0 e2) as [e4 [gs|t|u]]; cbn [fst snd]; try reflexivity.
       destruct (allowed_subjects o [p0; p1] _ e4) as [e5 [l|t|u]]; reflexivity. }
  destruct (lists (set_ev ev e)) as [c1 out1]. cbn [fst snd] in L1, L2. subst out1.
  assert (SUBS : forall subs gi, snd (lists e) = Ok (subs, gi) -> forall s, In s subs -> is_subject e s).
  { intros subs gi Q s I. revert Q. unfold lists, mbind, GetAllSubjects, ret.
    pose proof (all_listing "p" 0 e) as A1. destruct (all_types "p" 0 e) as [e1 [ps|t|u]] eqn:E1; cbn [snd]; try discriminate.
    pose proof (f_equal fst E1) as Q1. unfold all_types in Q1. cbn in Q1. destruct (all_types "g" 1 e1) as [e2 [gi'|t|u]] eqn:E2; cbn [snd]; try discriminate.
    pose proof (f_equal fst E2) as Q2. unfold all_types in Q2. cbn in Q2.
    pose proof (all_listing "g" 0 e2) as A3. destruct (all_types "g" 0 e2) as [e4 [gs|t|u]] eqn:E3; cbn [snd]; try discriminate.
    intros Q. injection Q as <- _. unfold ArrayRemoveDuplicates in I. rewrite dedup_in, in_app_iff in I. destruct I as [[I|I] _].
    - apply (proj2 A1) in I. destruct I as [pt [r [_ [I N]]]]. exists "p", pt, r. auto.
    - apply (proj2 A3) in I. destruct I as [pt [r [_ [I N]]]]. exists "g", pt, r. split; auto. split; auto. subst e2 e1.
      unfold stored, rules_in in I |- *. cbn in I. rewrite !get_touch in I. exact I. }
  destruct (snd (lists e)) as [[subs gi]|t|u] eqn:LS; [|reflexivity|reflexivity].
  destruct (L2 _ eq_refl) as [-> ->]. fold e3.
  assert (GS : forall s, In s subs -> good e3 rf pf mat ("", [s; p0; p1])).
  { intros s I. split.
    - split; [cbn; lia|]. apply plain_texts; auto.
    - intros v V. cbn in V. destruct V as [<-|[<-|[<-|[]]]]; auto. apply DS. eapply SUBS; eauto. }
  pose proof (picks o e3 rf pf eft mat X R3 p0 p1 subs _ F3 GS) as P1.
  pose proof (picks o e3 rf pf eft mat X R3 p0 p1 subs _ (fresh_faithful o e3 rf pf eft mat R3 false) GS) as P2.
  rewrite off_allowed in P2. destruct (c_allowed_subjects o [p0; p1] subs (mkC (set_ev ev e3) mp on)) as [c2 out]. cbn [snd] in *.
  rewrite P1, P2. reflexivity.
Qed.
Print Assumptions C47_implicit_users_partial.

(** EnforceEx and BatchEnforceWithMatcher do not use the cache: in every state, with any
    values, they answer like the plain enforcer in its place and leave the cache alone. *)
Theorem C47_uncached : forall o c matcher params reqs,
  snd (c_EnforceEx o params c) = snd (EnforceEx o params (c_base c)) /\
  c_map (fst (c_EnforceEx o params c)) = c_map c /\
  snd (c_BatchEnforceWithMatcher o matcher reqs c) = snd (BatchEnforceWithMatcher o matcher reqs (c_base c)) /\
  c_map (fst (c_BatchEnforceWithMatcher o matcher reqs c)) = c_map c.
Proof.
  intros. unfold c_EnforceEx, c_BatchEnforceWithMatcher, inherited.
  destruct (EnforceEx o params (c_base c)). destruct (BatchEnforceWithMatcher o matcher reqs (c_base c)). auto.
Qed.
Print Assumptions C47_uncached.

(** So after a change of the policy the two ways of asking disagree. *)
Theorem C47_disagree_refuted : exists c req,
  snd (c_Enforce mini req c) = Ok true /\ snd (c_EnforceEx mini req c) = Ok (false, []) /\ snd (c_BatchEnforceWithMatcher mini "" [req] c) = Ok [false].
Proof. exists ex_c2, (reqs ["alice"; "data1"; "read"]). repeat split; vm_compute; reflexivity. Qed.
Print Assumptions C47_disagree_refuted.

(** The case of the example: a hierarchy of roles, after two requests. *)
Definition org_qs : list (string * list string) := [("", ["bob"; "data3"; "read"]); ("", ["alice"; "data3"; "read"])].
Example C47_users_case :
  Forall no_dollar org_qs /\ (forall s, is_subject org s -> lacks "$" s) /\
  snd (c_GetImplicitUsersForPermission mini ["data3"; "read"] (c_ask mini org_qs (new_cached org))) = Ok ["bob"; "alice"] /\
  List.length (c_map (c_ask mini org_qs (new_cached org))) = 2.
Proof.
  split; [|split; [|split; vm_compute; reflexivity]].
  - rewrite Forall_forall. intros q Hq v Hv. apply smem_lacks. destruct Hq as [<-|[<-|[]]]; destruct Hv as [<-|[<-|[<-|[]]]]; reflexivity.
  - intros s [sec [pt [r [S [I N]]]]]. apply smem_lacks. unfold stored, rules_in, get_ast in I.
    destruct S as [->| ->]; simpl in I.
    + destruct (String.eqb pt "p"); simpl in I; cases_in I; injection N as <-; reflexivity.
    + destruct (String.eqb pt "g"); simpl in I; cases_in I; injection N as <-; reflexivity.
Qed.
