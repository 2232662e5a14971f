(** Property C101: copies of a cached enforcer. *)
From Verif Require Import Base P_Base M_Util M_RoleManager M_Effector M_Model M_Persist M_Eval M_Evaluator M_Enforcer M_Matcher M_Cached M_Copies M_CachedCopies
  S_Effect S_Enforce S_Policy S_History S_Roles S_Sync S_Rbac S_Copies S_Cached S_CachedCopies P_Enforce P_Decide P_Store P_Api P_History P_Roles P_Sync P_Ready P_Copies P_Cached P_CachedCopies
  E_Examples T_Rbac T_Users T_Copies.

(** The answer of enforcer [i] to a request. *)
Definition answer_of (o : oracle) (p : cprogram) (i : nat) (matcher : string) (params : list data) : option (res bool) :=
  option_map (fun c => snd (c_EnforceWithMatcher o matcher params c)) (cached_of p i).

(** A copy, made by copying or moving, answers every request as the original did. *)
Theorem C101_copy_answers : forall o p i p' matcher params a,
  a = CCopy i \/ a = CMove i -> cact o a p = (p', Ok tt) ->
  answer_of o p' (List.length (cp_hs p)) matcher params = answer_of o p i matcher params.
Proof.
  intros o p i p' matcher params a A H. unfold answer_of, cached_of.
  destruct A as [-> | ->]; cbn [cact] in H; destruct (nth_error (cp_hs p) i) as [h|] eqn:N; inversion H; subst; cbn [cp_hs cp_ob].
  - rewrite nth_error_app2, Nat.sub_diag by lia. reflexivity.
  - rewrite nth_error_app2; rewrite put_length; [|lia]. rewrite Nat.sub_diag. reflexivity.
Qed.
Print Assumptions C101_copy_answers.

(** The enforcer moved from can still be used: it shares everything with the new one, but
    for the cache, which is empty. *)
Theorem C101_moved_from : forall o p i p' c, cact o (CMove i) p = (p', Ok tt) -> cached_of p i = Some c ->
  cached_of p' i = Some (mkC (c_base c) [] (c_on c)) /\ cached_of p' (List.length (cp_hs p)) = Some c.
Proof.
  intros o p i p' c H C. unfold cached_of in *. cbn [cact] in H.
  destruct (nth_error (cp_hs p) i) as [h|] eqn:N; inversion H; subst; cbn [cp_hs cp_ob]. cbn in C. inversion C; subst.
  assert (L : i < List.length (cp_hs p)) by (apply nth_error_Some; congruence).
  split.
  - rewrite nth_error_app1 by (rewrite put_length; auto). rewrite put_same by auto. reflexivity.
  - rewrite nth_error_app2; rewrite put_length; [|lia]. rewrite Nat.sub_diag. reflexivity.
Qed.
Print Assumptions C101_moved_from.

(** Every object has entries and a switch of its own: nothing done through another one
    changes them. *)
Theorem C101_own_cache : forall o a p p' out j c,
  (forall q, a <> CCall j q) -> a <> CMove j -> cact o a p = (p', out) -> cached_of p j = Some c ->
  exists c', cached_of p' j = Some c' /\ c_map c' = c_map c /\ c_on c' = c_on c.
Proof.
  intros o a p p' out j c NC NM H C. unfold cached_of in *.
  destruct (nth_error (cp_hs p) j) as [h|] eqn:J; [|discriminate]. cbn in C. inversion C; subst. clear C.
  assert (L : j < List.length (cp_hs p)) by (apply nth_error_Some; congruence).
  destruct a as [i q|i|i]; cbn [cact] in H; destruct (nth_error (cp_hs p) i) as [g|] eqn:N;
    try (inversion H; subst; rewrite J; cbn; eauto; fail).
  - assert (i <> j) by (intros ->; eapply NC; eauto).
    destruct (c_run o q (cview (cp_ob p) g)) as [c1 out1]. destruct (write_back _ _ _ _) as [ob b]. inversion H; subst. cbn.
    rewrite put_other by auto. rewrite J. cbn. eauto.
  - inversion H; subst. cbn. rewrite nth_error_app1 by auto. rewrite J. cbn. eauto.
  - assert (i <> j) by congruence. inversion H; subst. cbn.
    rewrite nth_error_app1 by (rewrite put_length; auto). rewrite put_other, J by auto. cbn. eauto.
Qed.
Print Assumptions C101_own_cache.

Lemma spares_keeps : forall o j key b a p p' out c, spares j a -> cact o a p = (p', out) ->
  cached_of p j = Some c -> holds_on key b c -> exists c', cached_of p' j = Some c' /\ holds_on key b c'.
Proof.
  intros o j key b a p p' out c S H C K.
  assert (D : (exists q, a = CCall j q) \/ (forall q, a <> CCall j q)).
  { destruct a as [i q|i|i]; try (right; discriminate). destruct (Nat.eq_dec i j) as [->|N]; [left; eauto|right; congruence]. }
  destruct D as [[q ->]|D].
  - cbn [spares cact] in *. unfold cached_of in *. destruct (nth_error (cp_hs p) j) as [h|] eqn:J; [|discriminate]. cbn in C. inversion C; subst.
    pose proof (run_keeps_entry o key b q _ (S eq_refl) K) as R.
    destruct (c_run o q (cview (cp_ob p) h)) as [c1 out1]. destruct (write_back _ _ _ _) as [ob b1]. inversion H; subst. cbn.
    rewrite put_same by (apply nth_error_Some; congruence). eexists. split; [reflexivity|]. exact R.
  - assert (M : a <> CMove j) by (intros ->; apply S; auto).
    destruct (C101_own_cache o a p p' out j c D M H C) as [c' [C' [E1 E2]]]. exists c'. split; auto.
    unfold holds_on in *. rewrite E1, E2. auto.
Qed.

(** False: a change that reaches the copies.  A request once answered by a copy is answered
    the same by it for ever after, whatever is done through the others - rules added and
    removed, the policy loaded, their caches invalidated. *)
Theorem C101_stale_refuted : forall o p j c matcher params b p1 as' p2,
  cached_of p j = Some c -> c_on c = true -> snd (c_EnforceWithMatcher o matcher params c) = Ok b ->
  cact o (CCall j (QEnforce matcher params)) p = (p1, Ok tt) ->
  cacts o p1 as' p2 -> Forall (spares j) as' ->
  answer_of o p2 j matcher params = Some (Ok b).
Proof.
  intros o p j c matcher params b p1 as' p2 C On A H R F.
  assert (K : exists c1, cached_of p1 j = Some c1 /\ holds_on (cache_key params matcher) b c1).
  { unfold cached_of in *. cbn [cact] in H. destruct (nth_error (cp_hs p) j) as [h|] eqn:J; [|discriminate]. cbn in C. inversion C; subst.
    cbn [c_run] in H. unfold c_drop in H. destruct (c_EnforceWithMatcher o matcher params (cview (cp_ob p) h)) as [c1 out1] eqn:E.
    cbn [snd] in A. subst out1. destruct (write_back _ _ _ _) as [ob b1]. inversion H; subst. cbn.
    rewrite put_same by (apply nth_error_Some; congruence). eexists. split; [reflexivity|]. unfold holds_on. cbn.
    unfold c_EnforceWithMatcher, through_cache in E. rewrite On in E. cbn [negb] in E. destruct (aget _ (c_map (cview (cp_ob p) h))) as [x|] eqn:Ex.
    - inversion E; subst. auto.
    - unfold inherited in E. destruct (EnforceWithMatcher o matcher params (c_base (cview (cp_ob p) h))) as [e' out]. destruct out; try discriminate.
      inversion E; subst. split; [exact On|]. apply aget_aset_same. }
  clear C On A H c. revert K F. induction R as [q|q a l q1 out q2 E U R IH]; intros [c [C K]] F.
  - unfold answer_of. rewrite C. cbn. f_equal. destruct K as [K1 K2]. unfold c_EnforceWithMatcher, through_cache. rewrite K1, K2. reflexivity.
  - inversion F; subst. apply IH; auto. eapply spares_keeps; eauto.
Qed.
Print Assumptions C101_stale_refuted.

(** What InvalidateCache does: the next answer of this object is that of the plain enforcer
    on the parts it shares with the others. *)
Lemma unaided_plain : forall o c matcher params, unaided c ->
  snd (c_EnforceWithMatcher o matcher params c) = snd (EnforceWithMatcher o matcher params (c_base c)).
Proof.
  intros o c matcher params [H|H]; unfold c_EnforceWithMatcher, through_cache, inherited.
  - rewrite H. cbn. destruct (EnforceWithMatcher o matcher params (c_base c)). reflexivity.
  - rewrite H. destruct (EnforceWithMatcher o matcher params (c_base c)) as [e out]. destruct (c_on c), out; reflexivity.
Qed.

(** Copies whose caches are empty or off give every request the same answer, and it is that
    of the shared policy. *)
Theorem C101_unaided_agree : forall o names n rules hashed rf pf eft mat e as' p i j a b matcher req,
  oracle_ext o -> tidy names n rules -> mat <> "" -> HasEval mat = false ->
  managed o names n rules e -> standard o hashed rf pf eft mat e ->
  Forall (family_caction rules (List.length pf)) as' -> cacts o (calone e) as' p ->
  cached_of p i = Some a -> cached_of p j = Some b -> unaided a -> unaided b -> HasEval matcher = false ->
  answer_of o p i matcher (map DStr req) = answer_of o p j matcher (map DStr req) /\
  answer_of o p i matcher (map DStr req) = Some (snd (EnforceWithMatcher o matcher (map DStr req) (c_base a))) /\
  forall sec pt, stored (c_base a) sec pt = stored (c_base b) sec pt.
Proof.
  intros o names n rules hashed rf pf eft mat e as' p i j a b matcher req X T M1 M2 MA ST F R Ca Cb Ua Ub NE.
  assert (G : Forall (fun h => P_Copies.good o names n rules hashed rf pf eft mat (level_of e) 0 (e_rm e) (declared e) (cp_ob p) (ch_base h)) (cp_hs p)).
  { eapply cacts_good; eauto. apply Forall_forall. intros h I. unfold calone in *. cbn in *. apply in_map_iff in I. destruct I as [h0 [<- I]].
    destruct (view_alone e h0 I) as [V [W [E1 E2]]]. cbn.
    constructor; auto; rewrite V; auto. apply (managed_mirror names n rules T o e MA). }
  unfold answer_of. rewrite Ca, Cb. cbn. rewrite !unaided_plain by auto.
  rewrite Forall_forall in G. unfold cached_of in *.
  destruct (nth_error (cp_hs p) i) as [h|] eqn:Ni; [|discriminate]. destruct (nth_error (cp_hs p) j) as [k|] eqn:Nj; [|discriminate].
  apply nth_error_In in Ni. apply nth_error_In in Nj. apply G in Ni. apply G in Nj. cbn in Ca, Cb. inversion Ca; inversion Cb; subst. cbn [c_base cview].
  assert (EM : e_model (view (cp_ob p) (ch_base h)) = e_model (view (cp_ob p) (ch_base k))).
  { unfold view. simpl. rewrite (gd_model _ _ _ _ _ _ _ _ _ _ _ _ _ _ _ Ni), (gd_model _ _ _ _ _ _ _ _ _ _ _ _ _ _ _ Nj). auto. }
  pose proof (gd_standard _ _ _ _ _ _ _ _ _ _ _ _ _ _ _ Ni) as Sh. pose proof (gd_standard _ _ _ _ _ _ _ _ _ _ _ _ _ _ _ Nj) as Sk.
  split; [|split; auto].
  - f_equal. rewrite !snd_EnforceWithMatcher. f_equal.
    eapply same_answer_ex; eauto; [apply Sk|apply Sh|]. rewrite (st_on _ _ _ _ _ _ _ Sh), (st_on _ _ _ _ _ _ _ Sk). auto.
  - intros sec pt. unfold stored. f_equal. auto.
Qed.
Print Assumptions C101_unaided_agree.

(** A rule is added through the original, whose cache is then invalidated: it answers by the
    new rule, the copy by the old ones until its own cache is invalidated, too. *)
Definition cached_history : list caction :=
  [CCopy 0; CCall 1 (QEnforce "" (reqs ["carol"; "data1"; "read"])); CMove 0;
   CCall 0 (QOther (KAddPolicy "p" ["carol"; "data1"; "read"])); CCall 0 QInvalidate].
Definition carol := reqs ["carol"; "data1"; "read"].
Fixpoint cgo (as' : list caction) (p : cprogram) : cprogram :=
  match as' with [] => p | a :: t => cgo t (fst (cact mini a p)) end.
Example C101_case :
  let p := cgo cached_history (calone org) in
  let p' := cgo [CCall 1 QInvalidate] p in
  cacts mini (calone org) cached_history p /\ Forall (family_caction org_rule 3) cached_history /\
  managed mini plain_names 2 org_rule org /\ standard_rbac mini org /\ oracle_ext mini /\
  map (fun i => answer_of mini p i "" carol) [0; 1; 2] = [Some (Ok true); Some (Ok false); Some (Ok true)] /\
  map (fun i => answer_of mini p' i "" carol) [0; 1; 2] = [Some (Ok true); Some (Ok true); Some (Ok true)].
Proof.
  cbv zeta. split.
  { unfold cached_history. repeat (eapply cacts_step; [vm_compute; reflexivity|discriminate|]).
    match goal with |- cacts _ ?a _ ?b => replace b with a by (vm_compute; reflexivity) end. apply cacts_nil. }
  split. { unfold cached_history. repeat (apply Forall_cons; [cbn [family_caction safe_call shaped_call]; try tauto|]); [|apply Forall_nil].
    split; [reflexivity|]. exists ["carol"; "data1"; "read"]. reflexivity. }
  split; [apply org_managed|]. split; [apply org_standard|]. split; [apply mini_ext|].
  split; vm_compute; reflexivity.
Qed.
