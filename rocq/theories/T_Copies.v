(** Property C88: copies of an enforcer, and enforcers on one model. *)
From Verif Require Import Base P_Base M_Util M_RoleManager M_Effector M_Model M_Persist M_Eval M_Evaluator M_Enforcer M_Matcher M_Copies
  S_Effect S_Enforce S_Policy S_History S_Roles S_Sync S_Rbac S_Copies P_Enforce P_Decide P_Store P_Api P_History P_Roles P_Sync P_Ready P_Copies
  E_Examples T_Rbac T_Users.

Lemma enforcer_of_good : forall (P : objects -> handle -> Prop) p i e, Forall (P (pr_ob p)) (pr_hs p) -> enforcer_of p i = Some e ->
  exists h, P (pr_ob p) h /\ e = view (pr_ob p) h.
Proof.
  intros P p i e F H. unfold enforcer_of in H. destruct (nth_error (pr_hs p) i) as [h|] eqn:N; [|discriminate]. inversion H; subst.
  exists h. split; auto. rewrite Forall_forall in F. apply F. eapply nth_error_In; eauto.
Qed.

Lemma family_good : forall o names n rules hashed rf pf eft mat e as' p,
  oracle_ext o -> tidy names n rules -> mat <> "" -> HasEval mat = false ->
  managed o names n rules e -> standard o hashed rf pf eft mat e ->
  Forall (family_action rules (List.length pf)) as' -> acts o (alone e) as' p ->
  Forall (good o names n rules hashed rf pf eft mat (level_of e) 0 (e_rm e) (declared e) (pr_ob p)) (pr_hs p).
Proof.
  intros o names n rules hashed rf pf eft mat e as' p X T M1 M2 MA ST F A.
  eapply acts_good; eauto. apply Forall_forall. intros h I. destruct (view_alone e h I) as [V [W [E1 E2]]].
  constructor; auto; rewrite V; auto. apply (managed_mirror names n rules T o e MA).
Qed.

Lemma same_answer_ex : forall o rf pf eft mat e e' matcher req, oracle_ext o -> mat <> "" -> HasEval mat = false -> HasEval matcher = false ->
  ready o e rf pf eft mat -> ready o e' rf pf eft mat -> e_model e' = e_model e -> e_heap e' = e_heap e -> e_enabled e' = e_enabled e ->
  snd (EnforceExWithMatcher o matcher (map DStr req) e') = snd (EnforceExWithMatcher o matcher (map DStr req) e).
Proof.
  intros o rf pf eft mat e e' matcher req X M1 M2 NE R R' Em Eh Ee.
  destruct (Nat.eq_dec (List.length req) (List.length rf)) as [L|L].
  - assert (TX : forall l, texts_ok (chosen matcher mat) pf l) by (intros; apply plain_texts; auto).
    destruct (enforce_spec o e rf pf eft mat matcher req X R L (TX _)) as [ev1 [E1 _]].
    destruct (enforce_spec o e' rf pf eft mat matcher req X R' L (TX _)) as [ev2 [E2 _]].
    rewrite E1, E2. cbn [snd]. unfold enforce_outcome. rewrite Em, Eh, Ee. reflexivity.
  - unfold EnforceExWithMatcher. rewrite Em. destruct (d_r _ _ _ _ _ (proj1 R)) as [a [A1 A2]]. rewrite A1.
    rewrite A2, !map_length. apply Nat.eqb_neq in L. rewrite L. reflexivity.
Qed.

(** All copies of an enforcer hold the same rules, list the same roles and give every
    request the same answer, whatever was done through which of them. *)
Theorem C88_copies_agree : forall o names n rules hashed rf pf eft mat e as' p i j a b,
  oracle_ext o -> tidy names n rules -> mat <> "" -> HasEval mat = false ->
  managed o names n rules e -> standard o hashed rf pf eft mat e ->
  Forall (family_action rules (List.length pf)) as' -> acts o (alone e) as' p ->
  enforcer_of p i = Some a -> enforcer_of p j = Some b ->
  (forall sec pt, stored a sec pt = stored b sec pt) /\
  (forall name domain, snd (GetRolesForUser name domain a) = snd (GetRolesForUser name domain b)) /\
  (forall matcher req, HasEval matcher = false ->
     snd (EnforceExWithMatcher o matcher (map DStr req) a) = snd (EnforceExWithMatcher o matcher (map DStr req) b)).
Proof.
  intros o names n rules hashed rf pf eft mat e as' p i j a b X T M1 M2 MA ST F A Ia Ib.
  pose proof (family_good _ _ _ _ _ _ _ _ _ _ _ _ X T M1 M2 MA ST F A) as G.
  destruct (enforcer_of_good _ p i a G Ia) as [h [Gh ->]]. destruct (enforcer_of_good _ p j b G Ib) as [k [Gk ->]].
  assert (EM : e_model (view (pr_ob p) h) = e_model (view (pr_ob p) k)).
  { unfold view. simpl. rewrite (gd_model _ _ _ _ _ _ _ _ _ _ _ _ _ _ _ Gh), (gd_model _ _ _ _ _ _ _ _ _ _ _ _ _ _ _ Gk). auto. }
  split; [|split].
  - intros sec pt. unfold stored. f_equal. auto.
  - intros name d. unfold GetRolesForUser, g_rm, rm_GetRoles. rewrite EM. destruct (get_ast (e_model (view (pr_ob p) k)) "g" "g"); cbn [bind]; auto.
    destruct (a_rm a); auto. change (e_heap (view (pr_ob p) h)) with (e_heap (view (pr_ob p) k)).
    destruct (hget (e_heap (view (pr_ob p) k)) n0) as [r|t|u]; auto. destruct (GetRoles r name d). auto.
  - intros matcher req NE. pose proof (gd_standard _ _ _ _ _ _ _ _ _ _ _ _ _ _ _ Gh) as Sh. pose proof (gd_standard _ _ _ _ _ _ _ _ _ _ _ _ _ _ _ Gk) as Sk.
    eapply same_answer_ex; eauto; [apply Sk|apply Sh|]. rewrite (st_on _ _ _ _ _ _ _ Sh), (st_on _ _ _ _ _ _ _ Sk). auto.
Qed.
Print Assumptions C88_copies_agree.

(** In the RBAC model every copy decides by the rules they share. *)
Theorem C88_copies_decide : forall o names rules e as' p i a sub obj act,
  oracle_ext o -> reads_rbac o -> tidy names 2 rules -> managed o names 2 rules e -> standard_rbac o e ->
  Forall (family_action rules 3) as' -> acts o (alone e) as' p -> enforcer_of p i = Some a ->
  names (None, sub) -> (forall s r, In (s :: r) (stored a "p" "p") -> names (None, s)) ->
  (stored a "p" "p" <> [] \/ names (None, "") /\ (obj <> "" \/ act <> "")) ->
  exists b, snd (Enforce o (map DStr [sub; obj; act]) a) = Ok b /\
    (b = true <-> exists s, In [s; obj; act] (stored a "p" "p") /\ within (assigned a) None (level_of a) sub s).
Proof.
  intros o names rules e as' p i a sub obj act X RB T MA ST F A Ia N1 N2 N3. pose proof ST as ST0. apply rbac_standard in ST. destruct ST as [ST DG].
  assert (NM : rbac_matcher <> "") by discriminate. assert (NE : HasEval rbac_matcher = false) by reflexivity.
  pose proof (family_good _ _ _ _ _ _ _ _ _ _ _ _ X T NM NE MA ST F A) as G.
  destruct (enforcer_of_good _ p i a G Ia) as [h [Gh ->]].
  pose proof (gd_mirror _ _ _ _ _ _ _ _ _ _ _ _ _ _ _ Gh) as MI. pose proof (mirror_level _ _ _ _ _ MI) as LV.
  eapply rbac_decision_mirror; eauto.
  - rewrite LV. auto.
  - apply rbac_standard. split; [apply Gh|]. apply (gd_declared _ _ _ _ _ _ _ _ _ _ _ _ _ _ _ Gh). auto.
Qed.
Print Assumptions C88_copies_decide.

(** Every enforcer keeps its own switches: no action about another one changes them. *)
Theorem C88_own_switches : forall o a p p' out j e, about a <> Some j -> act o a p = (p', out) -> enforcer_of p j = Some e ->
  exists e', enforcer_of p' j = Some e' /\ switches e' = switches e.
Proof.
  intros o a p p' out j e N H E. unfold enforcer_of in *. destruct (nth_error (pr_hs p) j) as [h|] eqn:J; [|discriminate]. inversion E; subst. clear E.
  destruct a as [i c|i|i k|i]; simpl in H, N.
  - destruct (nth_error (pr_hs p) i) as [g|] eqn:G; [|inversion H; subst; rewrite J; simpl; eauto].
    destruct (run o c (view (pr_ob p) g)) as [e1 o1]. destruct (write_back c (pr_ob p) g e1) as [ob g']. inversion H; subst. simpl.
    rewrite put_other by congruence. rewrite J. simpl. eexists. split; eauto.
  - destruct (nth_error (pr_hs p) i) as [g|]; inversion H; subst; [|rewrite J; simpl; eauto]. simpl.
    rewrite nth_error_app1 by (apply nth_error_Some; congruence). rewrite J. simpl. eauto.
  - destruct (nth_error (pr_hs p) k) as [g|]; inversion H; subst; [|rewrite J; simpl; eauto]. simpl.
    rewrite put_other by congruence. rewrite J. simpl. eauto.
  - destruct (nth_error (pr_hs p) i) as [g|]; inversion H; subst; [|rewrite J; simpl; eauto]. simpl.
    rewrite nth_error_app1 by (apply nth_error_Some; congruence). rewrite J. simpl. eexists. split; eauto.
Qed.
Print Assumptions C88_own_switches.

(** An enforcer that was given a model of its own no longer changes the rules of the others. *)
Definition models_known (p : program) : Prop := forall h, In h (pr_hs p) -> hd_model h < List.length (ob_models (pr_ob p)).
Lemma write_back_model : forall c ob h e ob' h', write_back c ob h e = (ob', h') ->
  if is_SetModel c then ob_models ob' = ob_models ob ++ [e_model e] /\ hd_model h' = List.length (ob_models ob)
  else ob_models ob' = put (ob_models ob) (hd_model h) (e_model e) /\ hd_model h' = hd_model h.
Proof.
  intros c ob h e ob' h' H. unfold write_back in H.
  destruct (store (is_SetAdapter c) (ob_adapters ob) (hd_adapter h) (e_adapter e)), (store (is_SetWatcher c) (ob_watchers ob) (hd_watcher h) (e_watcher e)),
    (store (is_SetEvaluator c) (ob_evs ob) (hd_ev h) (e_ev e)). destruct (is_SetModel c); inversion H; subst; auto.
Qed.
Lemma act_known : forall o a p p' out, models_known p -> act o a p = (p', out) -> models_known p'.
Proof.
  intros o a p p' out K H. destruct a as [i c|i|i k|i]; simpl in H.
  - destruct (nth_error (pr_hs p) i) as [g|] eqn:G; [|inversion H; subst; auto].
    destruct (run o c (view (pr_ob p) g)) as [e1 o1]. destruct (write_back c (pr_ob p) g e1) as [ob g'] eqn:WB. inversion H; subst. clear H.
    pose proof (write_back_model _ _ _ _ _ _ WB) as M. intros h I. simpl in *. apply put_in in I. apply nth_error_In in G.
    apply K in G. destruct (is_SetModel c); destruct M as [-> M2]; rewrite ?app_length, ?put_length; simpl.
    + destruct I as [->|I]; [rewrite M2|apply K in I]; lia.
    + destruct I as [->|I]; [rewrite M2|apply K in I]; lia.
  - destruct (nth_error (pr_hs p) i) as [g|] eqn:G; inversion H; subst; auto. intros h I. simpl in *. apply nth_error_In in G.
    apply in_app_iff in I. destruct I as [I|[<-|[]]]; apply K; auto.
  - destruct (nth_error (pr_hs p) k) as [g|] eqn:G; inversion H; subst; auto. intros h I. simpl in *. apply nth_error_In in G.
    apply put_in in I. destruct I as [->|I]; apply K; auto.
  - destruct (nth_error (pr_hs p) i) as [g|] eqn:G; inversion H; subst; auto. intros h I. simpl in *. apply nth_error_In in G.
    apply in_app_iff in I. destruct I as [I|[<-|[]]]; simpl; [apply K|apply (K g)]; auto.
Qed.
Lemma acts_known : forall o p as' p', acts o p as' p' -> models_known p -> models_known p'.
Proof. induction 1; auto. intros K. apply IHacts. eapply act_known; eauto. Qed.
Lemma alone_known : forall e, models_known (alone e).
Proof.
  intros e h I. destruct (view_alone e h I) as [_ [_ [M _]]]. rewrite M. unfold alone. destruct (e_adapter e), (e_watcher e), (e_ev e); simpl; lia.
Qed.

Definition apart (i j : nat) (h : handle) (m : model) (p : program) : Prop :=
  models_known p /\ nth_error (pr_hs p) j = Some h /\ nth (hd_model h) (ob_models (pr_ob p)) [] = m /\
  forall g, nth_error (pr_hs p) i = Some g -> hd_model g <> hd_model h.
Lemma apart_call : forall o i j h m c p p' out, i <> j -> apart i j h m p \/ (models_known p /\ nth_error (pr_hs p) j = Some h /\ nth (hd_model h) (ob_models (pr_ob p)) [] = m /\ is_SetModel c = true) ->
  act o (Call i c) p = (p', out) -> apart i j h m p'.
Proof.
  intros o i j h m c p p' out N A H.
  assert (B : models_known p /\ nth_error (pr_hs p) j = Some h /\ nth (hd_model h) (ob_models (pr_ob p)) [] = m) by (destruct A as [[? [? [? ?]]]|[? [? [? ?]]]]; auto).
  destruct B as [K [J M]]. unfold apart. split; [eapply act_known; eauto|]. simpl in H.
  destruct (nth_error (pr_hs p) i) as [g|] eqn:G.
  2:{ inversion H; subst. split; auto. split; auto. intros g X. congruence. }
  destruct (run o c (view (pr_ob p) g)) as [e1 o1]. destruct (write_back c (pr_ob p) g e1) as [ob g'] eqn:WB. inversion H; subst. clear H. simpl.
  pose proof (write_back_model _ _ _ _ _ _ WB) as MM. pose proof (K h (nth_error_In _ _ J)) as LT.
  split. { rewrite put_other by congruence. auto. }
  assert (LI : i < List.length (pr_hs p)) by (apply nth_error_Some; congruence).
  destruct (is_SetModel c); destruct MM as [-> M2].
  - split. { apply app_nth1. auto. } intros g0 X. rewrite put_same in X by auto. inversion X; subst. lia.
  - destruct A as [[_ [_ [_ A]]]|[_ [_ [_ A]]]]; [|discriminate]. specialize (A g G). split. { apply nth_put_other. auto. }
    intros g0 X. rewrite put_same in X by auto. inversion X; subst. congruence.
Qed.
Theorem C88_own_model : forall o e as1 p1 i m out p2 cs p3 j a b,
  acts o (alone e) as1 p1 -> act o (Call i (KSetModel m)) p1 = (p2, out) -> acts o p2 (map (Call i) cs) p3 -> i <> j ->
  enforcer_of p1 j = Some a -> enforcer_of p3 j = Some b ->
  forall sec pt, stored b sec pt = stored a sec pt.
Proof.
  intros o e as1 p1 i m out p2 cs p3 j a b A1 S A2 N Ja Jb sec pt.
  pose proof (acts_known _ _ _ _ A1 (alone_known e)) as K. unfold enforcer_of in Ja, Jb.
  destruct (nth_error (pr_hs p1) j) as [h|] eqn:J; [|discriminate]. inversion Ja; subst a. clear Ja.
  assert (AP : apart i j h (nth (hd_model h) (ob_models (pr_ob p1)) []) p2) by (eapply apart_call; eauto; right; auto). clear S A1 K J.
  assert (AP3 : apart i j h (nth (hd_model h) (ob_models (pr_ob p1)) []) p3).
  { remember (map (Call i) cs) as l. revert cs Heql AP. clear Jb. induction A2; intros cs Heql AP; auto.
    destruct cs; inversion Heql; subst. eapply IHA2; eauto. eapply apart_call; eauto. }
  destruct AP3 as [_ [J3 [M3 _]]]. rewrite J3 in Jb. inversion Jb; subst. unfold stored, view. cbn [e_model]. rewrite M3. reflexivity.
Qed.
Print Assumptions C88_own_model.

(** A concrete case: two copies, changes through each, an assignment back. *)
Definition go (o : oracle) (l : list action) (p : program) : program := fold_left (fun p a => fst (act o a p)) l p.
Definition copies_history : list action :=
  [Copy 0; Call 1 (KAddGrouping "g" ["carol"; "guest"]); Copy 1; Call 2 (KAddPolicy "p" ["guest"; "data1"; "read"]);
   Call 0 (KEnforce "" (reqs ["alice"; "data1"; "read"])); Call 0 (KRemoveGrouping "g" ["alice"; "admin"]); Assign 1 0].
Definition answer (p : program) (i : nat) (r : list string) : option (res bool) :=
  option_map (fun e => snd (Enforce mini (reqs r) e)) (enforcer_of p i).
Example C88_case : exists p, acts mini (alone org) copies_history p /\ Forall (family_action org_rule 3) copies_history /\
  managed mini plain_names 2 org_rule org /\ standard_rbac mini org /\ reads_rbac mini /\ oracle_ext mini /\
  Forall (fun i => answer p i ["carol"; "data1"; "read"] = Some (Ok true) /\ answer p i ["alice"; "data1"; "read"] = Some (Ok false)) [0; 1; 2].
Proof.
  eexists. split.
  { unfold copies_history. repeat (eapply acts_step; [vm_compute; reflexivity|discriminate|]). apply acts_nil. }
  split. { unfold copies_history. repeat (apply Forall_cons; [simpl; unfold org_rule, org_rules; simpl; try tauto|]); [|apply Forall_nil].
    split; [auto|]. split; [reflexivity|]. exists ["alice"; "data1"; "read"]. reflexivity. }
  split; [apply org_managed|]. split; [apply org_standard|]. split; [apply mini_reads_rbac|]. split; [apply mini_ext|].
  repeat (apply Forall_cons; [split; vm_compute; reflexivity|]). apply Forall_nil.
Qed.
Example C88_own_model_case :
  let p := go mini [Copy 0; Call 1 (KSetModel (rbac_model [] [])); Call 1 (KAddPolicy "p" ["guest"; "data1"; "read"])] (alone org) in
  option_map (fun e => stored e "p" "p") (enforcer_of p 1) = Some [["guest"; "data1"; "read"]] /\
  option_map (fun e => stored e "p" "p") (enforcer_of p 0) = Some (stored org "p" "p").
Proof. split; vm_compute; reflexivity. Qed.

(** An enforcer that is given another adapter, watcher or evaluator leaves the others exactly
    as they are: the part is replaced in it and not in them. *)
Lemma act_well : forall o a p p' out, Forall (well (pr_ob p)) (pr_hs p) -> act o a p = (p', out) -> Forall (well (pr_ob p')) (pr_hs p').
Proof.
  intros o a p p' out F H. rewrite Forall_forall in *. destruct a as [i c|i|i k|i]; simpl in H.
  - destruct (nth_error (pr_hs p) i) as [g|] eqn:G; [|inversion H; subst; auto].
    destruct (run o c (view (pr_ob p) g)) as [e1 o1]. destruct (write_back c (pr_ob p) g e1) as [ob g'] eqn:WB. inversion H; subst. clear H.
    assert (WG : well (pr_ob p) g) by (apply F; eapply nth_error_In; eauto).
    intros h I. simpl in *. apply put_in in I. destruct I as [->|I]; [eapply view_own; eauto|]. apply F in I. clear F G.
    destruct WG as [W1 W2 W3 W4], I as [V1 V2 V3 V4]. pose proof (write_back_model _ _ _ _ _ _ WB) as M. unfold write_back in WB.
    destruct (store (is_SetAdapter c) (ob_adapters (pr_ob p)) (hd_adapter g) (e_adapter e1)) as [ads ai] eqn:SA.
    destruct (store (is_SetWatcher c) (ob_watchers (pr_ob p)) (hd_watcher g) (e_watcher e1)) as [ws wi] eqn:SW.
    destruct (store (is_SetEvaluator c) (ob_evs (pr_ob p)) (hd_ev g) (e_ev e1)) as [evs vi] eqn:SV.
    destruct (store_spec _ _ _ _ _ _ _ W2 SA) as [_ [_ A]]. destruct (A _ V2) as [A1 _].
    destruct (store_spec _ _ _ _ _ _ _ W3 SW) as [_ [_ B]]. destruct (B _ V3) as [B1 _].
    destruct (store_spec _ _ _ _ _ _ _ W4 SV) as [_ [_ C]]. destruct (C _ V4) as [C1 _].
    destruct (is_SetModel c); inversion WB; subst; constructor; simpl; auto; rewrite ?app_length, ?put_length; simpl; lia.
  - destruct (nth_error (pr_hs p) i) as [g|] eqn:G; inversion H; subst; auto. intros h I. simpl in *. apply nth_error_In in G.
    apply in_app_iff in I. destruct I as [I|[<-|[]]]; apply F; auto.
  - destruct (nth_error (pr_hs p) k) as [g|] eqn:G; inversion H; subst; auto. intros h I. simpl in *. apply nth_error_In in G.
    apply put_in in I. destruct I as [->|I]; apply F; auto.
  - destruct (nth_error (pr_hs p) i) as [g|] eqn:G; inversion H; subst; auto. intros h I. simpl in *. apply nth_error_In in G.
    apply in_app_iff in I. destruct I as [I|[<-|[]]].
    + destruct (F h I) as [V1 V2 V3 V4]. constructor; auto.
    + destruct (F g G) as [V1 V2 V3 V4]. constructor; simpl; auto.
Qed.
Lemma acts_well : forall o p as' p', acts o p as' p' -> Forall (well (pr_ob p)) (pr_hs p) -> Forall (well (pr_ob p')) (pr_hs p').
Proof. induction 1; auto. intros K. apply IHacts. eapply act_well; eauto. Qed.
Lemma put_id : forall A (l : list A) k a, nth_error l k = Some a -> put l k a = l.
Proof. induction l; intros [|k] b H; simpl in *; try discriminate; [inversion H; auto|]. rewrite IHl; auto. Qed.
Lemma nth_put_id : forall A (l : list A) k d, put l k (nth k l d) = l.
Proof. induction l; intros [|k] d; simpl; auto. rewrite IHl. auto. Qed.
Lemma store_id : forall A (l : list A) i, fst (store false l i (deref l i)) = l.
Proof.
  intros A l [k|]; simpl; auto. destruct (nth_error l k) as [a|] eqn:E; simpl; auto. apply put_id. auto.
Qed.
Lemma store_fresh : forall A (l : list A) i v j, valid l j -> deref (fst (store true l i v)) j = deref l j.
Proof.
  intros A l i v j V. destruct v as [a|]; simpl; auto. destruct i; destruct j as [j|]; simpl in *; auto; apply nth_error_app1; auto.
Qed.
Theorem C88_own_parts : forall o e as1 p1 i c out p2 j a,
  acts o (alone e) as1 p1 -> sets_part c -> act o (Call i c) p1 = (p2, out) -> i <> j -> enforcer_of p1 j = Some a ->
  enforcer_of p2 j = Some a.
Proof.
  intros o e as1 p1 i c out p2 j a A S H N J.
  assert (W : Forall (well (pr_ob p1)) (pr_hs p1)). { eapply acts_well; [exact A|]. apply Forall_forall. intros h I. apply (view_alone e h I). }
  unfold enforcer_of in *. destruct (nth_error (pr_hs p1) j) as [h|] eqn:Jh; [|discriminate]. inversion J; subst a. clear J.
  rewrite Forall_forall in W. specialize (W h (nth_error_In _ _ Jh)). destruct W as [_ W2 W3 W4]. simpl in H.
  destruct (nth_error (pr_hs p1) i) as [g|] eqn:G; [|inversion H; subst; rewrite Jh; auto].
  destruct (run o c (view (pr_ob p1) g)) as [e1 o1] eqn:R. destruct (write_back c (pr_ob p1) g e1) as [ob g'] eqn:WB. inversion H; subst. clear H. simpl.
  rewrite put_other by congruence. rewrite Jh. simpl. f_equal. unfold write_back in WB. destruct (pr_ob p1) as [ms hp ads ws evs f]. simpl in *.
  destruct c as []; simpl in S; try tauto; inversion R; subst; clear R; simpl in WB.
  - destruct (store true ads (hd_adapter g) a) as [ads' ai] eqn:SA.
    destruct (store false ws (hd_watcher g) (deref ws (hd_watcher g))) as [ws' wi] eqn:SW.
    destruct (store false evs (hd_ev g) (deref evs (hd_ev g))) as [evs' vi] eqn:SV. inversion WB; subst. unfold view. simpl.
    pose proof (store_id _ ws (hd_watcher g)) as E1. rewrite SW in E1. pose proof (store_id _ evs (hd_ev g)) as E2. rewrite SV in E2. simpl in *. subst.
    pose proof (store_fresh _ ads (hd_adapter g) a _ W2) as E3. rewrite SA in E3. simpl in E3. rewrite E3, nth_put_id. auto.
  - destruct (store false ads (hd_adapter g) (deref ads (hd_adapter g))) as [ads' ai] eqn:SA.
    destruct (store true ws (hd_watcher g) (Some 0)) as [ws' wi] eqn:SW.
    destruct (store false evs (hd_ev g) (deref evs (hd_ev g))) as [evs' vi] eqn:SV. simpl in SW. rewrite SW in WB. inversion WB; subst. unfold view. simpl.
    pose proof (store_id _ ads (hd_adapter g)) as E1. rewrite SA in E1. pose proof (store_id _ evs (hd_ev g)) as E2. rewrite SV in E2. simpl in *. subst.
    pose proof (store_fresh _ ws (hd_watcher g) (Some 0) _ W3) as E3. simpl in E3. rewrite SW in E3. simpl in E3. rewrite E3, nth_put_id. auto.
  - destruct (store false ads (hd_adapter g) (deref ads (hd_adapter g))) as [ads' ai] eqn:SA.
    destruct (store false ws (hd_watcher g) (deref ws (hd_watcher g))) as [ws' wi] eqn:SW.
    destruct (store true evs (hd_ev g) (Some new_evaluator)) as [evs' vi] eqn:SV. simpl in SV. rewrite SV in WB. inversion WB; subst. unfold view. simpl.
    pose proof (store_id _ ads (hd_adapter g)) as E1. rewrite SA in E1. pose proof (store_id _ ws (hd_watcher g)) as E2. rewrite SW in E2. simpl in *. subst.
    pose proof (store_fresh _ evs (hd_ev g) (Some new_evaluator) _ W4) as E3. simpl in E3. rewrite SV in E3. simpl in E3. rewrite E3, nth_put_id. auto.
Qed.
Print Assumptions C88_own_parts.

(** An enforcer constructed on the model of another has its rules and nothing else of it:
    no adapter and no watcher, all switches on, the default hierarchy level. *)
Theorem C88_on_model : forall o p p' out i a, act o (Onto i) p = (p', out) -> enforcer_of p i = Some a ->
  exists b, enforcer_of p' (List.length (pr_hs p)) = Some b /\
    (forall sec pt, stored b sec pt = stored a sec pt) /\ e_adapter b = None /\ e_watcher b = None /\
    switches b = (true, true, true, true) /\ level_of b = 10.
Proof.
  intros o p p' out i a H E. unfold enforcer_of in *. simpl in H. destruct (nth_error (pr_hs p) i) as [h|]; [|discriminate].
  inversion E; subst a. inversion H; subst. simpl. rewrite nth_error_app2, Nat.sub_diag by lia. simpl. eexists. split; [reflexivity|].
  repeat split. unfold level_of, hget, view. simpl. rewrite nth_error_app2, Nat.sub_diag by lia. reflexivity.
Qed.
Print Assumptions C88_on_model.
Example C88_parts_case :
  let p := go mini [Copy 0; Call 0 (KSetAdapter (Some (AFile false "policy.csv"))); Copy 0; Onto 0] (alone org) in
  let q := go mini [Call 1 (KSetAdapter None); Call 1 KSetWatcher; Call 2 KSetEvaluator; Call 2 KSetWatcher] p in
  option_map e_adapter (enforcer_of q 0) = Some (Some (AFile false "policy.csv")) /\
  option_map e_watcher (enforcer_of q 0) = Some None /\ option_map e_watcher (enforcer_of q 1) = Some (Some 0) /\
  option_map level_of (enforcer_of q 3) = Some 10.
Proof. repeat split; vm_compute; reflexivity. Qed.

(** A copy is not a snapshot: a change through the copy changes what the original answers. *)
Theorem C88_independent_refuted : exists p, acts mini (alone org) [Copy 0; Call 1 (KAddPolicy "p" ["carol"; "data1"; "read"])] p /\
  answer (alone org) 0 ["carol"; "data1"; "read"] = Some (Ok false) /\ answer p 0 ["carol"; "data1"; "read"] = Some (Ok true).
Proof.
  eexists. split. { repeat (eapply acts_step; [vm_compute; reflexivity|discriminate|]). apply acts_nil. }
  split; vm_compute; reflexivity.
Qed.
Print Assumptions C88_independent_refuted.

(** Two enforcers constructed on one model are not such a family: they hold the same
    rules, but the role given through the second one is unknown to the first, which has
    answered a request before, and the second one knows no role given before. *)
Theorem C88_shared_model_refuted : exists p,
  acts mini (alone org) [Call 0 (KEnforce "" (reqs ["alice"; "data1"; "read"])); Onto 0; Call 1 (KAddGrouping "g" ["carol"; "admin"])] p /\
  option_map (fun e => stored e "g" "g") (enforcer_of p 0) = option_map (fun e => stored e "g" "g") (enforcer_of p 1) /\
  answer p 0 ["alice"; "data1"; "read"] = Some (Ok true) /\ answer p 1 ["alice"; "data1"; "read"] = Some (Ok false) /\
  answer p 0 ["carol"; "data1"; "read"] = Some (Ok false) /\ answer p 1 ["carol"; "data1"; "read"] = Some (Ok true).
Proof.
  eexists. split. { repeat (eapply acts_step; [vm_compute; reflexivity|discriminate|]). apply acts_nil. }
  repeat split; vm_compute; reflexivity.
Qed.
Print Assumptions C88_shared_model_refuted.
(** Worse, if the first has answered no request yet, the roles given through it are lost to it. *)
Theorem C88_shared_model_loses_roles_refuted : exists p,
  acts mini (alone org) [Onto 0; Call 1 (KAddGrouping "g" ["carol"; "guest"])] p /\
  answer (alone org) 0 ["alice"; "data1"; "read"] = Some (Ok true) /\ answer p 0 ["alice"; "data1"; "read"] = Some (Ok false).
Proof.
  eexists. split. { repeat (eapply acts_step; [vm_compute; reflexivity|discriminate|]). apply acts_nil. }
  split; vm_compute; reflexivity.
Qed.
Print Assumptions C88_shared_model_loses_roles_refuted.
