(** A watcher that makes its own enforcer load the policy: proofs. *)
From Coq Require Import Permutation.
From Verif Require Import Base P_Base M_Util M_RoleManager M_Model M_Persist M_Evaluator M_Enforcer M_OwnWatcher S_Text S_Policy S_Persist S_History S_Notify S_Roles S_Sync
  S_OwnWatcher S_Cluster S_Reload P_Enforce P_Decide P_Store P_Group P_Api P_History P_Roles P_Nodup P_Notify P_Sync P_Persist P_Ready P_OwnWatcher P_Cluster T_Persist.

(** ** Whatever the watcher does, it does it to what the call leaves *)
Section Acts.
  Variable up : notice -> nat -> M unit.
  Definition acts {A} (c cw : M A) : Prop := forall e,
    (heard (fst (c e)) = heard e /\ cw e = c e) \/
    (heard (fst (c e)) = S (heard e) /\ exists a, snd (c e) = Ok a /\
       cw e = (fst (up NUpdate (heard e) (fst (c e))), bind (snd (up NUpdate (heard e) (fst (c e)))) (fun _ => Ok a))).
  Lemma acts_bind : forall A B (x : M A) (k kw : A -> M B), keeps no_word x -> (forall a, acts (k a) (kw a)) -> acts (mbind x k) (mbind x kw).
  Proof.
    intros A B x k kw K R e. unfold mbind. pose proof (no_word_heard _ _ (K e)) as N. destruct (x e) as [e1 [a|t|u]]; cbn [fst snd] in *; auto.
    specialize (R a e1). rewrite N in R. exact R.
  Qed.
  Lemma acts_refl : forall A (c : M A), keeps no_word c -> acts c c.
  Proof. intros A c K e. left. split; auto. apply no_word_heard. auto. Qed.
  Lemma acts_drop : forall A (c cw : M A), acts c cw -> acts (drop_value c) (drop_value cw).
  Proof.
    intros A c cw R e. specialize (R e). unfold drop_value, mbind.
    destruct R as [[N ->]|[N [a [E ->]]]].
    - left. split; auto. destruct (c e) as [e1 [a|t|u]]; auto.
    - right. destruct (c e) as [e1 out]. cbn [fst snd] in *. subst out. cbn [fst snd ret]. split; auto. exists tt. split; auto.
      destruct (up NUpdate (heard e) e1) as [e2 [v|t|u]]; reflexivity.
  Qed.
  Lemma acts_notify : forall base k, is_base_of base CWatcher = false \/ k = NUpdate -> acts (notify ;;; ret true) (w_notify up base k ;;; ret true).
  Proof.
    intros base k B e. assert (K : (if IsInstanceOf base m_watcher_class then k else NUpdate) = NUpdate) by (unfold IsInstanceOf, m_watcher_class; destruct B as [ -> | -> ]; auto; destruct (is_base_of base CWatcher); auto).
    unfold mbind, w_notify, w_call, notify, heard. rewrite K. destruct (e_notify e), (e_watcher e) as [n|] eqn:W; cbn [fst snd ret]; rewrite ?W; auto.
    right. split; [reflexivity|]. exists true. split; auto. destruct (up NUpdate n (set_watcher (Some (S n)) e)) as [e2 [v|t|u]]; reflexivity.
  Qed.
  Lemma acts_block : forall A (f : model -> res (model * A)) (g : A -> bool) (mid : A -> M unit) base k, is_base_of base CWatcher = false \/ k = NUpdate -> (forall a, keeps no_word (mid a)) ->
    acts (mbind (on_model f) (fun a => if negb (g a) then ret false else mid a ;;; notify ;;; ret true))
         (mbind (on_model f) (fun a => if negb (g a) then ret false else mid a ;;; w_notify up base k ;;; ret true)).
  Proof.
    intros A f g mid base k B K. apply acts_bind. { apply keeps_on_model; [apply no_word_refl|]. intros e m a _. split; reflexivity. }
    intros a. destruct (g a); cbn [negb]. 2:{ apply acts_refl. apply keeps_ret. apply no_word_refl. }
    apply acts_bind; auto. intros _. apply acts_notify. auto.
  Qed.
  Lemma acts_ext : forall A (c c' cw cw' : M A), (forall e, c' e = c e) -> (forall e, cw' e = cw e) -> acts c cw -> acts c' cw'.
  Proof. intros A c c' cw cw' H1 H2 R e. rewrite H1, H2. apply R. Qed.
  Ltac blk := intros e; apply mbind_ext; [reflexivity|]; intros []; cbn [negb]; auto; intros e'; apply mbind_assoc.
  Lemma acts_add : forall sec pt r, acts (i_addPolicy sec pt r) (w_addPolicy up sec pt r).
  Proof. intros. eapply acts_ext; [| |exact (acts_block _ (fun m => AddPolicy m sec pt r) (fun b => b) _ CWatcherEx (NForAddPolicy r) (or_introl eq_refl) (fun _ => mid_ok sec pt policy_add [r] (CAdd sec pt r)))]; blk. Qed.
  Lemma acts_add_many : forall sec pt rs, acts (i_addPolicies sec pt rs) (w_addPolicies up sec pt rs).
  Proof. intros. eapply acts_ext; [| |exact (acts_block _ (fun m => AddPolicies m sec pt rs) (fun b => b) _ CWatcher NUpdate (or_intror eq_refl) (fun _ => mid_ok sec pt policy_add rs (CAddMany sec pt rs)))]; blk. Qed.
  Lemma acts_remove : forall sec pt r, acts (i_removePolicy sec pt r) (w_removePolicy up sec pt r).
  Proof. intros. eapply acts_ext; [| |exact (acts_block _ (fun m => RemovePolicy m sec pt r) (fun b => b) _ CWatcherEx (NForRemovePolicy r) (or_introl eq_refl) (fun _ => mid_ok sec pt policy_add [r] (CRemove sec pt r)))]; blk. Qed.
  Lemma acts_remove_many : forall sec pt rs, acts (i_removePolicies sec pt rs) (w_removePolicies up sec pt rs).
  Proof. intros. eapply acts_ext; [| |exact (acts_block _ (fun m => AddPolicies m sec pt rs) (fun b => b) _ CWatcher NUpdate (or_intror eq_refl) (fun _ => mid_ok sec pt policy_add rs (CRemoveMany sec pt rs)))]; blk. Qed.
  Lemma acts_remove_filtered : forall sec pt i vals, acts (i_removeFilteredPolicy sec pt i vals) (w_removeFilteredPolicy up sec pt i vals).
  Proof.
    intros. eapply acts_ext; [| |exact (acts_block _ (fun m => RemoveFilteredPolicy m sec pt i vals) fst _ CWatcherEx (NForRemoveFilteredPolicy i vals) (or_introl eq_refl) (fun p => mid_ok sec pt policy_remove (snd p) (CRemoveFiltered sec pt i vals)))];
    intros e; (apply mbind_ext; [reflexivity|]); intros [[] eff]; cbn [negb fst snd]; auto; intros e'; apply mbind_assoc.
  Qed.
  Lemma acts_update : forall sec pt a b, acts (i_updatePolicy sec pt a b) (w_updatePolicy up sec pt a b).
  Proof. intros. exact (acts_block _ (fun m => UpdatePolicy m sec pt a b) (fun b => b) _ CWatcherUpdatable (NForUpdatePolicy a b) (or_introl eq_refl) (fun _ => mid_ok2 sec pt [a] [b])). Qed.
  Lemma acts_update_many : forall sec pt a b, acts (i_updatePolicies sec pt a b) (w_updatePolicies up sec pt a b).
  Proof. intros. exact (acts_block _ (fun m => UpdatePolicies m sec pt a b) (fun b => b) _ CWatcherUpdatable (NForUpdatePolicies a b) (or_introl eq_refl) (fun _ => mid_ok2 sec pt a b)). Qed.
  Lemma acts_save : acts SavePolicy (w_SavePolicy up).
  Proof.
    apply acts_bind. { intros e. unfold IsFiltered. destruct (e_adapter e); split; reflexivity. }
    intros []. { apply acts_refl. apply keeps_fail, no_word_refl. } apply acts_bind. { apply no_word_save. }
    intros _ e. unfold notify_always, w_call, heard. destruct (e_watcher e) as [n|] eqn:W; cbn [fst snd]; rewrite ?W; auto.
    right. split; auto. exists tt. split; auto.
    change (if IsInstanceOf CWatcherEx m_watcher_class then NForSavePolicy else NUpdate) with NUpdate. cbn [set_watcher e_watcher].
    destruct (up NUpdate n (set_watcher (Some (S n)) e)) as [e2 [[]|t|u]]; auto.
  Qed.
  Lemma told_last_acts : forall o c, told_last c -> acts (run o c) (wrun up o c).
  Proof.
    intros o c T. destruct c; cbn [told_last] in T; try (destruct T; fail); cbn [run wrun]; try apply acts_drop.
    - apply acts_add.
    - apply acts_add_many.
    - apply acts_remove.
    - apply acts_remove_many.
    - apply acts_remove_filtered.
    - apply acts_update.
    - apply acts_update_many.
    - apply acts_add_many.
    - apply acts_remove_many.
    - apply acts_update.
    - apply acts_save.
  Qed.
End Acts.

(** ** Types and sources stay *)
Ltac shape_step := intros; apply keeps_on_model; [exact same_shape_refl|]; intros e0 m0 a0 Q;
  (eapply writes_shape; first [eapply writes_add; exact Q|eapply writes_add_many; exact Q|eapply writes_remove; exact Q
     |eapply writes_remove_filtered; exact Q|eapply writes_update; exact Q|eapply writes_update_many; exact Q]).
Ltac shape_call L := intros; apply L; [exact same_shape_refl|exact same_shape_trans|exact asts_shape|shape_step].
Lemma shape_add : forall sec pt r, keeps same_shape (i_addPolicy sec pt r).
Proof. shape_call keeps_add. Qed.
Lemma shape_add_many : forall sec pt r, keeps same_shape (i_addPolicies sec pt r).
Proof. shape_call keeps_add_many. Qed.
Lemma shape_remove : forall sec pt r, keeps same_shape (i_removePolicy sec pt r).
Proof. shape_call keeps_remove. Qed.
Lemma shape_remove_many : forall sec pt r, keeps same_shape (i_removePolicies sec pt r).
Proof. shape_call keeps_remove_many. Qed.
Lemma shape_remove_filtered : forall sec pt i vals, keeps same_shape (i_removeFilteredPolicy sec pt i vals).
Proof. shape_call keeps_remove_filtered. Qed.
Lemma shape_update : forall sec pt a b, keeps same_shape (i_updatePolicy sec pt a b).
Proof. shape_call keeps_update. Qed.
Lemma shape_update_many : forall sec pt a b, keeps same_shape (i_updatePolicies sec pt a b).
Proof. shape_call keeps_update_many. Qed.
Lemma shape_declared : forall e e', same_shape e e' -> forall sec pt, declared e' sec pt <-> declared e sec pt.
Proof.
  intros e e' G sec pt. specialize (G sec pt). unfold declared, outline in *. destruct (get_ast (e_model e') sec pt), (get_ast (e_model e) sec pt); cbn in G; try discriminate; split; intros [x H]; eauto; discriminate.
Qed.

(** The adapter of a file does not learn anything, and the files stay. *)
Definition source (e e' : enforcer) : Prop := e_fs e' = e_fs e /\ (file_backed e -> e_adapter e' = e_adapter e).
Definition untouched (e e' : enforcer) : Prop := e_fs e' = e_fs e /\ e_adapter e' = e_adapter e.
Lemma source_refl : forall e, source e e.
Proof. split; auto. Qed.
Lemma source_trans : forall a b c, source a b -> source b c -> source a c.
Proof.
  intros a b c [A1 A2] [B1 B2]. split; [congruence|]. intros F. rewrite <- (A2 F). apply B2. unfold file_backed in *. rewrite (A2 F). exact F.
Qed.
Lemma untouched_refl : forall e, untouched e e.
Proof. split; auto. Qed.
Lemma untouched_trans : forall a b c, untouched a b -> untouched b c -> untouched a c.
Proof. unfold untouched. intuition congruence. Qed.
Lemma untouched_source : forall e e', untouched e e' -> source e e'.
Proof. intros e e' [A B]. split; auto. Qed.
Lemma untouched_incremental : forall op pt rs, keeps untouched (e_BuildIncrementalRoleLinks op pt rs).
Proof. apply parts_incremental; [exact untouched_trans|split; auto|split; auto]. Qed.
Lemma untouched_rebuild : keeps untouched rebuild_if_auto.
Proof. apply parts_rebuild_if; [exact untouched_refl|exact untouched_trans|split; auto|split; auto]. Qed.
Lemma untouched_notify : keeps untouched notify.
Proof. apply parts_notify; [exact untouched_refl|split; auto]. Qed.
Lemma as_source : forall A (c : M A), keeps untouched c -> keeps source c.
Proof. intros A c K e. apply untouched_source, K. Qed.
Lemma source_autosave : forall c, keeps source (autosave c).
Proof.
  intros c e. unfold autosave, source, file_backed. destruct (e_adapter e) as [a|] eqn:E; cbn [fst]; auto. destruct (e_auto_save e); cbn [fst]; auto.
  destruct a as [b path|t|path fd|u]; destruct (adapter_call _ c) as [a' out] eqn:Q; cbn in Q; destruct out as [v|[]|]; cbn; split; auto; intros F; try (destruct F; fail);
    destruct c; cbn in Q; try (destruct b); inversion Q; reflexivity.
Qed.
Lemma keeps_block : forall (R : enforcer -> enforcer -> Prop) A (f : model -> res (model * A)) (k : A -> M bool), (forall e, R e e) -> (forall a b c, R a b -> R b c -> R a c) ->
  (forall m e, R e (set_model m e)) -> (forall a, keeps R (k a)) -> keeps R (mbind (on_model f) k).
Proof. intros R A f k RR RT RM K. apply keeps_bind; auto. apply keeps_on_model; auto. Qed.
Lemma source_tail : forall sec pt op rs c, keeps source (when_g sec (e_BuildIncrementalRoleLinks op pt rs) ;;; autosave c ;;; notify ;;; ret true).
Proof.
  intros. apply keeps_bind; [exact source_trans| |intros; apply keeps_bind; [exact source_trans|apply source_autosave|intros; apply keeps_bind; [exact source_trans|apply as_source, untouched_notify|intros; apply keeps_ret; exact source_refl]]].
  apply keeps_when; [exact source_refl|]. intros. apply as_source, untouched_incremental.
Qed.
Ltac src := intros; apply keeps_block; [exact source_refl|exact source_trans|split; auto|intros []; cbn [negb]; [apply source_tail|apply keeps_ret; exact source_refl]].
Lemma source_add : forall sec pt r, keeps source (i_addPolicy sec pt r).
Proof. src. Qed.
Lemma source_add_many : forall sec pt r, keeps source (i_addPolicies sec pt r).
Proof. src. Qed.
Lemma source_remove : forall sec pt r, keeps source (i_removePolicy sec pt r).
Proof. src. Qed.
Lemma source_remove_many : forall sec pt r, keeps source (i_removePolicies sec pt r).
Proof. src. Qed.
Lemma source_remove_filtered : forall sec pt i vals, keeps source (i_removeFilteredPolicy sec pt i vals).
Proof. intros; apply keeps_block; [exact source_refl|exact source_trans|split; auto|intros [[] eff]; cbn [negb]; [apply source_tail|apply keeps_ret; exact source_refl]]. Qed.
Ltac unt := intros; apply keeps_block; [exact untouched_refl|exact untouched_trans|split; auto|intros []; cbn [negb]; [|apply keeps_ret; exact untouched_refl]];
  apply keeps_bind; [exact untouched_trans|apply keeps_when; [exact untouched_refl|intros; apply keeps_bind; [exact untouched_trans|apply untouched_incremental|intros; apply untouched_incremental]]|
    intros; apply keeps_bind; [exact untouched_trans|apply untouched_notify|intros; apply keeps_ret; exact untouched_refl]].
Lemma untouched_update : forall sec pt a b, keeps untouched (i_updatePolicy sec pt a b).
Proof. unt. Qed.
Lemma untouched_update_many : forall sec pt a b, keeps untouched (i_updatePolicies sec pt a b).
Proof. unt. Qed.

(** ** Loading after a change that the storage did not see *)
Lemma load_members : forall e rs, offers e rs -> Forall (known e) rs -> forall sec pt r, sec = "p" \/ sec = "g" ->
  (In r (stored (fst (LoadPolicy e)) sec pt) <-> declared e sec pt /\ section_of pt = sec /\ In (pt, r) rs).
Proof.
  intros e rs O K sec pt r G. destruct (load_policy_spec e rs O K) as [SP [SG _]].
  assert (RF : In r (rules_for pt rs) <-> In (pt, r) rs).
  { unfold rules_for. rewrite in_map_iff. split.
    - intros [[q y] [E I]]. apply filter_In in I. cbn in *. destruct I as [I Q]. apply String.eqb_eq in Q. subst. exact I.
    - intros I. exists (pt, r). split; auto. apply filter_In. split; auto. cbn. apply eqb_refl_s. }
  assert (M : forall s : store, In r (rules_of (fold_left emplace (rules_for pt rs) (store_clear s))) <-> In (pt, r) rs).
  { intros s. pose proof (emplace_kept s (rules_for pt rs)) as KP. destruct s; cbn [kept_as] in KP; [rewrite KP; exact RF|]. destruct KP as [_ KP]. rewrite KP. exact RF. }
  unfold declared. destruct G as [->| ->]; [rewrite SP|rewrite SG].
  - destruct (get_ast (e_model e) "p" pt) as [a|t|u]; try (split; [intros []|intros [[x X] _]; discriminate]).
    destruct (String.eqb_spec (section_of pt) "p") as [E|E]; [rewrite M; split; [intros; eauto|tauto]|split; [intros []|tauto]].
  - destruct (get_ast (e_model e) "g" pt) as [a|t|u]; try (split; [intros []|intros [[x X] _]; discriminate]).
    destruct (String.eqb_spec (section_of pt) "g") as [E|E]; [rewrite M; split; [intros; eauto|tauto]|split; [intros []|tauto]].
Qed.
Lemma reload_same : forall e e1 rs, offers e rs -> Forall (known e) rs -> untouched e e1 -> same_shape e e1 -> forall sec pt r, sec = "p" \/ sec = "g" ->
  (In r (stored (fst (LoadPolicy e1)) sec pt) <-> In r (stored (fst (LoadPolicy e)) sec pt)).
Proof.
  intros e e1 rs O K [F A] SH sec pt r G. pose proof (shape_declared _ _ SH) as D.
  assert (O1 : offers e1 rs) by (unfold offers in *; rewrite A, F; exact O).
  assert (K1 : Forall (known e1) rs) by (eapply Forall_impl; [|exact K]; intros kr Q; apply D; auto).
  rewrite (load_members e1 rs O1 K1), (load_members e rs O K), D; tauto.
Qed.
Lemma acts_reload : forall A (c cw : M A) e rs, acts reloading c cw -> keeps same_shape c -> untouched e (fst (c e)) ->
  offers e rs -> Forall (known e) rs -> heard e < heard (fst (c e)) -> forall sec pt r, sec = "p" \/ sec = "g" ->
  (In r (stored (fst (cw e)) sec pt) <-> In r (stored (fst (LoadPolicy e)) sec pt)).
Proof.
  intros A c cw e rs AC SH U O K H sec pt r G. destruct (AC e) as [[N _]|[_ [a [_ E]]]]; [lia|]. rewrite E. cbn [fst]. unfold reloading. eapply reload_same; eauto.
Qed.
(** ... also when there is something left to do. *)
Lemma acts_then : forall (c cw : M bool) (t : M unit) e (P : enforcer -> Prop), keeps mute t -> (forall a b, mute a b -> P a -> P b) -> P (fst (cw e)) -> P (fst ((b <- cw ;; t ;;; ret b) e)).
Proof.
  intros c cw t e P K MP H. unfold mbind. destruct (cw e) as [e1 [b|x|u]]; cbn [fst] in *; auto. pose proof (K e1) as K1. destruct (t e1) as [e2 [v|x|u]]; cbn [fst ret] in *; eapply MP; eauto.
Qed.
Lemma then_heard : forall (c : M bool) (t : M unit) e, keeps mute t -> heard (fst ((b <- c ;; t ;;; ret b) e)) = heard (fst (c e)).
Proof.
  intros c t e K. unfold mbind. destruct (c e) as [e1 [b|x|u]]; cbn [fst]; auto. pose proof (K e1) as [_ [_ [_ [W _]]]]. destruct (t e1) as [e2 [v|x|u]]; cbn [fst ret] in *; unfold heard; rewrite W; auto.
Qed.
Lemma mute_members : forall sec pt r (Q : Prop) a b, mute a b -> (In r (stored a sec pt) <-> Q) -> (In r (stored b sec pt) <-> Q).
Proof. intros sec pt r Q a b [S _] H. rewrite (same_asts_stored _ _ _ _ S). exact H. Qed.
Lemma drop_fst : forall A (c : M A) e, fst (drop_value c e) = fst (c e).
Proof. intros A c e. unfold drop_value, mbind. destruct (c e) as [e1 [a|t|u]]; auto. Qed.

Lemma file_undone : forall o c e rs, one_change c -> c <> KSavePolicy -> file_backed e -> offers e rs -> Forall (known e) rs -> was_told e (fst (run o c e)) ->
  forall sec pt r, sec = "p" \/ sec = "g" -> (In r (stored (fst (wrun reloading o c e)) sec pt) <-> In r (stored (fst (LoadPolicy e)) sec pt)).
Proof.
  unfold was_told. intros o c e rs OC NS FB O K H sec pt r G.
  assert (SRC : forall A (d : M A), keeps source d -> untouched e (fst (d e))) by (intros A d S; destruct (S e) as [S1 S2]; split; auto).
  destruct c; try (destruct OC as [OC|OC]; destruct OC; fail); try congruence; cbn [run wrun] in *; rewrite drop_fst in *.
  - eapply acts_reload; eauto using acts_add, shape_add, source_add.
  - eapply acts_reload; eauto using acts_add_many, shape_add_many, source_add_many.
  - eapply acts_reload; eauto using acts_remove, shape_remove, source_remove.
  - eapply acts_reload; eauto using acts_remove_many, shape_remove_many, source_remove_many.
  - eapply acts_reload; eauto using acts_remove_filtered, shape_remove_filtered, source_remove_filtered.
  - eapply acts_reload; eauto using acts_update, shape_update, untouched_update, as_source.
  - eapply acts_reload; eauto using acts_update_many, shape_update_many, untouched_update_many, as_source.
  - unfold AddNamedGroupingPolicy in H. rewrite then_heard in H by apply mute_links_if.
    apply (acts_then (i_addPolicy "g" pt0 r0) _ _ e (fun x => In r (stored x sec pt) <-> _)); [apply mute_links_if|intros; eapply mute_members; eauto|].
    eapply acts_reload; eauto using acts_add, shape_add, source_add.
  - eapply acts_reload; eauto using acts_add_many, shape_add_many, source_add_many.
  - unfold RemoveNamedGroupingPolicy in H. rewrite then_heard in H by apply mute_rebuild_if.
    apply (acts_then (i_addPolicy "g" pt0 r0) _ _ e (fun x => In r (stored x sec pt) <-> _)); [apply mute_rebuild_if|intros; eapply mute_members; eauto|].
    eapply acts_reload; eauto using acts_remove, shape_remove, source_remove.
  - eapply acts_reload; eauto using acts_remove_many, shape_remove_many, source_remove_many.
  - unfold RemoveFilteredNamedGroupingPolicy in H. rewrite then_heard in H by apply mute_rebuild_if.
    apply (acts_then (i_removeFilteredPolicy "g" pt0 i vals) _ _ e (fun x => In r (stored x sec pt) <-> _)); [apply mute_rebuild_if|intros; eapply mute_members; eauto|].
    eapply acts_reload; eauto using acts_remove_filtered, shape_remove_filtered, source_remove_filtered.
  - eapply acts_reload; eauto using acts_update, shape_update, untouched_update, as_source.
Qed.
Lemma update_undone : forall o c e rs, updates c -> offers e rs -> Forall (known e) rs -> was_told e (fst (run o c e)) ->
  forall sec pt r, sec = "p" \/ sec = "g" -> (In r (stored (fst (wrun reloading o c e)) sec pt) <-> In r (stored (fst (LoadPolicy e)) sec pt)).
Proof.
  unfold was_told. intros o c e rs UP O K H sec pt r G.
  assert (UNT : forall A (d : M A), keeps untouched d -> untouched e (fst (d e))) by (intros A d S; apply S).
  destruct c; try (destruct UP; fail); cbn [run wrun] in *; rewrite drop_fst in *.
  - eapply acts_reload; eauto using acts_update, shape_update, untouched_update.
  - eapply acts_reload; eauto using acts_update_many, shape_update_many, untouched_update_many.
  - eapply acts_reload; eauto using acts_update, shape_update, untouched_update.
Qed.

(** ** A storage that does as it is told *)
Section Storage.
  Variables (rules : rule -> Prop) (T0 : table) (load : list acall -> list string * option exn) (o : oracle).
  Hypothesis apart : forall r r', rules r -> rules r' -> Permutation r r' -> r = r'.
  Hypothesis plain : forall r, rules r -> plain_rule r.
  Hypothesis rel : reliable T0 load.
  Definition good (e : enforcer) : Prop := up_to_date rules T0 load (told e) e.

  (** A computation that keeps the enforcer in step with the storage. *)
  Definition stays {A} (c : M A) : Prop := forall e e' a, good e -> c e = (e', Ok a) -> good e' /\ same_types e e'.
  Lemma shape_types : forall e e', same_shape e e' -> same_types e e'.
  Proof. intros e e' S sec pt _. symmetry. apply shape_declared, S. Qed.
  Lemma types_trans : forall a b c, same_types a b -> same_types b c -> same_types a c.
  Proof. intros a b c H1 H2 sec pt G. rewrite (H1 sec pt G). apply H2, G. Qed.
  Lemma stays_of : forall A (c : M A), steps (mirrors rules) c -> (forall e e' a, c e = (e', Ok a) -> good e -> loud e e') -> keeps same_shape c -> stays c.
  Proof.
    intros A c MI LO SH e e' a G E. pose proof G as [P S]. destruct (tp_adapter _ _ _ P) as [u [AD [B L]]]. pose proof (SH e) as SE. rewrite E in SE. cbn [fst] in SE.
    split; [|apply shape_types, SE]. assert (GU : guard rules e). { split; [eauto|]. split; [apply P|]. split; intros sec pt; apply (tp_rules _ _ _ P sec pt). }
    destruct (MI e e' a E GU) as [[[u' [A' B']] [S' [D' R']]] [log [TL RP]]]. destruct (LO e e' a E G) as [[W' N'] [BH _]]; [split; apply P|].
    split.
    - constructor; auto.
      + exists u'. split; auto. split; auto. unfold behaviour in BH. rewrite AD, A' in BH. congruence.
      + intros sec pt PG DC. apply (tp_types _ _ _ P); auto. apply (shape_declared _ _ SE), DC.
      + intros sec pt. split; [apply D'|apply R'].
    - rewrite TL, has_app. eapply replay_has; eauto.
  Qed.
  Lemma stays_load : stays LoadPolicy.
  Proof.
    intros e e' a G E. assert (ST : same_types e e) by (intros sec pt _; reflexivity). destruct (loads rules T0 load plain rel (told e) e e G (proj1 G) eq_refl ST) as [U [TL SL]].
    rewrite E in *. cbn [fst] in *. split; auto. unfold good. rewrite TL. exact U.
  Qed.
  Lemma stays_acts : forall A (c cw : M A), acts reloading c cw -> stays c -> stays cw.
  Proof.
    intros A c cw AC ST e e' a G E. destruct (AC e) as [[_ Q]|[_ [b [Q1 Q2]]]].
    - rewrite Q in E. eapply ST; eauto.
    - rewrite Q2 in E. destruct (c e) as [e1 out] eqn:C. cbn [fst snd] in *. subst out. destruct (ST e e1 b G C) as [G1 S1]. unfold reloading in E.
      destruct (LoadPolicy e1) as [e2 [v|t|u]] eqn:L; cbn [fst snd bind] in E; try discriminate. inversion E; subst. destruct (stays_load e1 e' v G1 L) as [G2 S2]. split; auto. eapply types_trans; eauto.
  Qed.
  Lemma stays_bind : forall A B (c : M A) (k : A -> M B), stays c -> (forall a, stays (k a)) -> stays (mbind c k).
  Proof.
    intros A B c k C K e e' b G E. unfold mbind in E. destruct (c e) as [e1 [a|t|u]] eqn:Q; try discriminate. destruct (C e e1 a G Q) as [G1 S1]. destruct (K a e1 e' b G1 E) as [G2 S2]. split; auto. eapply types_trans; eauto.
  Qed.
  Lemma stays_ret : forall A (a : A), stays (ret a).
  Proof. intros A a e e' b G E. inversion E; subst. split; auto. intros sec pt _. reflexivity. Qed.
  Lemma stays_mute : forall A (c : M A), keeps mute c -> stays c.
  Proof.
    intros A c K. apply stays_of; [apply steps_mute, K| |intros e; apply asts_shape, K]. intros e e' a E _. apply (ls_mute A c K e e' a E).
  Qed.
  Lemma w_stays_add : forall sec pt r, rules r -> stays (w_addPolicy reloading sec pt r).
  Proof. intros. eapply stays_acts; [apply acts_add|]. apply stays_of; [apply steps_add; auto| |apply shape_add]. intros e e' a E _. apply (ls_add _ _ _ _ _ _ E). Qed.
  Lemma w_stays_add_many : forall sec pt rs, rs <> [] -> NoDup rs -> Forall rules rs -> stays (w_addPolicies reloading sec pt rs).
  Proof. intros. eapply stays_acts; [apply acts_add_many|]. apply stays_of; [apply steps_add_many; auto| |apply shape_add_many]. intros e e' a E _. apply (ls_add_many _ _ _ _ _ _ E). Qed.
  Lemma w_stays_remove : forall sec pt r, rules r -> stays (w_removePolicy reloading sec pt r).
  Proof. intros. eapply stays_acts; [apply acts_remove|]. apply stays_of; [apply steps_remove; auto| |apply shape_remove]. intros e e' a E _. apply (ls_remove _ _ _ _ _ _ E). Qed.
  Lemma w_stays_remove_filtered : forall sec pt i vals, stays (w_removeFilteredPolicy reloading sec pt i vals).
  Proof. intros. eapply stays_acts; [apply acts_remove_filtered|]. apply stays_of; [apply steps_remove_filtered; auto| |apply shape_remove_filtered]. intros e e' a E _. apply (ls_remove_filtered _ _ _ _ _ _ _ E). Qed.
  Lemma w_stays_add_g : forall pt r, rules r -> stays (w_AddNamedGroupingPolicy reloading pt r).
  Proof. intros. apply stays_bind; [apply w_stays_add; auto|]. intros. apply stays_bind; [apply stays_mute, mute_links_if|]. intros. apply stays_ret. Qed.
  Lemma w_stays_remove_filtered_g : forall pt i vals, stays (w_RemoveFilteredNamedGroupingPolicy reloading pt i vals).
  Proof. intros. apply stays_bind; [apply w_stays_remove_filtered|]. intros. apply stays_bind; [apply stays_mute, mute_rebuild_if|]. intros. apply stays_ret. Qed.
  Lemma w_stays_add_roles : forall user roles f, Forall (fun r => rules [user; r]) roles -> stays (w_AddRolesForUser reloading user roles f).
  Proof.
    intros user. induction roles as [|r rs IH]; intros f F; cbn [w_AddRolesForUser]; [apply stays_ret|]. inversion F; subst. apply stays_bind; [apply w_stays_add_g; auto|]. intros. apply IH. auto.
  Qed.
  Lemma w_stays_delete : forall i name, stays (w_delete reloading i name).
  Proof. intros. apply stays_bind; [apply w_stays_remove_filtered_g|]. intros. apply stays_bind; [apply w_stays_remove_filtered|]. intros. apply stays_ret. Qed.
  Lemma stays_run : forall c, cluster_call rules c -> stays (run o c).
  Proof.
    intros c CC e e' [] G E. destruct (calls rules T0 load o apart c e e' CC G E) as [U [_ D]]. split; [exact U|]. intros sec pt _. symmetry. apply D.
  Qed.
  Lemma stays_wrun : forall c, cluster_call rules c -> stays (wrun reloading o c).
  Proof.
    intros c CC. pose proof (stays_run c CC) as R. destruct CC as [F _]. destruct c; cbn [forwarded] in F; try (destruct F; fail); cbn [wrun]; try exact R; try (apply stays_bind; [|intros; apply stays_ret]).
    - apply w_stays_add; auto.
    - apply w_stays_add_many; tauto.
    - apply w_stays_remove; auto.
    - apply w_stays_remove_filtered.
    - apply w_stays_add_g; auto.
    - apply w_stays_add_many; tauto.
    - apply stays_bind; [apply w_stays_remove; auto|]. intros. apply stays_bind; [apply stays_mute, mute_rebuild_if|]. intros. apply stays_ret.
    - apply w_stays_remove_filtered_g.
    - apply w_stays_add_roles; auto.
    - apply w_stays_delete.
    - apply w_stays_delete.
    - exact (stays_acts _ _ _ (acts_save reloading) R).
  Qed.
  Lemma returns_stays : forall e cs e', returns reloading o e cs e' -> Forall (cluster_call rules) cs -> good e -> good e'.
  Proof.
    intros e cs e' H. induction H as [|e c cs e1 e2 E H IH]; intros F G; auto. inversion F; subst. apply IH; auto. eapply stays_wrun; eauto.
  Qed.
  (** The call leaves the rules it would leave without loading. *)
  Lemma same_change : forall c e e' e1, told_last c -> cluster_call rules c -> good e -> run o c e = (e1, Ok tt) -> wrun reloading o c e = (e', Ok tt) ->
    same_table (policy e') (policy e1) /\ told e' = told e1.
  Proof.
    intros c e e' e1 TL CC G R W. destruct (stays_run c CC e e1 tt G R) as [G1 S1].
    destruct (told_last_acts reloading o c TL e) as [[_ Q]|[_ [a [_ Q]]]]; rewrite ?R in Q; cbn [fst snd] in Q.
    - rewrite W in Q. inversion Q; subst. split; auto. intros s q x _. reflexivity.
    - rewrite W in Q. inversion Q; subst. unfold reloading. assert (ST : same_types e1 e1) by (intros sec pt _; reflexivity).
      destruct (loads rules T0 load plain rel (told e1) e1 e1 G1 (proj1 G1) eq_refl ST) as [U [T SL]]. split; auto.
      intros s q x PG. destruct U as [_ U]. destruct G1 as [_ V]. rewrite (U s q x PG), (V s q x PG). reflexivity.
  Qed.
End Storage.
