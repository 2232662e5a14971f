(** A watcher of the caller: proofs. *)
From Coq Require Import Permutation.
From Verif Require Import Base P_Base M_Util M_RoleManager M_Model M_Persist M_Evaluator M_Enforcer M_OwnWatcher S_Policy S_History S_Notify S_Roles S_Sync S_OwnWatcher
  P_Enforce P_Decide P_Store P_Group P_Api P_History P_Roles P_Nodup P_Notify P_Sync.

Section Watcher.
  Variable up : notice -> nat -> M unit.

  (** ** A watcher that always returns *)
  Lemma dutiful_update : dutiful up -> forall base k e, w_notify up base k e = notify e.
  Proof. intros D base k e. unfold w_notify, w_call, notify. destruct (e_watcher e), (e_notify e); auto. Qed.
  Lemma mbind_ext : forall A B (x y : M A) (f g : A -> M B) e, x e = y e -> (forall a e', f a e' = g a e') -> mbind x f e = mbind y g e.
  Proof. intros A B x y f g e H K. unfold mbind. rewrite H. destruct (y e) as [e' [a|t|u]]; auto. Qed.
  Ltac ext := repeat (intros; first [apply mbind_ext; [first [reflexivity|apply dutiful_update; assumption]|]|reflexivity|
    match goal with |- (if ?b then _ else _) _ = _ => destruct b end|match goal with |- (let (_, _) := ?p in _) _ = _ => destruct p end]).
  Lemma dutiful_add : dutiful up -> forall sec pt r e, w_addPolicy up sec pt r e = i_addPolicy sec pt r e.
  Proof. intros D sec pt r e. unfold w_addPolicy, i_addPolicy. ext. Qed.
  Lemma dutiful_add_many : dutiful up -> forall sec pt r e, w_addPolicies up sec pt r e = i_addPolicies sec pt r e.
  Proof. intros D sec pt r e. unfold w_addPolicies, i_addPolicies. ext. Qed.
  Lemma dutiful_remove : dutiful up -> forall sec pt r e, w_removePolicy up sec pt r e = i_removePolicy sec pt r e.
  Proof. intros D sec pt r e. unfold w_removePolicy, i_removePolicy. ext. Qed.
  Lemma dutiful_remove_many : dutiful up -> forall sec pt r e, w_removePolicies up sec pt r e = i_removePolicies sec pt r e.
  Proof. intros D sec pt r e. unfold w_removePolicies, i_removePolicies. ext. Qed.
  Lemma dutiful_remove_filtered : dutiful up -> forall sec pt i vals e, w_removeFilteredPolicy up sec pt i vals e = i_removeFilteredPolicy sec pt i vals e.
  Proof. intros D sec pt i vals e. unfold w_removeFilteredPolicy, i_removeFilteredPolicy. ext. Qed.
  Lemma dutiful_update_one : dutiful up -> forall sec pt a b e, w_updatePolicy up sec pt a b e = i_updatePolicy sec pt a b e.
  Proof. intros D sec pt a b e. unfold w_updatePolicy, i_updatePolicy. ext. Qed.
  Lemma dutiful_update_many : dutiful up -> forall sec pt a b e, w_updatePolicies up sec pt a b e = i_updatePolicies sec pt a b e.
  Proof. intros D sec pt a b e. unfold w_updatePolicies, i_updatePolicies. ext. Qed.
  Lemma dutiful_add_g : dutiful up -> forall pt r e, w_AddNamedGroupingPolicy up pt r e = AddNamedGroupingPolicy pt r e.
  Proof. intros D pt r e. apply mbind_ext; auto. apply dutiful_add; auto. Qed.
  Lemma dutiful_remove_g : dutiful up -> forall pt r e, w_RemoveNamedGroupingPolicy up pt r e = RemoveNamedGroupingPolicy pt r e.
  Proof. intros D pt r e. apply mbind_ext; auto. apply dutiful_remove; auto. Qed.
  Lemma dutiful_remove_filtered_g : dutiful up -> forall pt i vals e, w_RemoveFilteredNamedGroupingPolicy up pt i vals e = RemoveFilteredNamedGroupingPolicy pt i vals e.
  Proof. intros D pt i vals e. apply mbind_ext; auto. apply dutiful_remove_filtered; auto. Qed.
  Lemma dutiful_add_roles : dutiful up -> forall user roles f e, w_AddRolesForUser up user roles f e = add_roles user roles f e.
  Proof. intros D user. induction roles as [|r rs IH]; intros f e; simpl; auto. apply mbind_ext; [apply dutiful_add_g; auto|auto]. Qed.
  Lemma dutiful_run : dutiful up -> forall o c e, wrun up o c e = run o c e.
  Proof.
    intros D o c e. destruct c; cbn [wrun run]; try reflexivity; try (apply mbind_ext; [|reflexivity]).
    - apply dutiful_add; auto.
    - apply dutiful_add_many; auto.
    - apply dutiful_remove; auto.
    - apply dutiful_remove_many; auto.
    - apply dutiful_remove_filtered; auto.
    - apply dutiful_update_one; auto.
    - apply dutiful_update_many; auto.
    - apply dutiful_add_g; auto.
    - apply dutiful_add_many; auto.
    - apply dutiful_remove_g; auto.
    - apply dutiful_remove_many; auto.
    - apply dutiful_remove_filtered_g; auto.
    - apply dutiful_update_one; auto.
    - apply dutiful_add_roles; auto.
    - apply mbind_ext; [apply dutiful_remove_filtered_g; auto|]. intros. apply mbind_ext; [apply dutiful_remove_filtered; auto|auto].
    - apply mbind_ext; [apply dutiful_remove_filtered_g; auto|]. intros. apply mbind_ext; [apply dutiful_remove_filtered; auto|auto].
    - unfold w_SavePolicy, SavePolicy. apply mbind_ext; auto. intros []; auto. intros. apply mbind_ext; auto. intros _ e1. unfold w_call, notify_always.
      destruct (e_watcher e1); auto.
  Qed.

  (** ** A watcher that leaves the enforcer alone *)
  Definition reports {A} (c cw : M A) : Prop := forall e,
    fst (cw e) = fst (c e) /\
    ((heard (fst (c e)) = heard e /\ snd (cw e) = snd (c e)) \/
     (heard (fst (c e)) = S (heard e) /\ exists a, snd (c e) = Ok a /\ snd (cw e) = bind (snd (up NUpdate (heard e) (fst (c e)))) (fun _ => Ok a))).
  Definition no_word_heard : forall e e', no_word e e' -> heard e' = heard e.
  Proof. intros e e' [W _]. unfold heard. rewrite W. auto. Qed.
  Lemma reports_bind : forall A B (x : M A) (k kw : A -> M B), keeps no_word x -> (forall a, reports (k a) (kw a)) -> reports (mbind x k) (mbind x kw).
  Proof.
    intros A B x k kw K R e. unfold mbind. pose proof (no_word_heard _ _ (K e)) as N. destruct (x e) as [e1 [a|t|u]]; cbn [fst snd] in *.
    - destruct (R a e1) as [H1 H2]. rewrite N in H2. auto.
    - split; auto.
    - split; auto.
  Qed.
  Lemma reports_refl : forall A (c : M A), keeps no_word c -> reports c c.
  Proof. intros A c K e. split; auto. left. split; auto. apply no_word_heard. auto. Qed.
  Lemma reports_drop : forall A (c cw : M A), reports c cw -> reports (drop_value c) (drop_value cw).
  Proof.
    intros A c cw R e. destruct (R e) as [H1 H2]. unfold drop_value, mbind. destruct (c e) as [e1 out], (cw e) as [e2 outw]. cbn [fst snd] in *. subst e2.
    destruct H2 as [[N ->]|[N [a [-> ->]]]].
    - split. { destruct out; auto. } left. destruct out; auto.
    - split. { destruct (up NUpdate (heard e) e1) as [e3 [v|t|u]]; auto. } right. split; auto. exists tt. split; auto. cbn [ret fst]. destruct (up NUpdate (heard e) e1) as [e3 [v|t|u]]; auto.
  Qed.
  Hypothesis Det : detached up.
  Lemma up_eq : forall k n e, up k n e = (e, snd (up k n e)).
  Proof. intros k n e. pose proof (Det k n e) as H. destruct (up k n e). simpl in *. subst. auto. Qed.
  Lemma reports_notify : forall base k, is_base_of base CWatcher = false \/ k = NUpdate -> reports (notify ;;; ret true) (w_notify up base k ;;; ret true).
  Proof.
    intros base k B e. assert (K : (if IsInstanceOf base m_watcher_class then k else NUpdate) = NUpdate) by (unfold IsInstanceOf, m_watcher_class; destruct B as [ -> | -> ]; auto; destruct (is_base_of base CWatcher); auto).
    unfold mbind, w_notify, w_call, notify, heard. rewrite K. destruct (e_notify e), (e_watcher e) as [n|] eqn:W; cbn [fst snd ret]; rewrite ?W; auto.
    rewrite up_eq. cbn [set_watcher e_watcher]. destruct (snd (up NUpdate n (set_watcher (Some (S n)) e))) as [[]|t|u] eqn:U; cbn [fst snd ret set_watcher e_watcher];
      (split; [reflexivity|right; split; [reflexivity|exists true; rewrite ?U; auto]]).
  Qed.
  Lemma reports_block : forall A (f : model -> res (model * A)) (g : A -> bool) (mid : A -> M unit) base k, is_base_of base CWatcher = false \/ k = NUpdate -> (forall a, keeps no_word (mid a)) ->
    reports (mbind (on_model f) (fun a => if negb (g a) then ret false else mid a ;;; notify ;;; ret true))
            (mbind (on_model f) (fun a => if negb (g a) then ret false else mid a ;;; w_notify up base k ;;; ret true)).
  Proof.
    intros A f g mid base k B K. apply reports_bind. { apply keeps_on_model; [apply no_word_refl|]. intros e m a _. split; reflexivity. }
    intros a. destruct (g a); cbn [negb]. 2:{ apply reports_refl. apply keeps_ret. apply no_word_refl. }
    apply reports_bind; auto. intros _. apply reports_notify. auto.
  Qed.
  Lemma mid_ok : forall sec pt op rs c, keeps no_word (when_g sec (e_BuildIncrementalRoleLinks op pt rs) ;;; autosave c).
  Proof. intros. apply keeps_bind; [exact no_word_trans|apply no_word_mute, tail_mute|intros; apply no_word_autosave]. Qed.
  Lemma reports_ext : forall A (c c' cw cw' : M A), (forall e, c' e = c e) -> (forall e, cw' e = cw e) -> reports c cw -> reports c' cw'.
  Proof. intros A c c' cw cw' H1 H2 R e. rewrite H1, H2. apply R. Qed.
  Lemma mbind_assoc : forall A B C (x : M A) (f : A -> M B) (g : B -> M C) e, mbind x (fun a => mbind (f a) g) e = mbind (mbind x f) g e.
  Proof. intros. unfold mbind. destruct (x e) as [e1 [a|t|u]]; auto. Qed.
  Ltac blk := intros e; apply mbind_ext; [reflexivity|]; intros []; cbn [negb]; auto; intros e'; apply mbind_assoc.
  Lemma reports_add : forall sec pt r, reports (i_addPolicy sec pt r) (w_addPolicy up sec pt r).
  Proof. intros. eapply reports_ext; [| |exact (reports_block _ (fun m => AddPolicy m sec pt r) (fun b => b) _ CWatcherEx (NForAddPolicy r) (or_introl eq_refl) (fun _ => mid_ok sec pt policy_add [r] (CAdd sec pt r)))]; blk. Qed.
  Lemma reports_add_many : forall sec pt rs, reports (i_addPolicies sec pt rs) (w_addPolicies up sec pt rs).
  Proof. intros. eapply reports_ext; [| |exact (reports_block _ (fun m => AddPolicies m sec pt rs) (fun b => b) _ CWatcher NUpdate (or_intror eq_refl) (fun _ => mid_ok sec pt policy_add rs (CAddMany sec pt rs)))]; blk. Qed.
  Lemma reports_remove : forall sec pt r, reports (i_removePolicy sec pt r) (w_removePolicy up sec pt r).
  Proof. intros. eapply reports_ext; [| |exact (reports_block _ (fun m => RemovePolicy m sec pt r) (fun b => b) _ CWatcherEx (NForRemovePolicy r) (or_introl eq_refl) (fun _ => mid_ok sec pt policy_add [r] (CRemove sec pt r)))]; blk. Qed.
  Lemma reports_remove_many : forall sec pt rs, reports (i_removePolicies sec pt rs) (w_removePolicies up sec pt rs).
  Proof. intros. eapply reports_ext; [| |exact (reports_block _ (fun m => AddPolicies m sec pt rs) (fun b => b) _ CWatcher NUpdate (or_intror eq_refl) (fun _ => mid_ok sec pt policy_add rs (CRemoveMany sec pt rs)))]; blk. Qed.
  Lemma reports_remove_filtered : forall sec pt i vals, reports (i_removeFilteredPolicy sec pt i vals) (w_removeFilteredPolicy up sec pt i vals).
  Proof.
    intros. eapply reports_ext; [| |exact (reports_block _ (fun m => RemoveFilteredPolicy m sec pt i vals) fst _ CWatcherEx (NForRemoveFilteredPolicy i vals) (or_introl eq_refl) (fun p => mid_ok sec pt policy_remove (snd p) (CRemoveFiltered sec pt i vals)))];
    intros e; (apply mbind_ext; [reflexivity|]); intros [[] eff]; cbn [negb fst snd]; auto; intros e'; apply mbind_assoc.
  Qed.
  Lemma reports_update : forall sec pt a b, reports (i_updatePolicy sec pt a b) (w_updatePolicy up sec pt a b).
  Proof. intros. exact (reports_block _ (fun m => UpdatePolicy m sec pt a b) (fun b => b) _ CWatcherUpdatable (NForUpdatePolicy a b) (or_introl eq_refl) (fun _ => mid_ok2 sec pt [a] [b])). Qed.
  Lemma reports_update_many : forall sec pt a b, reports (i_updatePolicies sec pt a b) (w_updatePolicies up sec pt a b).
  Proof. intros. exact (reports_block _ (fun m => UpdatePolicies m sec pt a b) (fun b => b) _ CWatcherUpdatable (NForUpdatePolicies a b) (or_introl eq_refl) (fun _ => mid_ok2 sec pt a b)). Qed.
  Lemma no_word_save : keeps no_word adapter_save.
  Proof.
    intros e. unfold adapter_save. destruct (e_adapter e) as [[b path|t|path fd|u]|]; try (split; reflexivity).
    - destruct (FileAdapter_SavePolicy _ _ _) as [[? ?] ?]. split; reflexivity.
    - destruct (StringAdapter_SavePolicy _ _) as [[? ?] ?]. split; reflexivity.
  Qed.
  Lemma reports_save : reports SavePolicy (w_SavePolicy up).
  Proof.
    apply reports_bind. { intros e. unfold IsFiltered. destruct (e_adapter e); split; reflexivity. }
    intros []. { apply reports_refl. apply keeps_fail, no_word_refl. } apply reports_bind. { apply no_word_save. }
    intros _ e. unfold notify_always, w_call, heard. destruct (e_watcher e) as [n|] eqn:W; cbn [fst snd]; rewrite ?W; auto.
    rewrite up_eq. cbn [fst snd set_watcher e_watcher]. split; auto. right. split; auto. exists tt. split; auto.
    change (if IsInstanceOf CWatcherEx m_watcher_class then NForSavePolicy else NUpdate) with NUpdate. destruct (snd (up NUpdate n (set_watcher (Some (S n)) e))) as [[]| |]; auto.
  Qed.
  Lemma told_last_reports : forall o c, told_last c -> reports (run o c) (wrun up o c).
  Proof.
    intros o c T. destruct c; cbn [told_last] in T; try (destruct T; fail); cbn [run wrun]; try apply reports_drop.
    - apply reports_add.
    - apply reports_add_many.
    - apply reports_remove.
    - apply reports_remove_many.
    - apply reports_remove_filtered.
    - apply reports_update.
    - apply reports_update_many.
    - apply reports_add_many.
    - apply reports_remove_many.
    - apply reports_update.
    - apply reports_save.
  Qed.

  (** Calls that go on after the watcher was told. *)
  Lemma then_same : forall (c cw : M bool) (t : M unit) e, reports c cw -> keeps mute t ->
    forall d, d = (b <- c ;; t ;;; ret b) -> forall dw, dw = (b <- cw ;; t ;;; ret b) ->
    mute (fst (c e)) (fst (d e)) /\ mute (fst (c e)) (fst (dw e)).
  Proof.
    intros c cw t e R K d -> dw ->. destruct (R e) as [H1 _]. unfold mbind.
    destruct (c e) as [e1 out], (cw e) as [e2 outw]. cbn [fst] in *. subst e2. pose proof (K e1) as K1. pose proof (mute_refl e1) as RF.
    destruct (t e1) as [e3 [v|x|u]]; cbn [fst ret] in *; destruct out, outw; cbn [fst ret]; auto.
  Qed.
End Watcher.
