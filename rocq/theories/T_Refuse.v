(** Property C89: a storage that refuses. *)
From Coq Require Import Permutation.
From Verif Require Import Base P_Base M_Util M_RoleManager M_Effector M_Model M_Persist M_Eval M_Evaluator M_Enforcer M_Matcher
  S_Policy S_History S_Calls S_Notify S_Refuse P_Decide P_Store P_Api P_History P_Nodup P_Group P_Notify E_Examples T_Policy T_Calls.

(** ** The common form of the calls *)
Definition block {A} (f : model -> res (model * A)) (g : A -> bool) (k : A -> M unit) (c : acall) : M bool :=
  mbind (on_model f) (fun a => if negb (g a) then ret false else k a ;;; autosave c ;;; notify ;;; ret true).
Definition post (t : M unit) (c : M bool) : M bool := b <- c ;; t ;;; ret b.

Definition told_heard (e : enforcer) : list acall * nat := (told e, heard e).
Lemma mute_told : forall e e', mute e e' -> told e' = told e /\ heard e' = heard e.
Proof. intros e e' [_ [A [_ [W _]]]]. unfold told, heard. rewrite A, W. auto. Qed.
Lemma autosave_refused : forall c u e t, saves_with u c e -> refusal u c = Some t ->
  exists e', autosave c e = (e', Throw t) /\ told e' = told e ++ [c] /\ heard e' = heard e.
Proof.
  intros c u e t [A [S B]] R. unfold autosave. rewrite A, S. unfold refusal in R.
  assert (Q : is_batch_call c && negb (ua_batch u) = false). { destruct (is_batch_call c); auto. rewrite B; auto. }
  cbn [adapter_call]. rewrite Q. destruct (ua_resp u (ua_log u) c) as [x|]; [|discriminate].
  unfold told, heard. rewrite A. destruct x; inversion R; subst; eexists; (split; [reflexivity|]); auto.
Qed.
Lemma autosave_accepted : forall c u e, saves_with u c e -> refusal u c = None ->
  exists u', autosave c e = (set_adapter (Some (AUser u')) e, Ok tt) /\ ua_log u' = ua_log u ++ [c].
Proof.
  intros c u e [A [S B]] R. unfold autosave. rewrite A, S. unfold refusal in R.
  assert (Q : is_batch_call c && negb (ua_batch u) = false). { destruct (is_batch_call c); auto. rewrite B; auto. }
  cbn [adapter_call]. rewrite Q.
  destruct (ua_resp u (ua_log u) c) as [[]|]; try discriminate; eexists; (split; [reflexivity|]); auto.
Qed.
Lemma notify_told : forall e, exists e', notify e = (e', Ok tt) /\ told e' = told e /\ heard e' = one_more e.
Proof.
  intros e. unfold notify, told, heard, one_more. destruct (e_watcher e) eqn:W; [destruct (e_notify e)|]; eexists; (split; [reflexivity|]); simpl; rewrite ?W; auto.
Qed.
Lemma saves_mute : forall u c e e', mute e e' -> saves_with u c e -> saves_with u c e'.
Proof. intros u c e e' [_ [A [S _]]] [B1 [B2 B3]]. unfold saves_with. rewrite A, S. auto. Qed.

(** A refused change: nobody but the adapter hears of it and the answer is not true. *)
Definition refused (c : acall) (t : exn) (e : enforcer) (r : enforcer * res bool) : Prop :=
  heard (fst r) = heard e /\ snd r <> Ok true /\
  (told (fst r) = told e \/ told (fst r) = told e ++ [c] /\ snd r = Throw t).
Lemma refused_block : forall A (f : model -> res (model * A)) g k c u t e, (forall a, keeps mute (k a)) ->
  saves_with u c e -> refusal u c = Some t -> refused c t e (block f g k c e).
Proof.
  intros A f g k c u t e K S R. unfold block, mbind at 1, on_model. destruct (f (e_model e)) as [[m a]|x|z].
  2, 3: split; [auto|split; [discriminate|auto]].
  destruct (g a); cbn [negb]. 2: { split; [auto|split; [discriminate|auto]]. }
  assert (MU : mute (set_model m e) (fst (k a (set_model m e)))) by apply K.
  assert (S1 : saves_with u c (set_model m e)) by exact S. pose proof (saves_mute _ _ _ _ MU S1) as S2. apply mute_told in MU.
  unfold mbind. destruct (k a (set_model m e)) as [e1 [[]|x|z]]; simpl in MU; destruct MU as [M1 M2].
  - simpl in S2. destruct (autosave_refused c u e1 t S2 R) as [e2 [E [T H]]]. rewrite E. unfold refused. simpl. rewrite T, H, M1, M2.
    split; auto. split; [discriminate|auto].
  - unfold refused. simpl. rewrite M1, M2. split; auto. split; [discriminate|auto].
  - unfold refused. simpl. rewrite M1, M2. split; auto. split; [discriminate|auto].
Qed.
Lemma refused_post : forall p f c t e, keeps mute p -> refused c t e (f e) -> refused c t e (post p f e).
Proof.
  intros p f c t e K [H [N T]]. unfold post, mbind at 1. destruct (f e) as [e1 [b|x|z]]; simpl in *.
  - specialize (K e1). apply mute_told in K. destruct K as [K1 K2]. unfold mbind. destruct (p e1) as [e2 [[]|x|z]]; unfold refused; simpl in *; rewrite K1, K2.
    + split; [auto|]. split; [auto|]. destruct T as [T|[T X]]; [auto|discriminate].
    + split; [auto|]. split; [discriminate|]. destruct T as [T|[T X]]; [auto|discriminate].
    + split; [auto|]. split; [discriminate|]. destruct T as [T|[T X]]; [auto|discriminate].
  - split; [auto|]. split; [discriminate|]. tauto.
  - split; [auto|]. split; [discriminate|]. destruct T as [T|[T X]]; [auto|discriminate].
Qed.

(** Every call of the tables has that form. *)
Lemma of_says : forall f sec c, says f sec c -> forall (e : enforcer) (P : enforcer * res bool -> Prop),
  (forall A (h : model -> res (model * A)) g k, (forall a, keeps mute (k a)) -> P (block h g k c e)) ->
  (forall t b, keeps mute t -> P (b e) -> P (post t b e)) -> P (f e).
Proof.
  intros f sec c S e P HB HP.
  assert (A1 : forall s pt r, c = CAdd s pt r -> P (i_addPolicy s pt r e)).
  { intros s pt r ->. apply (HB bool (fun m => AddPolicy m s pt r) (fun b => b) (fun _ => when_g s (e_BuildIncrementalRoleLinks policy_add pt [r]))).
    intros _. apply keeps_when; [exact mute_refl|]. intros _. apply mute_incremental. }
  assert (A2 : forall s pt rs, c = CAddMany s pt rs -> P (i_addPolicies s pt rs e)).
  { intros s pt rs ->. apply (HB bool (fun m => AddPolicies m s pt rs) (fun b => b) (fun _ => when_g s (e_BuildIncrementalRoleLinks policy_add pt rs))).
    intros _. apply keeps_when; [exact mute_refl|]. intros _. apply mute_incremental. }
  assert (A3 : forall s pt r, c = CRemove s pt r -> P (i_removePolicy s pt r e)).
  { intros s pt r ->. apply (HB bool (fun m => RemovePolicy m s pt r) (fun b => b) (fun _ => when_g s (e_BuildIncrementalRoleLinks policy_add pt [r]))).
    intros _. apply keeps_when; [exact mute_refl|]. intros _. apply mute_incremental. }
  assert (A4 : forall s pt rs, c = CRemoveMany s pt rs -> P (i_removePolicies s pt rs e)).
  { intros s pt rs ->. apply (HB bool (fun m => AddPolicies m s pt rs) (fun b => b) (fun _ => when_g s (e_BuildIncrementalRoleLinks policy_add pt rs))).
    intros _. apply keeps_when; [exact mute_refl|]. intros _. apply mute_incremental. }
  assert (A5 : forall s pt i vals, c = CRemoveFiltered s pt i vals -> P (i_removeFilteredPolicy s pt i vals e)).
  { intros s pt i vals ->.
    assert (Q : P (block (fun m => RemoveFilteredPolicy m s pt i vals) fst (fun p => when_g s (e_BuildIncrementalRoleLinks policy_remove pt (snd p))) (CRemoveFiltered s pt i vals) e)).
    { apply HB. intros a. apply keeps_when; [exact mute_refl|]. intros _. apply mute_incremental. }
    unfold block, mbind at 1 in Q. unfold i_removeFilteredPolicy, mbind at 1. unfold on_model in *.
    destruct (RemoveFilteredPolicy (e_model e) s pt i vals) as [[m [rm eff]]|x|z]; exact Q. }
  destruct S as [f s pt r S|f s pt rs S|f s pt r S|f s pt rs S|f s pt i vals S]; destruct S;
    try (apply A1; reflexivity); try (apply A2; reflexivity); try (apply A3; reflexivity); try (apply A4; reflexivity); try (apply A5; reflexivity);
    try (apply (HP _ _ (mute_links_if _ _)); apply A1; reflexivity);
    try (apply (HP _ _ mute_rebuild_if); first [apply A3; reflexivity|apply A5; reflexivity]).
Qed.

(** Whatever is said: after a refusal the answer is not true, the watcher does not hear
    of the change, and what reaches the caller is the adapter's own exception (or one
    thrown before the adapter was asked). *)
Theorem C89_reported : forall f sec c u t e, says f sec c -> saves_with u c e -> refusal u c = Some t ->
  snd (f e) <> Ok true /\ heard (fst (f e)) = heard e /\
  (told (fst (f e)) = told e \/ told (fst (f e)) = told e ++ [c] /\ snd (f e) = Throw t).
Proof.
  intros f sec c u t e S W R. assert (Q : refused c t e (f e)).
  { apply (of_says f sec c S e). { intros. eapply refused_block; eauto. } intros. apply refused_post; auto. }
  destruct Q as [Q1 [Q2 Q3]]. auto.
Qed.
Print Assumptions C89_reported.

(** For rules of section p exactly: a call that changes nothing says nothing and answers
    false; any other asks the adapter, and answers true and tells the watcher once
    unless the adapter refuses, in which case its exception reaches the caller. *)
Lemma selects_none : forall P l l', selects P l [] -> selects (fun r => ~ P r) l l' -> l' = l.
Proof.
  induction l as [|r l IH]; intros l' H1 H2; inversion H2; subst; auto; inversion H1; subst; try tauto. f_equal. auto.
Qed.
Definition p_form (f : M bool) (c : acall) (e : enforcer) : Prop :=
  (exists out, f e = (e, out) /\ forall b, out <> Ok b) \/
  (exists m, f e = (set_model m e, Ok false) /\ forall sec pt, rules_in m sec pt = stored e sec pt) \/
  (exists m, f e = tail c (set_model m e)).
Lemma says_p : forall f c e, says f "p" c -> p_form f c e.
Proof.
  intros f c e S. remember "p" as s eqn:E.
  assert (A1 : forall pt r, p_form (i_addPolicy "p" pt r) (CAdd "p" pt r) e).
  { intros pt r. unfold p_form. rewrite i_addPolicy_p. destruct (AddPolicy (e_model e) "p" pt r) as [[m []]|x|z] eqn:H.
    - right. right. eauto.
    - right. left. exists m. split; auto. pose proof (m_add _ _ _ _ _ _ H) as ->. auto.
    - left. eexists. split; [reflexivity|discriminate].
    - left. eexists. split; [reflexivity|discriminate]. }
  assert (A2 : forall pt rs, p_form (i_addPolicies "p" pt rs) (CAddMany "p" pt rs) e /\ p_form (i_removePolicies "p" pt rs) (CRemoveMany "p" pt rs) e).
  { intros pt rs. unfold p_form. rewrite i_addPolicies_p, i_removePolicies_p. destruct (AddPolicies (e_model e) "p" pt rs) as [[m []]|x|z] eqn:H.
    - split; right; right; eauto.
    - assert (M : m = e_model e). { destruct rs as [|r rs]; [discriminate|]. apply (m_add_many _ _ _ _ _ _ (fun X : r :: rs = [] => ltac:(discriminate X)) H). }
      split; right; left; exists m; subst; auto.
    - split; left; eexists; (split; [reflexivity|discriminate]).
    - split; left; eexists; (split; [reflexivity|discriminate]). }
  assert (A3 : forall pt r, p_form (i_removePolicy "p" pt r) (CRemove "p" pt r) e).
  { intros pt r. unfold p_form. rewrite i_removePolicy_p. destruct (RemovePolicy (e_model e) "p" pt r) as [[m []]|x|z] eqn:H.
    - right. right. eauto.
    - right. left. exists m. split; auto. unfold RemovePolicy in H. destruct (get_ast (e_model e) "p" pt); try discriminate. cbn [bind] in H.
      destruct (erase_first r (rules_of (a_policy a))); inversion H; subst. auto.
    - left. eexists. split; [reflexivity|discriminate].
    - left. eexists. split; [reflexivity|discriminate]. }
  assert (A4 : forall pt i vals, p_form (i_removeFilteredPolicy "p" pt i vals) (CRemoveFiltered "p" pt i vals) e).
  { intros pt i vals. unfold p_form. rewrite i_removeFilteredPolicy_p. destruct (RemoveFilteredPolicy (e_model e) "p" pt i vals) as [[m [[] eff]]|x|z] eqn:H.
    - right. right. eauto.
    - right. left. exists m. split; auto. intros sec q. unfold RemoveFilteredPolicy in H. destruct (get_ast (e_model e) "p" pt) as [a| |] eqn:G; try discriminate. cbn [bind] in H.
      destruct (partition_rules i vals (rules_of (a_policy a))) as [[ef tm]|x|z] eqn:P; try discriminate. cbn [bind] in H.
      destruct ef; inversion H; subst. apply partition_rules_spec in P. destruct P as [P1 P2].
      rewrite (selects_none _ _ _ P1 P2) in *. unfold stored. destruct (pair_dec sec q "p" pt) as [V|V].
      + inversion V; subst. rewrite rules_in_put, (rules_in_get _ _ _ _ G). reflexivity.
      + apply rules_in_put_other. auto.
    - left. eexists. split; [reflexivity|discriminate].
    - left. eexists. split; [reflexivity|discriminate]. }
  destruct S as [f s pt r S|f s pt rs S|f s pt r S|f s pt rs S|f s pt i vals S]; destruct S; try discriminate; first [apply A1|apply A3|apply A4|apply A2].
Qed.

Theorem C89_outcome : forall f c u e, says f "p" c -> saves_with u c e ->
  (exists out, f e = (e, out) /\ forall b, out <> Ok b) \/
  (snd (f e) = Ok false /\ told (fst (f e)) = told e /\ heard (fst (f e)) = heard e /\ forall sec pt, stored (fst (f e)) sec pt = stored e sec pt) \/
  (told (fst (f e)) = told e ++ [c] /\
   match refusal u c with
   | None => snd (f e) = Ok true /\ heard (fst (f e)) = one_more e
   | Some t => snd (f e) = Throw t /\ heard (fst (f e)) = heard e
   end).
Proof.
  intros f c u e S W. destruct (says_p f c e S) as [[out H]|[[m [H M]]|[m H]]]; [left; eauto| |]; right.
  - left. rewrite H. repeat split; auto.
  - right. rewrite H. unfold tail, mbind. assert (W1 : saves_with u c (set_model m e)) by exact W. destruct (refusal u c) as [t|] eqn:R.
    + destruct (autosave_refused c u _ t W1 R) as [e' [E [T N]]]. rewrite E. simpl. auto.
    + destruct (autosave_accepted c u _ W1 R) as [u' [E T]]. rewrite E.
      destruct (notify_told (set_adapter (Some (AUser u')) (set_model m e))) as [e' [N [N1 N2]]]. rewrite N. simpl.
      rewrite N1, N2. unfold told, one_more. simpl. destruct W as [-> _]. rewrite T. auto.
Qed.
Print Assumptions C89_outcome.

(** The rules in memory do not depend on what the storage answers, nor on whether there
    is one. *)
Lemma edit_says : forall f sec c, says f sec c -> exists (A : Type) (h : model -> res (model * A)) g, forall e, after_edit h g e (f e).
Proof.
  intros f sec c S. destruct S as [f s pt r S|f s pt rs S|f s pt r S|f s pt rs S|f s pt i vals S].
  - eexists _, _, _. intros e. apply of_adds. eauto.
  - eexists _, _, _. intros e. destruct S; apply edit_add_many.
  - eexists _, _, _. intros e. apply of_removes. eauto.
  - eexists _, _, _. intros e. destruct S; apply edit_remove_many.
  - eexists _, _, _. intros e. apply of_removes_filtered. eauto.
Qed.
Theorem C89_rules_anyway : forall f sec c e a b, says f sec c ->
  forall s q, stored (fst (f (set_adapter a e))) s q = stored (fst (f (set_adapter b e))) s q.
Proof.
  intros f sec c e a b S s q. destruct (edit_says f sec c S) as [A [h [g E]]].
  pose proof (E (set_adapter a e)) as EA. pose proof (E (set_adapter b e)) as EB. unfold after_edit in *. cbn [set_adapter e_model] in *.
  destruct (h (e_model e)) as [[m x]|x|z].
  - destruct EA as [EA _], EB as [EB _]. rewrite (stored_asts _ _ _ _ _ EA), (stored_asts _ _ _ _ _ EB). reflexivity.
  - rewrite EA, EB. reflexivity.
  - rewrite EA, EB. reflexivity.
Qed.
Print Assumptions C89_rules_anyway.

(** SavePolicy: the storage's exception reaches the caller, the rules are as before, and
    the watcher hears of it exactly if the storage took the policy. *)
Theorem C89_saving : forall e u, e_adapter e = Some (AUser u) -> ua_filtered u = false ->
  (forall sec pt, stored (fst (SavePolicy e)) sec pt = stored e sec pt) /\
  match ua_save u (ua_log u) with
  | Some t => snd (SavePolicy e) = Throw t /\ heard (fst (SavePolicy e)) = heard e
  | None => snd (SavePolicy e) = Ok tt /\ (forall n, e_watcher e = Some n -> heard (fst (SavePolicy e)) = S n)
  end.
Proof.
  intros e u A F. unfold SavePolicy, mbind, IsFiltered, adapter_save, notify_always, heard. rewrite A. simpl. rewrite F. rewrite A.
  destruct (ua_save u (ua_log u)) as [t|]; [auto|]. destruct (e_watcher e) as [n|] eqn:W; simpl; (split; [auto|]); (split; [auto|]); intros k K; congruence.
Qed.
Print Assumptions C89_saving.

(** LoadPolicy: when the storage fails after handing over some lines, its exception
    reaches the caller; the rules are then those of the lines, and the role links are
    not touched. *)
Definition never_fails (u : user_adapter) : user_adapter :=
  mkUA (ua_batch u) (ua_filtered u) (ua_valid u) (ua_resp u) (fun l => (fst (ua_load u l), None)) (ua_save u) (ua_log u).
Theorem C89_loading : forall e u t, e_adapter e = Some (AUser u) -> snd (ua_load u (ua_log u)) = Some t ->
  let e2 := fst (LoadPolicy (set_auto_build false (set_adapter (Some (AUser (never_fails u))) e))) in
  let out2 := snd (LoadPolicy (set_auto_build false (set_adapter (Some (AUser (never_fails u))) e))) in
  snd (LoadPolicy e) = match out2 with Ok _ => Throw t | x => x end /\
  e_heap (fst (LoadPolicy e)) = e_heap e /\
  forall sec pt, stored (fst (LoadPolicy e)) sec pt = stored e2 sec pt.
Proof.
  intros e u t A L. cbv zeta. unfold LoadPolicy, mbind, e_ClearPolicy, modify, adapter_load. cbn [set_model set_adapter set_auto_build e_adapter]. rewrite A.
  cbn [never_fails ua_load ua_log]. destruct (ua_load u (ua_log u)) as [lines ex]. simpl in L. subst. cbn [fst set_model e_model].
  destruct (load_lines lines (ClearPolicy (e_model e))) as [m out] eqn:Q. simpl. rewrite Q. destruct out as [[]|x|z]; simpl; auto.
Qed.
Print Assumptions C89_loading.

(** Saving to a file that cannot be written throws, tells no watcher and leaves every file and every rule as it was.
    (The exception is std::out_of_range when a rule without values is stored.) *)
Lemma texts_ok_or : forall A (f : A -> res string) l, (forall a, (exists s, f a = Ok s) \/ f a = Throw StdOutOfRange) ->
  (exists ls, mapr f l = Ok ls) \/ mapr f l = Throw StdOutOfRange.
Proof.
  intros A f l H. induction l as [|a l IH]; cbn [mapr]; [eauto|].
  destruct (H a) as [[s ->] | ->]; cbn [bind]; [|auto]. destruct IH as [[ls ->] | ->]; cbn [bind]; eauto.
Qed.
Lemma sec_text_ok_or : forall am, (exists s, sec_text am = Ok s) \/ sec_text am = Throw StdOutOfRange.
Proof.
  intros am. unfold sec_text.
  match goal with |- context [mapr ?f am] => destruct (texts_ok_or _ f am) as [[l ->] | ->] end; cbn [bind]; eauto.
  intros kv. destruct (texts_ok_or _ (rule_text (fst kv)) (rules_of (a_policy (snd kv)))) as [[l ->] | ->]; cbn [bind]; eauto.
  intros r. unfold rule_text, ArrayToString. cbv zeta. destruct (Nat.ltb _ 2); cbn [bind]; eauto.
Qed.
Theorem C89_unwritable : forall e b p, e_adapter e = Some (AFile b p) -> p <> "" -> writable (e_fs e) p = false ->
  (snd (SavePolicy e) = Throw IOException \/ snd (SavePolicy e) = Throw StdOutOfRange) /\
  e_fs (fst (SavePolicy e)) = e_fs e /\ heard (fst (SavePolicy e)) = heard e /\
  (forall sec pt, stored (fst (SavePolicy e)) sec pt = stored e sec pt).
Proof.
  intros e b p A NP W. unfold SavePolicy, mbind, IsFiltered, adapter_save, heard. rewrite A. cbn [adapter_filtered]. rewrite A.
  unfold FileAdapter_SavePolicy. apply String.eqb_neq in NP. rewrite NP. unfold SavePolicyFile. rewrite W.
  assert (T : (exists t, policy_text (touch (touch (e_model e) "p") "g") = Ok t) \/ policy_text (touch (touch (e_model e) "p") "g") = Throw StdOutOfRange).
  { unfold policy_text. destruct (sec_text_ok_or (sec_of (touch (touch (e_model e) "p") "g") "p")) as [[s ->] | ->]; cbn [bind]; auto.
    destruct (sec_text_ok_or (sec_of (touch (touch (e_model e) "p") "g") "g")) as [[s' ->] | ->]; cbn [bind]; eauto. }
  assert (ST : forall sec pt, stored (set_fs (e_fs e) (set_model (touch (touch (e_model e) "p") "g") e)) sec pt = stored e sec pt).
  { intros sec pt. unfold stored, rules_in. cbn [set_fs set_model e_model]. rewrite !get_touch. reflexivity. }
  destruct T as [[t ->] | ->]; cbn [fst snd]; auto.
Qed.
Print Assumptions C89_unwritable.

(** ** A refused change is in force all the same *)
Definition refusing : user_adapter := mkUA true false true (fun _ _ => Some OtherException) (fun _ => ([], None)) (fun _ => Some IOException) [].
Definition ex_refuse : enforcer := set_adapter (Some (AUser refusing)) (linked_boot (rbac_model [["admin"; "data1"; "read"]] [["alice"; "admin"]])).
Theorem C89_refused_rule_decides_refuted :
  snd (Enforce mini (reqs ["carol"; "data1"; "read"]) ex_refuse) = Ok false /\
  snd (AddNamedPolicy "p" ["carol"; "data1"; "read"] ex_refuse) = Throw OtherException /\
  snd (Enforce mini (reqs ["carol"; "data1"; "read"]) (fst (AddNamedPolicy "p" ["carol"; "data1"; "read"] ex_refuse))) = Ok true.
Proof. repeat split; vm_compute; reflexivity. Qed.
Print Assumptions C89_refused_rule_decides_refuted.
(** A role whose removal the storage refuses is gone from the rules but still gives access. *)
Theorem C89_refused_role_refuted :
  let e := fst (RemoveNamedGroupingPolicy "g" ["alice"; "admin"] ex_refuse) in
  snd (RemoveNamedGroupingPolicy "g" ["alice"; "admin"] ex_refuse) = Throw OtherException /\
  stored e "g" "g" = [] /\ snd (Enforce mini (reqs ["alice"; "data1"; "read"]) e) = Ok true /\
  snd (Enforce mini (reqs ["alice"; "data1"; "read"]) (fst (e_BuildRoleLinks e))) = Ok false.
Proof. repeat split; vm_compute; reflexivity. Qed.
Print Assumptions C89_refused_role_refuted.

(** Concrete cases of the hypotheses. *)
Example C89_case : says (AddNamedPolicy "p" ["carol"; "data1"; "read"]) "p" (CAdd "p" "p" ["carol"; "data1"; "read"]) /\
  saves_with refusing (CAdd "p" "p" ["carol"; "data1"; "read"]) ex_refuse /\ refusal refusing (CAdd "p" "p" ["carol"; "data1"; "read"]) = Some OtherException /\
  told (fst (AddNamedPolicy "p" ["carol"; "data1"; "read"] ex_refuse)) = [CAdd "p" "p" ["carol"; "data1"; "read"]] /\
  snd (SavePolicy ex_refuse) = Throw IOException.
Proof. split; [repeat constructor|]. repeat split; vm_compute; auto. Qed.
Definition half : user_adapter := mkUA false false true (fun _ _ => None) (fun _ => (["p, bob, data2, write"], Some IOException)) (fun _ => None) [].
Example C89_loading_case : let e := set_adapter (Some (AUser half)) ex_refuse in
  snd (LoadPolicy e) = Throw IOException /\ stored (fst (LoadPolicy e)) "p" "p" = [["bob"; "data2"; "write"]] /\ stored (fst (LoadPolicy e)) "g" "g" = [].
Proof. repeat split; vm_compute; reflexivity. Qed.
Example C89_unwritable_case : let e := mkE (e_model ex_refuse) (e_heap ex_refuse) (e_rm ex_refuse) (Some (AFile false "policy.csv")) (Some 3)
    (mkFs [("policy.csv", "p, bob, data2, write")] (fun _ => false)) None true true true true in
  snd (SavePolicy e) = Throw IOException /\ stored (fst (SavePolicy e)) "g" "g" = [["alice"; "admin"]] /\ heard (fst (SavePolicy e)) = 3.
Proof. repeat split; vm_compute; reflexivity. Qed.
