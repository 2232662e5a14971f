(** Properties C41 and C42: what the adapter and the watcher are told. *)
From Coq Require Import Permutation.
From Verif Require Import Base P_Base M_Util M_RoleManager M_Effector M_Model M_Persist M_Eval M_Evaluator M_Enforcer M_Matcher
  S_Policy S_History S_Notify P_Decide P_Store P_Api P_History P_Nodup P_Notify E_Examples T_Policy.

(** * C41: auto-save *)
(** A function that answers true has forwarded its arguments once, one that answers false
    has forwarded nothing. *)
Theorem C41_forwards_once : forall f c e u e' b, forwards f c -> e_adapter e = Some (AUser u) -> e_auto_save e = true -> f e = (e', Ok b) ->
  exists u', e_adapter e' = Some (AUser u') /\ ua_log u' = ua_log u ++ if b then [c] else [].
Proof. intros f c e u e' b F. apply forwards_hears. auto. Qed.
(** Over histories of calls that do not fail: what the adapter has heard, followed by a
    storage that does as it is told, leads from the old policy to the new one, and every
    message changes something.  (Updates and batch removals are excluded, see below.) *)
Theorem C41_storage_follows_partial : forall (rules : rule -> Prop) o cs e e' u,
  (forall r r', rules r -> rules r' -> Permutation r r' -> r = r') ->
  e_adapter e = Some (AUser u) -> ua_batch u = true -> e_auto_save e = true ->
  (forall sec pt, NoDup (stored e sec pt)) -> (forall sec pt r, In r (stored e sec pt) -> rules r) ->
  Forall (forwarded rules) cs -> succeeds o e cs e' ->
  exists log, told e' = told e ++ log /\ replay log (policy e) (policy e').
Proof.
  intros rules o cs e e' u AP U B S ND RL F H. destruct (succeeds_mirrors rules AP o cs e e' F H) as [_ X]; auto.
  split; [eauto|]. split; [auto|]. split; [exact ND|exact RL].
Qed.
(** With auto-save off the adapter hears of nothing, over every history and whatever
    the outcome of the calls. *)
Theorem C41_off : forall o cs e e', Forall keeps_saving_off cs -> e_auto_save e = false -> reaches o e cs e' -> told e' = told e.
Proof.
  intros o cs e e' F S H. assert (X : silent e e').
  { clear S. induction H; [apply silent_refl|]. inversion F; subst. eapply silent_trans; [|apply IHreaches; auto].
    pose proof (run_silent o c H4 e) as K. rewrite H in K. exact K. }
  apply X. auto.
Qed.
(** False for updates: they are never forwarded. *)
Definition listener (batch : bool) : adapter := AUser (mkUA batch false true (fun _ _ => None) (fun _ => ([], None)) (fun _ => None) []).
Definition ex_l (batch : bool) : enforcer := set_adapter (Some (listener batch)) ex.
Theorem C41_update_refuted : exists e pt old new e', UpdateNamedPolicy pt old new e = (e', Ok true) /\
  e_auto_save e = true /\ told e' = told e /\ policy e' "p" pt new /\ ~ policy e "p" pt new.
Proof.
  exists (ex_l true), "p", r_alice, r_carol. eexists. split; [reflexivity|]. split; [reflexivity|]. split; [reflexivity|]. split; vm_compute; auto.
  intros [H|[H|[]]]; discriminate.
Qed.
Theorem C41_update_silent_refuted : forall e u sec pt old new, e_adapter e = Some (AUser u) ->
  e_adapter (fst (i_updatePolicy sec pt old new e)) = Some (AUser u).
Proof.
  intros e u sec pt old new U. set (R := fun e e' : enforcer => e_adapter e' = e_adapter e). rewrite <- U.
  change (R e (fst (i_updatePolicy sec pt old new e))). revert e U. assert (K : keeps R (i_updatePolicy sec pt old new)); [|intros; apply K].
  assert (RT : forall a b c, R a b -> R b c -> R a c) by (unfold R; congruence). assert (RM : forall A (c : M A), keeps mute c -> keeps R c) by (intros A c K e; apply K).
  apply keeps_bind; auto. { apply keeps_on_model; [reflexivity|]. reflexivity. }
  intros []; [|intros e; reflexivity]. cbn [negb]. apply keeps_bind; auto.
  { apply RM. apply keeps_when; [exact mute_refl|]. intros _. apply keeps_bind; [exact mute_trans| |]; intros; apply mute_incremental. }
  intros _. apply keeps_bind; auto. { intros e. destruct (notify_shape e) as [w ->]. reflexivity. } intros _ e. reflexivity.
Qed.
(** False for RemovePolicies: the adapter is told to remove rules that were added. *)
Theorem C41_remove_many_refuted : exists e pt rs e', RemoveNamedPolicies pt rs e = (e', Ok true) /\
  told e' = told e ++ [CRemoveMany "p" pt rs] /\ exists r, In r rs /\ ~ policy e "p" pt r /\ policy e' "p" pt r.
Proof.
  exists (ex_l true), "p", [r_carol]. eexists. split; [reflexivity|]. split; [reflexivity|]. exists r_carol. split; [simpl; auto|]. split; vm_compute; auto.
  intros [H|[H|[]]]; discriminate.
Qed.
(** False for a grouping rule that is too short: it is added, the call fails, and the
    adapter does not hear of it. *)
Theorem C41_short_rule_refuted : exists e e', AddNamedGroupingPolicy "g" ["bob"] e = (e', Throw IllegalArgument) /\
  told e' = told e /\ ~ policy e "g" "g" ["bob"] /\ policy e' "g" "g" ["bob"].
Proof.
  exists (ex_l true). eexists. split; [reflexivity|]. split; [reflexivity|]. split; vm_compute; auto. intros [H|[]]; discriminate.
Qed.
(** Batches of new rules are undefined with every adapter that is not a batch adapter,
    and the string adapter answers to the removal of one rule by forgetting all. *)
Definition batch_adapter (a : adapter) : bool := match a with AFile b _ => b | AUser u => ua_batch u | _ => false end.
Theorem C41_batch_refuted : forall e a pt rs, e_adapter e = Some a -> batch_adapter a = false -> e_auto_save e = true -> declared e "p" pt ->
  (forall r, In r rs -> no_anagram r (stored e "p" pt) /\ ~ In r (stored e "p" pt)) ->
  snd (AddNamedPolicies pt rs e) = UB NullDeref.
Proof.
  intros e a pt rs A B S [x X] NI. unfold AddNamedPolicies. rewrite i_addPolicies_p.
  assert (T : forall m, snd (tail (CAddMany "p" pt rs) (set_model m e)) = UB NullDeref).
  { intros m. unfold tail, mbind, autosave. cbn [set_model e_adapter e_auto_save]. rewrite A, S.
    destruct a as [b path|t|path fd|u]; cbn in B; cbn; rewrite ?B; auto. }
  unfold AddPolicies. destruct rs as [|r0 rs0]; [apply T|]. set (rs := r0 :: rs0) in *. rewrite X. cbn [bind].
  destruct (existsb (has_rule (rules_of (a_policy x))) rs) eqn:E; [|apply T]. exfalso. apply existsb_exists in E. destruct E as [r [I H]].
  destruct (NI r I) as [NA N]. unfold stored in *. rewrite (rules_in_get _ _ _ _ X) in *. apply has_rule_in in H; auto.
Qed.
Theorem C41_string_adapter_refuted : forall e text pt r e', e_adapter e = Some (AString text) -> e_auto_save e = true ->
  RemoveNamedPolicy pt r e = (e', Ok true) -> e_adapter e' = Some (AString "").
Proof.
  intros e text pt r e' A S. unfold RemoveNamedPolicy. rewrite i_removePolicy_p. destruct (RemovePolicy (e_model e) "p" pt r) as [[m []]|x|u]; try (intros H; inversion H; fail).
  unfold tail, mbind, autosave. cbn [set_model e_adapter e_auto_save]. rewrite A, S. cbn [adapter_call].
  match goal with |- context [notify ?e1] => destruct (notify_shape e1) as [w ->] end. intros H. inversion H. reflexivity.
Qed.
(** SetModel (and LoadModel) switch auto-save on again. *)
Theorem C41_set_model_refuted : forall e m, e_auto_save (fst (SetModel m e)) = true.
Proof. reflexivity. Qed.

Definition ex_calls : list call :=
  [KAddPolicy "p" r_carol; KAddPolicy "p" r_carol; KAddGroupings "g" [["bob"; "admin"]; ["carol"; "admin"]]; KDeleteUser "alice"; KEnforce "" (map DStr r_bob);
   KRemovePolicy "p" r_bob].
Definition ex_rules (r : rule) : Prop := In r [r_alice; r_bob; r_carol; ["alice"; "admin"]; ["bob"; "admin"]; ["carol"; "admin"]].
Lemma all_rules_dec : forall (rules : rule -> Prop) e,
  Forall (fun sam => Forall (fun ka : string * assertion => forall r, In r (rules_of (a_policy (snd ka))) -> rules r) (snd sam)) (e_model e) ->
  forall sec pt r, In r (stored e sec pt) -> rules r.
Proof.
  intros rules e F sec pt. unfold stored, rules_in, get_ast, sec_of.
  destruct (aget sec (e_model e)) as [am|] eqn:G; simpl; [|tauto].
  destruct (aget pt am) as [a|] eqn:G2; simpl; [|tauto].
  apply aget_In in G, G2. rewrite Forall_forall in F. specialize (F _ G). simpl in F. rewrite Forall_forall in F. apply (F _ G2).
Qed.
Example C41_case : (forall r r', ex_rules r -> ex_rules r' -> Permutation r r' -> r = r') /\ Forall (forwarded ex_rules) ex_calls /\
  (forall sec pt r, In r (stored (ex_l true) sec pt) -> ex_rules r) /\
  exists e', succeeds mini (ex_l true) ex_calls e' /\
    told e' = [CAdd "p" "p" r_carol; CAddMany "g" "g" [["bob"; "admin"]; ["carol"; "admin"]]; CRemoveFiltered "g" "g" 0 ["alice"]; CRemoveFiltered "p" "p" 0 ["alice"]; CRemove "p" "p" r_bob].
Proof.
  split; [|split; [|split]].
  - assert (H : forallb (fun r => forallb (fun x => negb (ArrayEquals r x) || rule_eqb r x) [r_alice; r_bob; r_carol; ["alice"; "admin"]; ["bob"; "admin"]; ["carol"; "admin"]])
      [r_alice; r_bob; r_carol; ["alice"; "admin"]; ["bob"; "admin"]; ["carol"; "admin"]] = true) by (vm_compute; reflexivity).
    intros r r' I I' P. rewrite forallb_forall in H. specialize (H r I). rewrite forallb_forall in H. specialize (H r' I'). apply ArrayEquals_perm in P. rewrite P in H. apply rule_eqb_true. auto.
  - unfold ex_calls, ex_rules. repeat (apply Forall_cons; [cbn [forwarded]; try (simpl; auto 10; fail)|]); [|apply Forall_nil].
    split; [discriminate|]. split; [repeat constructor; simpl; intuition discriminate|]. repeat (apply Forall_cons; [simpl; auto 10|]). apply Forall_nil.
  - apply all_rules_dec. unfold ex_rules. cbn. repeat (apply Forall_cons || apply Forall_nil); simpl; tauto.
  - eexists. split; [repeat (eapply succeed_step; [vm_compute; reflexivity|]); apply succeed_nil|reflexivity].
Qed.
Print Assumptions C41_forwards_once.
Print Assumptions C41_storage_follows_partial.
Print Assumptions C41_off.
Print Assumptions C41_batch_refuted.

(** * C42: the watcher *)
(** Each function that changes the policy tells the watcher once when it answers true and
    notification is on, and not otherwise. *)
Theorem C42_once : forall f e e' b n, changes f -> f e = (e', Ok b) -> e_watcher e = Some n ->
  e_watcher e' = Some (if b && e_notify e then S n else n).
Proof.
  intros f e e' b n C E W. destruct (changes_tells f C e) as [k [[_ K] [K1 [K0 _]]]]. rewrite E in *. cbn [fst snd] in *. rewrite K, W. cbn. f_equal.
  destruct b; cbn; [rewrite K1 by auto; destruct (e_notify e); auto|rewrite K0 by auto; auto].
Qed.
(** Whatever the outcome, it is told at most once, and not at all with notification off. *)
Theorem C42_at_most_once : forall f e n, changes f -> e_watcher e = Some n ->
  exists k, e_watcher (fst (f e)) = Some (k + n) /\ k <= 1 /\ (e_notify e = false -> k = 0) /\ (snd (f e) = Ok false -> k = 0).
Proof.
  intros f e n C W. destruct (changes_tells f C e) as [k [[_ K] [K1 [K0 [K2 K3]]]]]. exists k. rewrite K, W. auto.
Qed.
(** Over histories the watcher hears as often as true was answered. *)
Theorem C42_history : forall e bs e' n, answers e bs e' -> e_watcher e = Some n ->
  e_watcher e' = Some (n + if e_notify e then List.length (List.filter (fun b => b) bs) else 0) /\ e_notify e' = e_notify e.
Proof.
  intros e bs e' n H. revert n. induction H; intros n W.
  - rewrite W. destruct (e_notify e); simpl; rewrite Nat.add_0_r; auto.
  - destruct (changes_tells f H e) as [k [[N _] _]]. pose proof (C42_once f e e1 b n H H0 W) as W1. rewrite H0 in N. cbn [fst] in N.
    destruct (IHanswers _ W1) as [W2 N2]. rewrite W2, N2, N. split; auto. f_equal. destruct b, (e_notify e); simpl; lia.
Qed.
(** For additions and removals an answer of true means exactly that the policy changed. *)
Theorem C42_true_is_change : forall (rules : rule -> Prop) f e e' b,
  (forall r r', rules r -> rules r' -> Permutation r r' -> r = r') -> (forall sec pt, NoDup (stored e sec pt)) -> (forall sec pt r, In r (stored e sec pt) -> rules r) ->
  reports rules f -> f e = (e', Ok b) -> (b = true <-> differ (policy e) (policy e')).
Proof.
  intros rules f e e' b AP ND RL R. revert e e' b ND RL. change (honest rules f). destruct R.
  - apply honest_add.
  - apply honest_add_many; auto.
  - apply honest_remove; auto.
  - apply honest_remove_filtered; auto.
  - apply honest_after; [apply honest_add|apply quiet_links_if].
  - apply honest_add_many; auto.
  - apply honest_after; [apply honest_remove; auto|apply quiet_rebuild_if].
  - apply honest_after; [apply honest_remove_filtered|apply quiet_rebuild_if].
Qed.
Definition watched (e : enforcer) : enforcer := set_watcher (Some 0) e.
(** False for updates: one that fails may have removed the old rule, without a word. *)
Theorem C42_failed_update_refuted : exists e e', UpdateNamedPolicy "p" r_alice r_bob e = (e', Ok false) /\
  heard e' = heard e /\ e_notify e = true /\ policy e "p" "p" r_alice /\ ~ policy e' "p" "p" r_alice.
Proof.
  exists (watched ex). eexists. split; [reflexivity|]. split; [reflexivity|]. split; [reflexivity|]. split; vm_compute; auto. intros [H|[]]; discriminate.
Qed.
(** False when the call throws after the change. *)
Theorem C42_short_rule_refuted : exists e e', AddNamedGroupingPolicy "g" ["bob"] e = (e', Throw IllegalArgument) /\
  heard e' = heard e /\ e_notify e = true /\ ~ policy e "g" "g" ["bob"] /\ policy e' "g" "g" ["bob"].
Proof.
  exists (watched ex). eexists. split; [reflexivity|]. split; [reflexivity|]. split; [reflexivity|]. split; vm_compute; auto. intros [H|[]]; discriminate.
Qed.
(** False with notification off: SavePolicy tells the watcher all the same. *)
Theorem C42_save_refuted : forall e e' n, e_watcher e = Some n -> SavePolicy e = (e', Ok tt) -> e_watcher e' = Some (S n).
Proof.
  intros e e' n W E. unfold SavePolicy, IsFiltered, mbind in E. destruct (e_adapter e) as [a|] eqn:A; [|discriminate]. destruct (adapter_filtered a); [discriminate|].
  assert (K : e_watcher (fst (adapter_save e)) = e_watcher e).
  { unfold adapter_save. rewrite A. destruct a as [b path|t|path fd|u]; auto.
    - destruct (FileAdapter_SavePolicy _ _ _) as [[? ?] ?]. auto.
    - destruct (StringAdapter_SavePolicy _ _) as [[? ?] ?]. auto. }
  destruct (adapter_save e) as [e1 [v|x|u]]; try discriminate. cbn [fst] in K. unfold notify_always in E. rewrite K, W in E. inversion E. reflexivity.
Qed.
(** An empty batch is answered with true and told, though nothing changed. *)
Theorem C42_empty_batch_refuted : exists e e', AddNamedPolicies "p" [] e = (e', Ok true) /\ heard e' = S (heard e) /\ forall s q x, policy e' s q x <-> policy e s q x.
Proof. exists (watched ex). eexists. split; [reflexivity|]. split; [reflexivity|]. intros. tauto. Qed.
(** SetModel (and LoadModel) forget the watcher. *)
Theorem C42_set_model_refuted : forall e m, e_watcher (fst (SetModel m e)) = None /\ e_notify (fst (SetModel m e)) = true.
Proof. split; reflexivity. Qed.
Example C42_case : exists e', answers (watched ex) [true; false; true; false] e' /\ e_watcher e' = Some 2 /\ e_notify (watched ex) = true.
Proof.
  eexists. split; [|split; [|reflexivity]].
  - eapply answers_step; [apply (ch_add "p" r_carol)|vm_compute; reflexivity|].
    eapply answers_step; [apply (ch_add "p" r_carol)|vm_compute; reflexivity|].
    eapply answers_step; [apply (ch_remove_g "g" ["alice"; "admin"])|vm_compute; reflexivity|].
    eapply answers_step; [apply (ch_update "p" ["x"] ["y"])|vm_compute; reflexivity|]. apply answers_nil.
  - reflexivity.
Qed.
Print Assumptions C42_once.
Print Assumptions C42_at_most_once.
Print Assumptions C42_history.
Print Assumptions C42_true_is_change.
Example C41_off_case : Forall keeps_saving_off [KAddPolicy "p" r_carol; KRemovePolicies "p" [r_alice]; KUpdatePolicy "p" r_bob r_carol] /\
  exists e', reaches mini (set_auto_save false (ex_l true)) [KAddPolicy "p" r_carol; KRemovePolicies "p" [r_alice]; KUpdatePolicy "p" r_bob r_carol] e' /\ List.length (stored e' "p" "p") = 2.
Proof.
  split; [repeat (apply Forall_cons; [simpl; auto|]); apply Forall_nil|]. eexists. split.
  - repeat (eapply reach_step; [vm_compute; reflexivity|discriminate|]). apply reach_nil.
  - vm_compute. reflexivity.
Qed.
Example C42_reports_case : exists e1 e2, AddNamedPolicy "p" r_carol ex = (e1, Ok true) /\ AddNamedPolicy "p" r_carol e1 = (e2, Ok false) /\
  reports ex_rules (AddNamedPolicy "p" r_carol).
Proof. do 2 eexists. split; [vm_compute; reflexivity|]. split; [vm_compute; reflexivity|]. constructor. Qed.
