(** Property C96: what a watcher given with SetWatcher can do. *)
From Verif Require Import Base P_Base M_Util M_RoleManager M_Model M_Persist M_Evaluator M_Matcher M_Enforcer M_OwnWatcher M_Synced M_Wiring S_Policy S_Persist S_History S_Notify S_Synced S_Cluster S_OwnWatcher S_Wiring
  P_Decide P_Store P_Api P_History P_Notify P_OwnWatcher P_Synced P_Wiring P_Cluster E_Examples T_Policy T_Rbac T_Synced T_Cluster T_OwnWatcher.

(** ** The callback *)
Lemma rest_do_nth : forall A (f : A -> A) i a l j, nth_error (rest_do f i a l) j =
  match nth_error l j with Some x => Some (if Nat.eqb j i then a else f x) | None => None end.
Proof.
  intros A f i a l. revert i. induction l as [|x t IH]; intros i j; simpl. { destruct i; destruct j; auto. }
  destruct i, j; simpl; auto. rewrite nth_error_map. destruct (nth_error t j); auto.
Qed.
Lemma Forall_rest : forall A (P : A -> Prop) f i a l, Forall P l -> (forall x, P x -> P (f x)) -> (nth_error l i <> None -> P a) -> Forall P (rest_do f i a l).
Proof.
  intros A P f i a l F. revert i. induction F as [|x t Hx F IH]; intros i K Pa; simpl. { destruct i; constructor. }
  destruct i; constructor; auto.
  - apply Pa. discriminate.
  - rewrite Forall_map. eapply Forall_impl; eauto.
Qed.
(** However many enforcers are given watchers with SetWatcher, and whatever is called through
    them: an enforcer nobody calls keeps its rules and everything else.  No watcher can make
    it load the policy. *)
Theorem C96_never_called_back_refuted : forall o l h j e, no_callbacks h -> Forall (elsewhere j) l -> nth_error (h_nodes h) j = Some (e, None) ->
  exists e', nth_error (h_nodes (hub_run o h l)) j = Some (e', None) /\ (e' = e \/ e' = set_watcher (Some 0) e).
Proof.
  intros o l. induction l as [|a l IH]; intros h j e N F E; simpl; [eauto|]. inversion F as [|? ? Fa F']; subst.
  assert (K : no_callbacks (hub_step o h a) /\ exists e1, nth_error (h_nodes (hub_step o h a)) j = Some (e1, None) /\ (e1 = e \/ e1 = set_watcher (Some 0) e)).
  { unfold no_callbacks in *. destruct a as [i c|i|i]; simpl in Fa; [| |destruct Fa]; cbn [hub_step].
    - destruct (nth_error (h_nodes h) i) as [[e0 cb]|] eqn:Ni; [|eauto]. pose proof N as N0. rewrite Forall_forall in N0. pose proof (N0 _ (nth_error_In _ _ Ni)) as C. simpl in C. subst cb. cbn [h_nodes]. split.
      + apply Forall_rest; auto. intros x Hx. destruct (Nat.ltb _ _); auto. unfold hears_of. rewrite Hx. auto.
      + rewrite rest_do_nth, E. destruct (Nat.eqb j i) eqn:J; [apply Nat.eqb_eq in J; congruence|]. exists e. split; auto. destruct (Nat.ltb _ _); auto.
    - destruct (nth_error (h_nodes h) i) as [[e0 cb]|] eqn:Ni; [|eauto]. pose proof N as N0. rewrite Forall_forall in N0. pose proof (N0 _ (nth_error_In _ _ Ni)) as C. simpl in C. subst cb. cbn [h_nodes]. split.
      + apply Forall_rest; auto.
      + rewrite rest_do_nth, E. destruct (Nat.eqb j i) eqn:J; [|eauto]. apply Nat.eqb_eq in J. subst j. rewrite E in Ni. inversion Ni; subst e0. exists (set_watcher (Some 0) e). split; auto. }
  destruct K as [K [e1 [E1 D]]]. destruct (IH _ j e1 K F' E1) as [e2 [E2 D2]]. exists e2. split; auto.
  destruct D as [-> | ->]; auto. destruct D2 as [-> | ->]; auto.
Qed.
(** Watchers that were given LoadPolicy by hand make the enforcers those of C93. *)
Theorem C96_wired_by_hand : forall o h i c, all_wired h ->
  all_wired (hub_step o h (HCall i c)) /\ cluster_of (hub_step o h (HCall i c)) = cluster_step o (cluster_of h) (i, c).
Proof.
  intros o h i c W. unfold all_wired, cluster_of, cluster_step, node in *. cbn [hub_step fst snd heard_by_storage nodes]. rewrite nth_error_map.
  destruct (nth_error (h_nodes h) i) as [[e0 cb]|] eqn:Ni; cbn [option_map fst]; [|auto]. cbn [h_nodes h_log]. split.
  - apply Forall_rest; auto.
    + intros x Hx. destruct (Nat.ltb _ _); auto. unfold hears_of. rewrite Hx. auto.
    + intros _. rewrite Forall_forall in W. exact (W _ (nth_error_In _ _ Ni)).
  - f_equal. set (lg := told _). set (b := Nat.ltb _ _). set (e' := fst (run o c _)). clearbody lg b e'.
    clear Ni. revert i W. generalize (h_nodes h) as l. induction l as [|x t IH]; intros i W; simpl. { destruct i; auto. } inversion W as [|? ? Wx Wt]; subst.
    destruct i; simpl; f_equal.
    + rewrite !map_map. apply map_ext_in. intros y Iy. rewrite Forall_forall in Wt. specialize (Wt y Iy). destruct b; auto. unfold hears_of. rewrite Wt. auto.
    + destruct b; auto. unfold hears_of. rewrite Wx. auto.
    + apply IH. auto.
Qed.

(** ** The extended interfaces *)
(** Only Update() is ever called: two watchers that do the same in Update() cannot be told
    apart, whatever their other functions do. *)
Section Extended.
  Variables up up' : notice -> nat -> M unit.
  Hypothesis Same : forall n e, up NUpdate n e = up' NUpdate n e.
  Lemma same_call : forall e, w_call up NUpdate e = w_call up' NUpdate e.
  Proof. intros e. unfold w_call. destruct (e_watcher e); auto. Qed.
  Lemma same_notify_ex : forall k e, w_notify up CWatcherEx k e = w_notify up' CWatcherEx k e.
  Proof. intros k e. unfold w_notify. destruct (e_notify e); auto. apply same_call. Qed.
  Lemma same_notify_up : forall k e, w_notify up CWatcherUpdatable k e = w_notify up' CWatcherUpdatable k e.
  Proof. intros k e. unfold w_notify. destruct (e_notify e); auto. apply same_call. Qed.
  Lemma same_notify : forall e, w_notify up CWatcher NUpdate e = w_notify up' CWatcher NUpdate e.
  Proof. intros e. unfold w_notify. destruct (e_notify e); auto. apply same_call. Qed.
  Ltac ext := repeat (intros; first [apply mbind_ext; [first [reflexivity|apply same_notify_ex|apply same_notify_up|apply same_notify]|]|reflexivity|
    match goal with |- (if ?b then _ else _) _ = _ => destruct b end|match goal with |- (let (_, _) := ?p in _) _ = _ => destruct p end]).
  Lemma same_add : forall sec pt r e, w_addPolicy up sec pt r e = w_addPolicy up' sec pt r e.
  Proof. unfold w_addPolicy. ext. Qed.
  Lemma same_add_many : forall sec pt r e, w_addPolicies up sec pt r e = w_addPolicies up' sec pt r e.
  Proof. unfold w_addPolicies. ext. Qed.
  Lemma same_remove : forall sec pt r e, w_removePolicy up sec pt r e = w_removePolicy up' sec pt r e.
  Proof. unfold w_removePolicy. ext. Qed.
  Lemma same_remove_many : forall sec pt r e, w_removePolicies up sec pt r e = w_removePolicies up' sec pt r e.
  Proof. unfold w_removePolicies. ext. Qed.
  Lemma same_remove_filtered : forall sec pt i vals e, w_removeFilteredPolicy up sec pt i vals e = w_removeFilteredPolicy up' sec pt i vals e.
  Proof. unfold w_removeFilteredPolicy. ext. Qed.
  Lemma same_update : forall sec pt a b e, w_updatePolicy up sec pt a b e = w_updatePolicy up' sec pt a b e.
  Proof. unfold w_updatePolicy. ext. Qed.
  Lemma same_update_many : forall sec pt a b e, w_updatePolicies up sec pt a b e = w_updatePolicies up' sec pt a b e.
  Proof. unfold w_updatePolicies. ext. Qed.
  Lemma same_add_g : forall pt r e, w_AddNamedGroupingPolicy up pt r e = w_AddNamedGroupingPolicy up' pt r e.
  Proof. intros. apply mbind_ext; auto. apply same_add. Qed.
  Lemma same_remove_g : forall pt r e, w_RemoveNamedGroupingPolicy up pt r e = w_RemoveNamedGroupingPolicy up' pt r e.
  Proof. intros. apply mbind_ext; auto. apply same_remove. Qed.
  Lemma same_remove_filtered_g : forall pt i vals e, w_RemoveFilteredNamedGroupingPolicy up pt i vals e = w_RemoveFilteredNamedGroupingPolicy up' pt i vals e.
  Proof. intros. apply mbind_ext; auto. apply same_remove_filtered. Qed.
  Lemma same_add_roles : forall user roles f e, w_AddRolesForUser up user roles f e = w_AddRolesForUser up' user roles f e.
  Proof. intros user. induction roles as [|r rs IH]; intros f e; simpl; auto. apply mbind_ext; [apply same_add_g|auto]. Qed.
  Lemma same_wrun : forall o c e, wrun up o c e = wrun up' o c e.
  Proof.
    intros o c e. destruct c; cbn [wrun]; try reflexivity; try (apply mbind_ext; [|reflexivity]).
    all: try first [apply same_add|apply same_add_many|apply same_remove|apply same_remove_many|apply same_remove_filtered|apply same_update|apply same_update_many|apply same_add_g
      |apply same_remove_g|apply same_remove_filtered_g|apply same_add_roles].
    - apply mbind_ext; [apply same_remove_filtered_g|]. intros. apply mbind_ext; [apply same_remove_filtered|auto].
    - apply mbind_ext; [apply same_remove_filtered_g|]. intros. apply mbind_ext; [apply same_remove_filtered|auto].
    - unfold w_SavePolicy. apply mbind_ext; auto. intros []; auto. intros. apply mbind_ext; auto. intros _ e1. apply same_call.
  Qed.
End Extended.
Theorem C96_extended_refuted : forall up up' o c e, (forall n e, up NUpdate n e = up' NUpdate n e) -> wrun up o c e = wrun up' o c e.
Proof. intros. apply same_wrun. auto. Qed.

(** ** A synchronised enforcer *)
(** A synchronised enforcer has no watcher to tell, in any history of calls that end:
    SetWatcher keeps the watcher in a member nothing reads. *)
Theorem C96_synced_refuted : forall o s l s', synced_run o s l s' -> e_watcher (sy_e s) = None ->
  e_watcher (sy_e s') = None /\ forall n, sy_watcher s' = Some n -> sy_watcher s = Some n \/ n = 0.
Proof.
  intros o s l s' H. induction H as [s|s l s' H IH|s c s1 l s' C H IH]; intros W; [auto| |].
  - destruct (IH W) as [H1 H2]. split; auto. intros n E. destruct (H2 n E) as [X| ->]; auto. simpl in X. inversion X. auto.
  - unfold sy_call in C. destruct (exec false (code o c) (sy_e s)) as [e' out|] eqn:X; [|discriminate]. inversion C; subst s1. cbn [sy_e sy_watcher] in *.
    apply IH. assert (N : ~ locks_itself c (sy_e s)). { intros L. rewrite (C50_locks_itself_refuted o _ _ L) in X. discriminate. }
    rewrite (C50_same_as_plain_partial o _ _ N) in X. inversion X; subst. apply deaf_plain. auto.
Qed.
(** Nor in any interleaving of threads that is equivalent to such a history (C49). *)
Theorem C96_synced_threads_refuted : forall o e h e', linearisable o e h e' -> e_watcher e = None -> e_watcher e' = None.
Proof.
  intros o e h e' [l [_ [_ H]]] W. induction H as [|e l1 e1 c out e2 H IH P]; auto.
  pose proof (deaf_plain o c e1 (IH W)) as K. rewrite P in K. exact K.
Qed.

(** ** Concrete cases *)
(** Two enforcers on one data base, each given its watcher: what one adds, the other never
    sees, until it is wired by hand. *)
Definition pair_of_members (cb : option (M unit)) : hub := mkHub [] [(member, cb); (member, cb)].
Definition rules_at (h : hub) (j : nat) : list rule := match nth_error (h_nodes h) j with Some (e, _) => stored e "p" "p" | None => [] end.
Example C96_case : no_callbacks (pair_of_members None) /\
  Forall (elsewhere 1) [HSetWatcher 0; HSetWatcher 1; HCall 0 (KAddPolicy "p" r_carol)] /\
  let h := hub_run mini (pair_of_members None) [HSetWatcher 0; HSetWatcher 1; HCall 0 (KAddPolicy "p" r_carol)] in
  In r_carol (rules_at h 0) /\ ~ In r_carol (rules_at h 1).
Proof. split; [repeat constructor|]. split; [repeat constructor; discriminate|]. vm_compute. intuition discriminate. Qed.
Example C96_wired_case : all_wired (hub_run mini (pair_of_members None) [HSetWatcher 0; HSetWatcher 1; HWire 0; HWire 1]) /\
  In r_carol (rules_at (hub_run mini (pair_of_members None) [HSetWatcher 0; HSetWatcher 1; HWire 0; HWire 1; HCall 0 (KAddPolicy "p" r_carol)]) 1).
Proof. split; [repeat constructor|]. vm_compute. auto. Qed.
(** A watcher that fails whenever it is told what changed is never found out. *)
Definition picky_watcher : notice -> nat -> M unit := fun k _ e => match k with NUpdate => (e, Ok tt) | _ => (e, Throw OtherException) end.
Example C96_extended_case : forall o c e, wrun picky_watcher o c e = run o c e.
Proof. intros. rewrite (C96_extended_refuted picky_watcher (fun _ _ e => (e, Ok tt))); [|reflexivity]. apply C95_dutiful. intros k n e1. reflexivity. Qed.
(** A synchronised enforcer that was given a watcher, and adds a rule. *)
Example C96_synced_case : exists s, synced_run mini (mkSynced org None) [YSetWatcher; YCall (SAddNamedPolicy "p" ["carol"; "data1"; "read"])] s /\
  e_watcher org = None /\ In ["carol"; "data1"; "read"] (stored (sy_e s) "p" "p") /\ sy_watcher s = Some 0.
Proof.
  eexists. split. { eapply sy_set. eapply sy_step; [vm_compute; reflexivity|]. apply sy_nil. } split; [reflexivity|]. split; vm_compute; tauto.
Qed.
Print Assumptions C96_never_called_back_refuted.
Print Assumptions C96_wired_by_hand.
Print Assumptions C96_extended_refuted.
Print Assumptions C96_synced_refuted.
Print Assumptions C96_synced_threads_refuted.
