(** Property C107: a watcher that makes its own enforcer load the policy. *)
From Coq Require Import Permutation.
From Verif Require Import Base P_Base M_Util M_RoleManager M_Effector M_Model M_Persist M_Eval M_Evaluator M_Matcher M_Enforcer M_OwnWatcher S_Text S_Policy S_Persist S_History S_Notify S_Roles S_Sync
  S_OwnWatcher S_Cluster S_Reload P_Store P_Api P_History P_Nodup P_Notify P_Persist P_OwnWatcher P_Cluster P_Reload E_Examples T_Policy T_Notify T_Persist T_Cluster.

(** Whatever a watcher does to the enforcer from the function it is told with, a call with
    nothing left to do has done all its work by then: the call ends in the state and with
    the outcome that the function gives when it starts from what the call leaves.  If the
    watcher is not told, the call is as without one. *)
Theorem C107_after_the_call : forall up o c e, told_last c ->
  let e' := fst (run o c e) in
  (was_told e e' -> snd (run o c e) = Ok tt /\ wrun up o c e = up NUpdate (heard e) e') /\
  (~ was_told e e' -> wrun up o c e = run o c e).
Proof.
  intros up o c e T e'. unfold was_told. destruct (told_last_acts up o c T e) as [[N Q]|[N [[] [R Q]]]]; fold e' in N, Q; split; intros W; try lia; auto.
  split; auto. rewrite Q. destruct (up NUpdate (heard e) e') as [e2 [[]|t|u]]; reflexivity.
Qed.
Print Assumptions C107_after_the_call.

(** With a storage that does as it is told, after every history of calls that returned the
    enforcer has the rules of the storage: loading in the middle of a call loses nothing.
    (Updates and batch removals are excluded, see below.) *)
Theorem C107_in_step_partial : forall (rules : rule -> Prop) T0 load o e cs e',
  (forall r r', rules r -> rules r' -> Permutation r r' -> r = r') -> (forall r, rules r -> plain_rule r) -> reliable T0 load ->
  up_to_date rules T0 load (told e) e -> Forall (cluster_call rules) cs -> returns reloading o e cs e' ->
  up_to_date rules T0 load (told e') e'.
Proof. intros rules T0 load o e cs e' AP PL RE U F R. exact (returns_stays rules T0 load o AP PL RE e cs e' R F U). Qed.
Print Assumptions C107_in_step_partial.
(** ... and each call with nothing left to do leaves the rules, and tells the storage the
    changes, that it would with a watcher that does nothing. *)
Theorem C107_same_change_partial : forall (rules : rule -> Prop) T0 load o c e e1 e',
  (forall r r', rules r -> rules r' -> Permutation r r' -> r = r') -> (forall r, rules r -> plain_rule r) -> reliable T0 load ->
  up_to_date rules T0 load (told e) e -> cluster_call rules c -> told_last c ->
  run o c e = (e1, Ok tt) -> wrun reloading o c e = (e', Ok tt) ->
  same_table (policy e') (policy e1) /\ told e' = told e1.
Proof. intros. eapply same_change; eauto. Qed.
Print Assumptions C107_same_change_partial.

(** False with the adapters for files: they do not learn of changes, so every change of
    which the watcher is told is undone before the call returns.  The enforcer has the
    rules that loading instead of the call would have given it. *)
Theorem C107_file_undone_refuted : forall o c e rs, one_change c -> c <> KSavePolicy -> file_backed e -> offers e rs -> Forall (known e) rs ->
  was_told e (fst (run o c e)) ->
  let e' := fst (wrun reloading o c e) in
  forall sec pt r, sec = "p" \/ sec = "g" -> (In r (stored e' sec pt) <-> In r (stored (fst (LoadPolicy e)) sec pt)).
Proof. intros o c e rs OC NS FB O K W e'. apply file_undone with rs; auto. Qed.
(** So an enforcer that had the rules of its file has them still. *)
Theorem C107_file_no_change_refuted : forall o c e rs, one_change c -> c <> KSavePolicy -> file_backed e -> offers e rs -> Forall (known e) rs ->
  was_told e (fst (run o c e)) -> as_loaded e ->
  forall sec pt r, sec = "p" \/ sec = "g" -> (In r (stored (fst (wrun reloading o c e)) sec pt) <-> In r (stored e sec pt)).
Proof. intros o c e rs OC NS FB O K W L sec pt r G. rewrite (L sec pt G). apply file_undone with rs; auto. Qed.
(** False for updates with every adapter: no storage is told of them. *)
Theorem C107_update_undone_refuted : forall o c e rs, updates c -> offers e rs -> Forall (known e) rs -> was_told e (fst (run o c e)) ->
  let e' := fst (wrun reloading o c e) in
  forall sec pt r, sec = "p" \/ sec = "g" -> (In r (stored e' sec pt) <-> In r (stored (fst (LoadPolicy e)) sec pt)).
Proof. intros o c e rs UP O K W e'. apply update_undone with rs; auto. Qed.
Print Assumptions C107_file_undone_refuted.
Print Assumptions C107_file_no_change_refuted.
Print Assumptions C107_update_undone_refuted.

(** ** Concrete cases *)
Fixpoint goes (o : oracle) (e : enforcer) (cs : list call) : option enforcer :=
  match cs with
  | [] => Some e
  | c :: cs' => match wrun reloading o c e with (e1, Ok tt) => goes o e1 cs' | _ => None end
  end.
Lemma goes_returns : forall o cs e e', goes o e cs = Some e' -> returns reloading o e cs e'.
Proof.
  induction cs as [|c cs IH]; intros e e' G; cbn [goes] in G; [injection G as <-; constructor|].
  destruct (wrun reloading o c e) as [e1 [[]|t|u]] eqn:W; try discriminate. eapply returns_step; eauto.
Qed.
Definition alone : list call :=
  [KAddPolicy "p" r_carol; KAddGroupings "g" [["bob"; "admin"]; ["carol"; "admin"]]; KDeleteUser "alice"; KEnforce "" (map DStr r_bob); KRemovePolicy "p" r_bob].
Example C107_in_step_case : up_to_date ex_rules (db_table rows0) (db_load rows0) (told member) member /\ Forall (cluster_call ex_rules) alone /\
  exists e', returns reloading mini member alone e' /\ heard e' = 5 /\ has_just e' [r_carol] [["bob"; "admin"]; ["carol"; "admin"]] = true.
Proof.
  split; [exact member_up|]. split.
  - unfold alone, ex_rules. repeat (apply Forall_cons; [split; [cbn [forwarded]; try (simpl; auto 10; fail)|exact Logic.I]|]); [|apply Forall_nil].
    split; [discriminate|]. split; [repeat constructor; simpl; intuition discriminate|]. repeat (apply Forall_cons; [simpl; auto 10|]). apply Forall_nil.
  - assert (X : match goes mini member alone with Some e => Nat.eqb (heard e) 5 && has_just e [r_carol] [["bob"; "admin"]; ["carol"; "admin"]] | None => false end = true) by (vm_compute; reflexivity).
    destruct (goes mini member alone) as [e'|] eqn:G; [|discriminate]. apply andb_prop in X. destruct X as [X1 X2]. exists e'. split; [apply goes_returns, G|]. split; auto. apply Nat.eqb_eq, X1.
Qed.
Example C107_same_change_case : told_last (KAddPolicy "p" r_carol) /\ cluster_call ex_rules (KAddPolicy "p" r_carol) /\
  snd (run mini (KAddPolicy "p" r_carol) member) = Ok tt /\ snd (wrun reloading mini (KAddPolicy "p" r_carol) member) = Ok tt /\
  was_told member (fst (run mini (KAddPolicy "p" r_carol) member)) /\ In r_carol (stored (fst (wrun reloading mini (KAddPolicy "p" r_carol) member)) "p" "p").
Proof.
  split; [exact Logic.I|]. split; [split; [unfold ex_rules; simpl; auto 10|exact Logic.I]|]. split; [vm_compute; reflexivity|]. split; [vm_compute; reflexivity|].
  split; [vm_compute; lia|vm_compute; auto].
Qed.

(** An enforcer whose policy is in a file and that has loaded it. *)
Lemma loaded_as_loaded : forall e rs w, offers e rs -> Forall (known e) rs -> as_loaded (set_watcher w (fst (LoadPolicy e))).
Proof.
  intros e rs w O K sec pt G. destruct (load_policy_spec e rs O K) as [_ [_ [D [_ H]]]]. symmetry.
  change (stored (set_watcher w (fst (LoadPolicy e))) sec pt) with (stored (fst (LoadPolicy e)) sec pt).
  assert (O1 : offers (set_watcher w (fst (LoadPolicy e))) rs). { destruct (load_adapter e) as [F A]. eapply offers_ext; eauto. }
  apply C38_load_is_independent with rs; auto. eapply Forall_impl; [|exact K]. intros kr Q. apply D in Q. exact Q.
Qed.
Definition filed : enforcer := set_watcher (Some 0) (fst (LoadPolicy (with_file two_lines ex))).
Definition filed_rules : list (string * rule) := [("p", ["alice"; "data1"; "read"]); ("g", ["alice"; "admin"])].
Lemma filed_offers : offers filed filed_rules /\ Forall (known filed) filed_rules /\ file_backed filed.
Proof.
  split; [|split].
  - split; [discriminate|]. apply file_means_fun. vm_compute. reflexivity.
  - repeat (apply Forall_cons; [eexists; vm_compute; reflexivity|]). apply Forall_nil.
  - exact Logic.I.
Qed.
(** AddPolicy answers true, and the rule is not there. *)
Example C107_file_case : one_change (KAddPolicy "p" r_bob) /\ offers filed filed_rules /\ Forall (known filed) filed_rules /\ file_backed filed /\
  was_told filed (fst (run mini (KAddPolicy "p" r_bob) filed)) /\ as_loaded filed /\
  In r_bob (stored (fst (run mini (KAddPolicy "p" r_bob) filed)) "p" "p") /\
  snd (w_addPolicy reloading "p" "p" r_bob filed) = Ok true /\ stored (fst (w_addPolicy reloading "p" "p" r_bob filed)) "p" "p" = [r_alice].
Proof.
  destruct filed_offers as [O [K F]]. split; [left; exact Logic.I|]. split; [exact O|]. split; [exact K|]. split; [exact F|]. split; [vm_compute; lia|]. split.
  - destruct C38_case as [rs [O1 [K1 _]]]. exact (loaded_as_loaded _ rs (Some 0) O1 K1).
  - split; [vm_compute; auto|]. split; vm_compute; reflexivity.
Qed.
Example C107_update_case : updates (KUpdatePolicy "p" r_alice r_carol) /\ (exists rs, offers member rs /\ Forall (known member) rs) /\
  was_told member (fst (run mini (KUpdatePolicy "p" r_alice r_carol) member)) /\
  snd (w_updatePolicy reloading "p" "p" r_alice r_carol member) = Ok true /\
  stored (fst (run mini (KUpdatePolicy "p" r_alice r_carol) member)) "p" "p" = [r_bob; r_carol] /\
  stored (fst (wrun reloading mini (KUpdatePolicy "p" r_alice r_carol) member)) "p" "p" = [r_alice; r_bob].
Proof.
  split; [exact Logic.I|]. split.
  - exists [("p", r_alice); ("p", r_bob); ("g", ["alice"; "admin"])]. split.
    + eexists. split; [reflexivity|]. cbn. repeat (eapply lines_rule; [reflexivity|apply line_means_parse; vm_compute; reflexivity|]). constructor.
    + repeat (apply Forall_cons; [eexists; vm_compute; reflexivity|]). apply Forall_nil.
  - split; [vm_compute; lia|]. split; [vm_compute; reflexivity|]. split; vm_compute; reflexivity.
Qed.
(** And AddGroupingPolicy goes on after the watcher was told: it adds the link of the rule
    that loading has taken away, so the user has a role that no rule gives them. *)
Theorem C107_role_without_rule_refuted : exists e e', offers e filed_rules /\ Forall (known e) filed_rules /\ file_backed e /\
  w_AddNamedGroupingPolicy reloading "g" ["bob"; "admin"] e = (e', Ok true) /\
  stored e' "g" "g" = [["alice"; "admin"]] /\ snd (GetRolesForUser "bob" [] e') = Ok ["admin"].
Proof.
  destruct filed_offers as [O [K F]]. exists filed, (fst (w_AddNamedGroupingPolicy reloading "g" ["bob"; "admin"] filed)). split; [exact O|]. split; [exact K|]. split; [exact F|].
  assert (P : forall (p : enforcer * res bool) x, snd p = x -> p = (fst p, x)) by (intros [? ?] x <-; reflexivity).
  split; [apply P; vm_compute; reflexivity|]. split; vm_compute; reflexivity.
Qed.
Print Assumptions C107_role_without_rule_refuted.
