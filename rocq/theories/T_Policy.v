(** Properties C15-C23, C62 and C65: the policy store as seen through the API. *)
From Coq Require Import Permutation.
From Verif Require Import Base P_Base M_Util M_RoleManager M_Effector M_Model M_Persist M_Eval M_Evaluator M_Enforcer M_Matcher S_Effect S_Enforce S_Policy S_History P_Decide P_Store P_Api P_History P_Nodup P_Group E_Examples.

(** An enforcer with two rules and one role, used in the examples. *)
Definition r_alice : rule := ["alice"; "data1"; "read"].
Definition r_bob : rule := ["bob"; "data2"; "write"].
Definition r_carol : rule := ["carol"; "data3"; "read"].
Definition ex : enforcer := linked_boot (rbac_model [r_alice; r_bob] [["alice"; "admin"]]).

Lemma ex_declared_p : declared ex "p" "p".
Proof. eexists. reflexivity. Qed.
Lemma ex_declared_g : declared ex "g" "g".
Proof. eexists. reflexivity. Qed.
Lemma no_anagram_dec : forall r l, forallb (fun x => negb (ArrayEquals r x) || rule_eqb x r) l = true -> no_anagram r l.
Proof.
  intros r l H x I P. rewrite forallb_forall in H. specialize (H x I). apply ArrayEquals_perm in P. rewrite P in H.
  simpl in H. apply rule_eqb_true. auto.
Qed.
Ltac no_anag := apply no_anagram_dec; vm_compute; reflexivity.
Ltac distinct_rules := vm_compute; repeat constructor; simpl; intuition discriminate.

(** * C62: when two rules count as equal *)
Theorem C62_comparison_ignores_order : forall a b, ArrayEquals a b = true <-> Permutation a b.
Proof. apply ArrayEquals_perm. Qed.
(** The claim in full, [ArrayEquals a b = true <-> a = b], fails. *)
Theorem C62_comparison_refuted : exists a b : rule, a <> b /\ ArrayEquals a b = true.
Proof. exists ["alice"; "bob"; "read"], ["bob"; "alice"; "read"]. split; [discriminate|reflexivity]. Qed.
Theorem C62_equal_rules_compare_equal_partial : forall a b : rule, a = b -> ArrayEquals a b = true.
Proof. intros a b ->. apply ArrayEquals_refl. Qed.

(** * C15: AddPolicy, HasPolicy, RemovePolicy *)
Theorem C15_has_policy_partial : forall e pt r, declared e "p" pt -> no_anagram r (stored e "p" pt) ->
  exists b, HasNamedPolicy pt r e = (e, Ok b) /\ (b = true <-> In r (stored e "p" pt)).
Proof. apply has_named. Qed.

Theorem C15_add_policy_partial : forall e pt r, declared e "p" pt -> no_anagram r (stored e "p" pt) ->
  let (e', out) := AddNamedPolicy pt r e in
  others_kept "p" pt e e' /\
  (In r (stored e "p" pt) -> out = Ok false /\ e' = e) /\
  (~ In r (stored e "p" pt) ->
     stored e' "p" pt = stored e "p" pt ++ [r] /\ (save_fine e (CAdd "p" pt r) -> out = Ok true)) /\
  HasNamedPolicy pt r e' = (e', Ok true).
Proof.
  intros e pt r D NA. pose proof (add_named e pt r D NA) as H. destruct (AddNamedPolicy pt r e) as [e' out].
  destruct H as [O [I N]]. repeat split; auto; try (apply I; auto); try (apply N; auto).
  assert (In r (stored e' "p" pt)) as J.
  { destruct (in_dec (list_eq_dec string_dec) r (stored e "p" pt)) as [V|V].
    - destruct (I V) as [_ ->]. auto.
    - destruct (N V) as [-> _]. rewrite in_app_iff. simpl. auto. }
  unfold HasNamedPolicy, read_model, HasPolicy. f_equal. unfold stored, rules_in in J.
  destruct (get_ast (e_model e') "p" pt) as [a| |] eqn:G; simpl in J; try tauto. cbn [bind]. f_equal.
  apply has_rule_true. exists r. auto.
Qed.

Theorem C15_remove_policy_partial : forall e pt r, declared e "p" pt -> no_anagram r (stored e "p" pt) -> NoDup (stored e "p" pt) ->
  let (e', out) := RemoveNamedPolicy pt r e in
  others_kept "p" pt e e' /\
  (~ In r (stored e "p" pt) -> out = Ok false /\ e' = e) /\
  (In r (stored e "p" pt) ->
     (save_fine e (CRemove "p" pt r) -> out = Ok true) /\ ~ In r (stored e' "p" pt) /\
     exists pre post, stored e "p" pt = pre ++ r :: post /\ stored e' "p" pt = pre ++ post).
Proof. apply remove_named. Qed.

(** The same for grouping rules; here building the role links can throw. *)
Theorem C15_add_grouping_partial : forall e pt r, declared e "g" pt -> no_anagram r (stored e "g" pt) ->
  let (e', out) := AddNamedGroupingPolicy pt r e in
  others_kept "g" pt e e' /\
  (In r (stored e "g" pt) -> stored e' "g" pt = stored e "g" pt) /\
  (~ In r (stored e "g" pt) -> stored e' "g" pt = stored e "g" pt ++ [r]) /\
  (forall b, out = Ok b -> (b = true <-> ~ In r (stored e "g" pt))).
Proof. apply add_grouping. Qed.
Theorem C15_remove_grouping_partial : forall e pt r, declared e "g" pt -> no_anagram r (stored e "g" pt) -> NoDup (stored e "g" pt) ->
  let (e', out) := RemoveNamedGroupingPolicy pt r e in
  others_kept "g" pt e e' /\
  (~ In r (stored e "g" pt) -> stored e' "g" pt = stored e "g" pt) /\
  (In r (stored e "g" pt) -> ~ In r (stored e' "g" pt) /\
     exists pre post, stored e "g" pt = pre ++ r :: post /\ stored e' "g" pt = pre ++ post) /\
  (forall b, out = Ok b -> (b = true <-> In r (stored e "g" pt))).
Proof. apply remove_grouping. Qed.

Example C15_cases :
  no_anagram r_carol (stored ex "p" "p") /\ ~ In r_carol (stored ex "p" "p") /\
  no_anagram r_bob (stored ex "p" "p") /\ In r_bob (stored ex "p" "p") /\ NoDup (stored ex "p" "p") /\
  no_anagram ["bob"; "admin"] (stored ex "g" "g") /\ save_fine ex (CAdd "p" "p" r_carol) /\
  snd (AddNamedPolicy "p" r_carol ex) = Ok true /\ snd (RemoveNamedPolicy "p" r_bob ex) = Ok true /\
  snd (AddNamedGroupingPolicy "g" ["bob"; "admin"] ex) = Ok true /\
  snd (RemoveNamedGroupingPolicy "g" ["alice"; "admin"] ex) = Ok true.
Proof.
  repeat split; try no_anag; try reflexivity; try distinct_rules.
Qed.

(** With a permutation of the fields of a stored rule the laws fail: an absent rule is
    reported present, is not added, and removing it removes another rule. *)
Theorem C15_permuted_rule_refuted : exists e r x,
  declared e "p" "p" /\ stored e "p" "p" = [x] /\ r <> x /\
  snd (HasNamedPolicy "p" r e) = Ok true /\
  snd (AddNamedPolicy "p" r e) = Ok false /\
  snd (RemoveNamedPolicy "p" r e) = Ok true /\ stored (fst (RemoveNamedPolicy "p" r e)) "p" "p" = [].
Proof.
  exists (boot (basic_model [["alice"; "bob"; "read"]])), ["bob"; "alice"; "read"], ["alice"; "bob"; "read"].
  split; [eexists; reflexivity|]. repeat split; try reflexivity. discriminate.
Qed.

(** * C16: set semantics *)
Theorem C16_no_duplicates_partial : forall o cs e e',
  all_distinct e -> Forall brings_distinct cs -> reaches o e cs e' -> forall sec pt, NoDup (stored e' sec pt).
Proof. intros o cs e e' D F R. exact (history_distinct o cs e e' F D R). Qed.

Lemma all_distinct_dec : forall e,
  Forall (fun sam => Forall (fun ka : string * assertion => NoDup (rules_of (a_policy (snd ka)))) (snd sam)) (e_model e) -> all_distinct e.
Proof.
  intros e F sec pt. unfold stored, rules_in, get_ast, sec_of.
  destruct (aget sec (e_model e)) as [am|] eqn:G; simpl; [|constructor].
  destruct (aget pt am) as [a|] eqn:G2; simpl; [|constructor].
  apply aget_In in G, G2. rewrite Forall_forall in F. specialize (F _ G). simpl in F. rewrite Forall_forall in F. apply (F _ G2).
Qed.
Definition cs16 : list call :=
  [KAddPolicy "p" r_carol; KAddPolicy "p" r_carol; KAddPolicies "p" [["x"; "y"; "z"]; ["u"; "v"; "w"]];
   KUpdatePolicy "p" r_bob ["bob"; "data2"; "read"]; KAddGrouping "g" ["bob"; "admin"]; KDeleteUser "alice"; KEnforce "" (reqs r_bob)].
Example C16_case : all_distinct ex /\ Forall brings_distinct cs16 /\
  exists e', reaches mini ex cs16 e' /\ List.length (stored e' "p" "p") = 4.
Proof.
  split; [|split].
  - apply all_distinct_dec. repeat constructor; simpl; intuition discriminate.
  - repeat constructor; simpl; intuition discriminate.
  - eexists. split.
    + repeat (eapply reach_step; [vm_compute; reflexivity|discriminate|]). apply reach_nil.
    + vm_compute. reflexivity.
Qed.

(** A batch that contains the same rule twice is stored twice, and so are repeated
    lines of a policy text. *)
Theorem C16_set_semantics_refuted : exists cs e',
  reaches mini (boot (basic_model [])) cs e' /\ stored e' "p" "p" = [r_alice; r_alice].
Proof.
  eexists [KAddPolicies "p" [r_alice; r_alice]], _. split.
  - eapply reach_step; [vm_compute; reflexivity|discriminate|]. apply reach_nil.
  - reflexivity.
Qed.
Theorem C16_loaded_duplicates_refuted : exists a e',
  new_enforcer no_files (basic_model []) (Some a) = (e', Ok tt) /\ stored e' "p" "p" = [r_alice; r_alice].
Proof.
  eexists (AString ("p, alice, data1, read" ++ String nl "p, alice, data1, read")), _. split; vm_compute; reflexivity.
Qed.

(** * C17: AddPolicies *)
Theorem C17_add_policies_partial : forall e pt rs, declared e "p" pt -> (forall r, In r rs -> no_anagram r (stored e "p" pt)) ->
  let (e', out) := AddNamedPolicies pt rs e in
  others_kept "p" pt e e' /\
  ((exists r, In r rs /\ In r (stored e "p" pt)) -> out = Ok false /\ e' = e) /\
  ((forall r, In r rs -> ~ In r (stored e "p" pt)) ->
     (forall x, In x (stored e' "p" pt) <-> In x rs \/ In x (stored e "p" pt)) /\
     (NoDup rs -> stored e' "p" pt = stored e "p" pt ++ rs) /\
     (save_fine e (CAddMany "p" pt rs) -> out = Ok true)).
Proof. apply add_many. Qed.
Example C17_case :
  (forall r, In r [r_carol; ["x"; "y"; "z"]] -> no_anagram r (stored ex "p" "p")) /\
  snd (AddNamedPolicies "p" [r_carol; ["x"; "y"; "z"]] ex) = Ok true /\
  snd (AddNamedPolicies "p" [r_carol; r_alice] ex) = Ok false.
Proof. split; [|split; reflexivity]. intros r [<-|[<-|[]]]; no_anag. Qed.
Theorem C17_permuted_rule_refuted : exists e rs, declared e "p" "p" /\
  (forall r, In r rs -> ~ In r (stored e "p" "p")) /\ snd (AddNamedPolicies "p" rs e) = Ok false.
Proof.
  exists (boot (basic_model [["alice"; "bob"; "read"]])), [["bob"; "alice"; "read"]].
  split; [eexists; reflexivity|]. split; [|reflexivity]. intros r [<-|[]]. vm_compute. intuition discriminate.
Qed.

(** * C18: RemovePolicies *)
(** It removes nothing, in any state and for any batch; when none of the rules is
    present it adds them. *)
Theorem C18_remove_policies_never_removes : forall e pt rs r,
  In r (stored e "p" pt) -> In r (stored (fst (RemoveNamedPolicies pt rs e)) "p" pt).
Proof.
  intros e pt rs r I. rewrite remove_many_adds. unfold AddNamedPolicies. rewrite i_addPolicies_p.
  destruct (AddPolicies (e_model e) "p" pt rs) as [[m b]|t|u] eqn:E; auto.
  assert (In r (stored (set_model m e) "p" pt)).
  { unfold AddPolicies in E. destruct rs as [|r0 rs]. { inversion E. rewrite set_model_id. auto. }
    destruct (get_ast (e_model e) "p" pt) as [a| |] eqn:G; try discriminate. cbn [bind] in E.
    unfold stored in *. rewrite (rules_in_get _ _ _ _ G) in I.
    destruct (existsb (has_rule (rules_of (a_policy a))) (r0 :: rs)); inversion E; subst.
    - rewrite set_model_id, (rules_in_get _ _ _ _ G). auto.
    - unfold set_model. cbn [e_model]. rewrite rules_in_put. apply (proj2 (fold_emplace_in (r0 :: rs) (a_policy a) r)). auto. }
  destruct b; auto. unfold stored in *. rewrite tail_model. auto.
Qed.
Theorem C18_remove_policies_refuted : exists e rs,
  declared e "p" "p" /\ (forall r, In r rs -> In r (stored e "p" "p")) /\ rs <> [] /\
  RemoveNamedPolicies "p" rs e = (e, Ok false) /\
  stored (fst (RemoveNamedPolicies "p" [r_carol] e)) "p" "p" = stored e "p" "p" ++ [r_carol] /\
  snd (RemoveNamedPolicies "p" [r_carol] e) = Ok true.
Proof.
  exists ex, [r_alice; r_bob]. split; [apply ex_declared_p|]. repeat split; try reflexivity; try discriminate.
  intros r [<-|[<-|[]]]; vm_compute; auto.
Qed.

(** The function of the model that would remove them is not called.  Called directly it
    answers false and changes nothing when a rule is missing, and has undefined behaviour
    when all are there (it goes on with an iterator it has erased). *)
Theorem C18_model_missing : forall m sec pt a rs r, get_ast m sec pt = Ok a -> In r rs ->
  (forall x, In x (rules_of (a_policy a)) -> ~ Permutation r x) -> RemovePolicies m sec pt rs = Ok (m, false).
Proof.
  intros m sec pt a rs r G I N. unfold RemovePolicies. rewrite G. cbn [bind]. replace (forallb _ rs) with false; auto. symmetry.
  destruct (forallb (has_rule (rules_of (a_policy a))) rs) eqn:F; auto. rewrite forallb_forall in F. specialize (F r I). apply has_rule_true in F. destruct F as [x [Ix P]]. destruct (N x Ix P).
Qed.
Theorem C18_model_refuted : forall m sec pt a rs, get_ast m sec pt = Ok a -> rs <> [] ->
  (forall r, In r rs -> exists x, In x (rules_of (a_policy a)) /\ Permutation r x) -> RemovePolicies m sec pt rs = UB InvalidIterator.
Proof.
  intros m sec pt a rs G NE A. unfold RemovePolicies. rewrite G. cbn [bind]. replace (forallb _ rs) with true; [destruct rs; congruence|]. symmetry.
  apply forallb_forall. intros r I. apply has_rule_true. apply A, I.
Qed.
Example C18_model_case : exists a, get_ast (e_model ex) "p" "p" = Ok a /\ In r_alice (rules_of (a_policy a)) /\
  RemovePolicies (e_model ex) "p" "p" [r_alice] = UB InvalidIterator /\ RemovePolicies (e_model ex) "p" "p" [r_alice; r_carol] = Ok (e_model ex, false).
Proof. eexists. split; [reflexivity|]. split; [left; reflexivity|]. split; reflexivity. Qed.
Print Assumptions C18_model_missing.
Print Assumptions C18_model_refuted.

(** * C19: UpdatePolicy and UpdatePolicies *)
Theorem C19_update_policy_partial : forall e pt old new, declared e "p" pt ->
  no_anagram old (stored e "p" pt) -> NoDup (stored e "p" pt) ->
  let (e', out) := UpdateNamedPolicy pt old new e in
  others_kept "p" pt e e' /\
  (~ In old (stored e "p" pt) -> out = Ok false /\ e' = e) /\
  (forall pre post, stored e "p" pt = pre ++ old :: post -> no_anagram new (pre ++ post) -> ~ In new (pre ++ post) ->
     out = Ok true /\ stored e' "p" pt = pre ++ post ++ [new]).
Proof.
  intros e pt old new D NA ND. pose proof (update_named e pt old new D NA ND) as H.
  destruct (UpdateNamedPolicy pt old new e). tauto.
Qed.
Theorem C19_update_policies_partial : forall e pt olds news, declared e "p" pt ->
  (forall r, In r (olds ++ news) -> no_anagram r (stored e "p" pt)) -> NoDup (stored e "p" pt) ->
  NoDup olds -> NoDup news ->
  (forall r, In r olds -> In r (stored e "p" pt)) ->
  (forall r, In r news -> In r (stored e "p" pt) -> In r olds) ->
  let (e', out) := UpdateNamedPolicies pt olds news e in
  others_kept "p" pt e e' /\ out = Ok true /\
  exists kept, selects (fun r => ~ In r olds) (stored e "p" pt) kept /\ stored e' "p" pt = kept ++ news.
Proof. apply update_many. Qed.
Theorem C19_update_grouping_partial : forall e pt old new, declared e "g" pt ->
  no_anagram old (stored e "g" pt) -> NoDup (stored e "g" pt) ->
  let (e', out) := UpdateNamedGroupingPolicy pt old new e in
  others_kept "g" pt e e' /\
  (~ In old (stored e "g" pt) -> stored e' "g" pt = stored e "g" pt /\ out = Ok false) /\
  (forall pre post, stored e "g" pt = pre ++ old :: post -> no_anagram new (pre ++ post) -> ~ In new (pre ++ post) ->
     (forall b, out = Ok b -> b = true) /\ stored e' "g" pt = pre ++ post ++ [new]).
Proof. apply update_grouping. Qed.
Example C19_cases :
  no_anagram r_alice (stored ex "p" "p") /\ NoDup (stored ex "p" "p") /\ no_anagram r_carol ([] ++ [r_bob]) /\
  snd (UpdateNamedPolicy "p" r_alice r_carol ex) = Ok true /\
  stored (fst (UpdateNamedPolicy "p" r_alice r_carol ex)) "p" "p" = [r_bob; r_carol] /\
  (forall r, In r ([r_alice; r_bob] ++ [r_carol; r_bob]) -> no_anagram r (stored ex "p" "p")) /\
  snd (UpdateNamedPolicies "p" [r_alice; r_bob] [r_carol; r_bob] ex) = Ok true /\
  stored (fst (UpdateNamedPolicies "p" [r_alice; r_bob] [r_carol; r_bob] ex)) "p" "p" = [r_carol; r_bob] /\
  snd (UpdateNamedGroupingPolicy "g" ["alice"; "admin"] ["bob"; "admin"] ex) = Ok true.
Proof.
  repeat split; try reflexivity; try no_anag; try distinct_rules.
  intros r [<-|[<-|[<-|[<-|[]]]]]; no_anag.
Qed.

(** When the new rule is present already, the call returns false although the old rule
    is gone; the same in a batch whose second old rule is missing. *)
Theorem C19_failed_update_refuted : exists e old new, declared e "p" "p" /\
  In old (stored e "p" "p") /\ In new (stored e "p" "p") /\ old <> new /\
  snd (UpdateNamedPolicy "p" old new e) = Ok false /\
  ~ In old (stored (fst (UpdateNamedPolicy "p" old new e)) "p" "p").
Proof.
  exists ex, r_alice, r_bob. split; [apply ex_declared_p|]. repeat split; try reflexivity; vm_compute; auto; try discriminate.
  intros [V|[]]. discriminate.
Qed.
(** In general: whenever the new rule is present, the old one is lost. *)
Theorem C19_failed_update_loses_old : forall e pt old new pre post, declared e "p" pt ->
  no_anagram old (stored e "p" pt) -> NoDup (stored e "p" pt) ->
  stored e "p" pt = pre ++ old :: post -> In new (pre ++ post) ->
  snd (UpdateNamedPolicy pt old new e) = Ok false /\ stored (fst (UpdateNamedPolicy pt old new e)) "p" pt = pre ++ post.
Proof.
  intros e pt old new pre post D NA ND S I. pose proof (update_named e pt old new D NA ND) as H.
  destruct (UpdateNamedPolicy pt old new e) as [e' out]. simpl. destruct H as [_ [_ [_ H]]]. apply H; auto.
Qed.
Theorem C19_failed_batch_refuted : exists e olds news, declared e "p" "p" /\
  snd (UpdateNamedPolicies "p" olds news e) = Ok false /\
  stored (fst (UpdateNamedPolicies "p" olds news e)) "p" "p" <> stored e "p" "p".
Proof.
  exists ex, [r_alice; r_carol], [["x"; "y"; "z"]; ["u"; "v"; "w"]]. split; [apply ex_declared_p|].
  split; [reflexivity|]. vm_compute. discriminate.
Qed.

(** * C20: filters *)
Theorem C20_get_filtered : forall e pt i vals, declared e "p" pt ->
  exists out, GetFilteredNamedPolicy pt i vals e = (e, out) /\
  match out with
  | Ok l => selects (qualifies i vals) (stored e "p" pt) l
  | Throw _ => False
  | UB _ => ~ filter_in_range i vals (stored e "p" pt)
  end.
Proof. intros e pt i vals D. eexists. split; [reflexivity|]. apply (get_filtered e "p" pt i vals D). Qed.
Theorem C20_get_filtered_grouping : forall e pt i vals, declared e "g" pt ->
  exists out, GetFilteredNamedGroupingPolicy pt i vals e = (e, out) /\
  match out with
  | Ok l => selects (qualifies i vals) (stored e "g" pt) l
  | Throw _ => False
  | UB _ => ~ filter_in_range i vals (stored e "g" pt)
  end.
Proof. intros e pt i vals D. eexists. split; [reflexivity|]. apply (get_filtered e "g" pt i vals D). Qed.
Theorem C20_remove_filtered : forall e pt i vals l, declared e "p" pt ->
  snd (GetFilteredNamedPolicy pt i vals e) = Ok l ->
  let (e', out) := RemoveFilteredNamedPolicy pt i vals e in
  others_kept "p" pt e e' /\
  selects (fun r => ~ qualifies i vals r) (stored e "p" pt) (stored e' "p" pt) /\
  (l = [] -> out = Ok false) /\
  (l <> [] -> (save_fine e (CRemoveFiltered "p" pt i vals) -> out = Ok true) /\ forall b, out = Ok b -> b = true).
Proof. intros e pt i vals l D G. apply remove_filtered; auto. Qed.
Theorem C20_remove_filtered_grouping : forall e pt i vals l, declared e "g" pt ->
  snd (GetFilteredNamedGroupingPolicy pt i vals e) = Ok l ->
  let (e', out) := RemoveFilteredNamedGroupingPolicy pt i vals e in
  others_kept "g" pt e e' /\
  selects (fun r => ~ qualifies i vals r) (stored e "g" pt) (stored e' "g" pt) /\
  (forall b, out = Ok b -> (b = true <-> l <> [])).
Proof. intros e pt i vals l D G. apply remove_filtered_grouping; auto. Qed.
Example C20_case :
  snd (GetFilteredNamedPolicy "p" 0 ["alice"; ""; "read"] ex) = Ok [r_alice] /\
  filter_in_range 0 ["alice"; ""; "read"] (stored ex "p" "p") /\
  stored (fst (RemoveFilteredNamedPolicy "p" 0 ["alice"; ""; "read"] ex)) "p" "p" = [r_bob] /\
  snd (RemoveFilteredNamedPolicy "p" 0 ["alice"; ""; "read"] ex) = Ok true /\
  snd (RemoveFilteredNamedGroupingPolicy "g" 0 ["alice"] ex) = Ok true.
Proof.
  repeat split; try reflexivity. intros r. vm_compute. intros [<-|[<-|[]]]; simpl; lia.
Qed.
(** A filter that reaches beyond a rule is undefined behaviour. *)
Theorem C20_out_of_range_refuted : exists e i vals, declared e "p" "p" /\
  snd (GetFilteredNamedPolicy "p" i vals e) = UB OutOfBounds.
Proof. exists ex, 3, ["x"]. split; [apply ex_declared_p|reflexivity]. Qed.

(** * C21: listings *)
Definition lists_field (e : enforcer) (sec : string) (pts : string -> Prop) (i : nat) (out : res (list string)) : Prop :=
  match out with
  | Ok vs => NoDup vs /\ forall v, In v vs <-> exists pt r, pts pt /\ In r (stored e sec pt) /\ nth_error r i = Some v
  | Throw _ => False
  | UB _ => exists pt r, pts pt /\ In r (stored e sec pt) /\ List.length r <= i
  end.
Lemma named_listing : forall e sec pt i, declared e sec pt ->
  lists_field e sec (eq pt) i (GetValuesForFieldInPolicy (e_model e) sec pt i).
Proof.
  intros e sec pt i [a A]. pose proof (values_spec (e_model e) sec pt i a A) as H. unfold lists_field.
  destruct (GetValuesForFieldInPolicy (e_model e) sec pt i); auto.
  - destruct H as [N H]. split; auto. intros v. rewrite H. unfold stored. split; [intros [r ?]; exists pt, r; tauto|].
    intros [q [r [<- ?]]]. eauto.
  - destruct H as [r H]. exists pt, r. auto.
Qed.
Theorem C21_named_listings : forall e pt, declared e "p" pt ->
  (fst (GetAllNamedSubjects pt e) = e /\ lists_field e "p" (eq pt) 0 (snd (GetAllNamedSubjects pt e))) /\
  (fst (GetAllNamedObjects pt e) = e /\ lists_field e "p" (eq pt) 1 (snd (GetAllNamedObjects pt e))) /\
  (fst (GetAllNamedActions pt e) = e /\ lists_field e "p" (eq pt) 2 (snd (GetAllNamedActions pt e))).
Proof. intros. repeat split; apply named_listing; auto. Qed.
Theorem C21_named_roles : forall e pt, declared e "g" pt ->
  fst (GetAllNamedRoles pt e) = e /\ lists_field e "g" (eq pt) 1 (snd (GetAllNamedRoles pt e)).
Proof. intros. split; auto. apply named_listing; auto. Qed.

Lemma all_listing : forall sec i e, lists_field e sec (fun _ => True) i (snd (all_types sec i e)).
Proof.
  intros sec i e. unfold all_types, GetValuesForFieldInPolicyAllTypes. simpl.
  set (m := touch (e_model e) sec).
  assert (ST : forall pt, stored e sec pt = rules_in m sec pt).
  { intros. unfold stored, rules_in, m. rewrite get_touch. reflexivity. }
  assert (KEY : forall pt r, In r (rules_in m sec pt) -> exists a, In (pt, a) (sec_of m sec)).
  { intros pt r I. unfold rules_in, get_ast in I. destruct (aget pt (sec_of m sec)) eqn:G; simpl in I; try tauto.
    exists a. apply aget_In. auto. }
  assert (H : match mapr (fun kv : string * assertion => GetValuesForFieldInPolicy m sec (fst kv) i) (sec_of m sec) with
              | Ok vss => forall v, In v (List.concat vss) <-> exists kv r, In kv (sec_of m sec) /\ In r (rules_in m sec (fst kv)) /\ nth_error r i = Some v
              | Throw _ => False
              | UB _ => exists pt r, In r (rules_in m sec pt) /\ List.length r <= i end).
  { assert (GET : forall kv, In kv (sec_of m sec) -> exists a, get_ast m sec (fst kv) = Ok a).
    { intros [k a] I. unfold get_ast. simpl. destruct (aget k (sec_of m sec)) eqn:G; eauto.
      exfalso. apply aget_None in G. apply G. apply (in_map fst) in I. auto. }
    revert GET. generalize (sec_of m sec) as am. clearbody m. clear.
    induction am as [|kv am IH]; simpl; intros.
    - split; [tauto|]. intros [? [? [[] _]]].
    - destruct (GET kv (or_introl eq_refl)) as [a A]. pose proof (values_spec m sec (fst kv) i a A) as V.
      destruct (GetValuesForFieldInPolicy m sec (fst kv) i) as [vs| |]; cbn [bind]; auto.
      + specialize (IH (fun kv' I => GET kv' (or_intror I))).
        destruct (mapr _ am) as [vss| |]; cbn [bind]; auto.
        intros v. simpl. rewrite in_app_iff, IH. destruct V as [_ V]. rewrite V. split.
        * intros [[r [I N]]|[kv' [r [I N]]]]; [exists kv, r|exists kv', r]; tauto.
        * intros [kv' [r [[<-|I] N]]]; [left; exists r|right; exists kv', r]; tauto.
      + destruct V as [r V]. eauto. }
  unfold lists_field. destruct (mapr _ (sec_of m sec)) as [vss| |]; cbn [bind]; auto.
  - split; [apply dedup_nodup|]. intros v. unfold ArrayRemoveDuplicates. rewrite dedup_in, H. split.
    + intros [[kv [r [I [J N]]]] _]. exists (fst kv), r. rewrite ST. auto.
    + intros [pt [r [_ [J N]]]]. rewrite ST in J. split; [|tauto]. destruct (KEY pt r J) as [a I]. exists (pt, a), r. auto.
  - destruct H as [pt [r [J L]]]. exists pt, r. rewrite ST. auto.
Qed.
Theorem C21_all_listings : forall e,
  lists_field e "p" (fun _ => True) 0 (snd (GetAllSubjects e)) /\
  lists_field e "p" (fun _ => True) 1 (snd (GetAllObjects e)) /\
  lists_field e "p" (fun _ => True) 2 (snd (GetAllActions e)) /\
  lists_field e "g" (fun _ => True) 1 (snd (GetAllRoles e)).
Proof. intros. repeat split; apply all_listing. Qed.
Example C21_case : snd (GetAllSubjects ex) = Ok ["alice"; "bob"] /\ snd (GetAllNamedActions "p" ex) = Ok ["read"; "write"] /\
  snd (GetAllRoles ex) = Ok ["admin"].
Proof. repeat split; reflexivity. Qed.

(** * C22: policy types are isolated *)
Theorem C22_types_isolated : forall o c e sec pt, ~ about c sec pt -> stored (fst (run o c e)) sec pt = stored e sec pt.
Proof. apply not_about. Qed.
(** For whole histories: what no call is about is never changed. *)
Theorem C22_types_isolated_in_histories : forall o cs e e' sec pt,
  (forall c, In c cs -> ~ about c sec pt) -> reaches o e cs e' -> stored e' sec pt = stored e sec pt.
Proof.
  intros o cs e e' sec pt N R. induction R; auto.
  rewrite IHR by (intros; apply N; simpl; auto).
  pose proof (not_about o c e sec pt (N c (or_introl eq_refl))) as K. rewrite H in K. exact K.
Qed.
Example C22_case : ~ about (KAddPolicy "p" r_carol) "g" "g" /\ ~ about (KRemoveGrouping "g" ["alice"; "admin"]) "p" "p" /\
  stored (fst (run mini (KRemoveGrouping "g" ["alice"; "admin"]) ex)) "g" "g" = [] /\
  stored (fst (run mini (KRemoveGrouping "g" ["alice"; "admin"]) ex)) "p" "p" = [r_alice; r_bob].
Proof. repeat split; try reflexivity; simpl; intuition discriminate. Qed.

(** * C23: ClearPolicy *)
Theorem C23_clear_policy_partial : forall e, exists e', e_ClearPolicy e = (e', Ok tt) /\
  (forall pt, stored e' "p" pt = [] /\ stored e' "g" pt = []) /\
  (forall sec pt, declared e' sec pt <-> declared e sec pt).
Proof.
  intros e. eexists. split; [reflexivity|]. split.
  - intros pt. unfold stored. simpl. rewrite !clear_rules by auto. auto.
  - intros sec pt. unfold declared. simpl. rewrite clear_get.
    destruct (String.eqb sec "p" || String.eqb sec "g"); [|tauto].
    destruct (get_ast (e_model e) sec pt); simpl; split; intros [x X]; try discriminate; eauto.
Qed.
(** Missing: the role assignments.  They stay in force until the links are rebuilt. *)
Theorem C23_roles_remain_refuted : exists e e',
  e_ClearPolicy e = (e', Ok tt) /\ stored e' "g" "g" = [] /\ snd (HasRoleForUser "alice" "admin" e') = Ok true.
Proof. exists ex. eexists. split; [reflexivity|]. split; vm_compute; reflexivity. Qed.

(** * C65: permissions *)
Theorem C65_add_permission_partial : forall e u perm, declared e "p" "p" -> no_anagram (u :: perm) (stored e "p" "p") ->
  (forall r, In r (stored e "p" "p") -> r <> []) ->
  let e' := fst (AddPermissionForUser u perm e) in
  HasPermissionForUser u perm e' = (e', Ok true) /\
  exists l, GetPermissionsForUser u e' = (e', Ok l) /\ In (u :: perm) l.
Proof.
  intros e u perm D NA NE. pose proof (C15_add_policy_partial e "p" (u :: perm) D NA) as H.
  pose proof (add_named e "p" (u :: perm) D NA) as A.
  change (AddPermissionForUser u perm e) with (AddNamedPolicy "p" (u :: perm) e).
  destruct (AddNamedPolicy "p" (u :: perm) e) as [e' out]. simpl. split; [apply H|].
  assert (IN : In (u :: perm) (stored e' "p" "p") /\ forall r, In r (stored e' "p" "p") -> r <> []).
  { destruct A as [_ [I N]]. destruct (in_dec (list_eq_dec string_dec) (u :: perm) (stored e "p" "p")) as [V|V].
    - destruct (I V) as [_ ->]. auto.
    - destruct (N V) as [-> _]. split.
      + rewrite in_app_iff. simpl. auto.
      + intros r. rewrite in_app_iff. simpl. intros [X|[<-|[]]]; auto. discriminate. }
  assert (D' : declared e' "p" "p").
  { destruct IN as [IN _]. unfold stored, rules_in in IN. unfold declared. destruct (get_ast (e_model e') "p" "p"); simpl in IN; try tauto. eauto. }
  pose proof (get_filtered e' "p" "p" 0 [u] D') as G. unfold GetPermissionsForUser, e_GetFilteredPolicy, GetFilteredNamedPolicy, read_model.
  destruct (GetFilteredPolicy (e_model e') "p" "p" 0 [u]) as [l|t|x] eqn:Q; try tauto.
  - exists l. split; auto. eapply selects_in; eauto. split; [tauto|].
    intros [|j] v V NV; simpl in V; inversion V; subst; auto. destruct j; discriminate.
  - exfalso. apply G. intros r I. simpl. destruct IN as [_ IN]. specialize (IN r I). destruct r; [congruence|simpl; lia].
Qed.
Theorem C65_delete_permission_for_user_partial : forall e u perm, declared e "p" "p" ->
  no_anagram (u :: perm) (stored e "p" "p") -> NoDup (stored e "p" "p") ->
  let e' := fst (DeletePermissionForUser u perm e) in
  HasPermissionForUser u perm e' = (e', Ok false) /\
  (forall l, snd (GetPermissionsForUser u e') = Ok l -> ~ In (u :: perm) l) /\
  (forall x, x <> u :: perm -> (In x (stored e' "p" "p") <-> In x (stored e "p" "p"))).
Proof.
  intros e u perm D NA ND. pose proof (remove_named e "p" (u :: perm) D NA ND) as H.
  assert (DD : declared (fst (DeletePermissionForUser u perm e)) "p" "p").
  { destruct D as [a A]. change (DeletePermissionForUser u perm e) with (RemoveNamedPolicy "p" (u :: perm) e).
    unfold RemoveNamedPolicy. rewrite i_removePolicy_p. unfold RemovePolicy. rewrite A. cbn [bind].
    destruct (erase_first (u :: perm) (rules_of (a_policy a))).
    - unfold declared. rewrite tail_model. unfold set_model. cbn [e_model]. rewrite get_put_same. eauto.
    - rewrite set_model_id. exists a. auto. }
  change (DeletePermissionForUser u perm e) with (RemoveNamedPolicy "p" (u :: perm) e) in *.
  destruct (RemoveNamedPolicy "p" (u :: perm) e) as [e' out]. simpl in *.
  assert (K : ~ In (u :: perm) (stored e' "p" "p") /\
              (forall x, x <> u :: perm -> (In x (stored e' "p" "p") <-> In x (stored e "p" "p")))).
  { destruct H as [_ [N I]]. destruct (in_dec (list_eq_dec string_dec) (u :: perm) (stored e "p" "p")) as [V|V].
    - destruct (I V) as [_ [NI [pre [post [E1 E2]]]]]. split; auto. intros x X. rewrite E1, E2, !in_app_iff. simpl. intuition congruence.
    - destruct (N V) as [_ ->]. split; auto. tauto. }
  destruct K as [K1 K2]. split; [|split; auto].
  - destruct (has_named e' "p" (u :: perm) DD) as [b [B1 B2]].
    { intros x I P. destruct (list_eq_dec string_dec x (u :: perm)) as [V|V]; auto. apply NA; auto. apply K2; auto. }
    unfold HasPermissionForUser, e_HasPolicy. change (JoinSlice u perm) with (u :: perm). rewrite B1.
    destruct b; auto. exfalso. apply K1. apply B2. auto.
  - intros l L C. pose proof (get_filtered e' "p" "p" 0 [u] DD) as G.
    unfold GetPermissionsForUser, e_GetFilteredPolicy, GetFilteredNamedPolicy, read_model in L. simpl in L. rewrite L in G.
    eapply selects_in in C; eauto. tauto.
Qed.
Theorem C65_delete_permission : forall e perm, declared e "p" "p" -> filter_in_range 1 perm (stored e "p" "p") ->
  let e' := fst (DeletePermission perm e) in
  (forall r, In r (stored e' "p" "p") <-> In r (stored e "p" "p") /\ ~ qualifies 1 perm r) /\
  (Forall (fun x => x <> "") perm -> forall u, ~ In (u :: perm) (stored e' "p" "p")).
Proof.
  intros e perm D R. pose proof (get_filtered e "p" "p" 1 perm D) as G.
  destruct (GetFilteredPolicy (e_model e) "p" "p" 1 perm) as [l| |] eqn:Q; try tauto.
  pose proof (remove_filtered e "p" 1 perm l D Q) as H. unfold DeletePermission, e_RemoveFilteredPolicy.
  destruct (RemoveFilteredNamedPolicy "p" 1 perm e) as [e' out]. simpl. destruct H as [_ [S _]].
  assert (K : forall r, In r (stored e' "p" "p") <-> In r (stored e "p" "p") /\ ~ qualifies 1 perm r)
    by (intros; eapply (selects_in (fun r => ~ qualifies 1 perm r)); eauto).
  split; auto. intros F u C. apply K in C. destruct C as [_ C]. apply C. intros j v V _. auto.
Qed.
Example C65_cases :
  no_anagram ["carol"; "data3"; "read"] (stored ex "p" "p") /\ snd (AddPermissionForUser "carol" ["data3"; "read"] ex) = Ok true /\
  snd (GetPermissionsForUser "carol" (fst (AddPermissionForUser "carol" ["data3"; "read"] ex))) = Ok [r_carol] /\
  snd (DeletePermissionForUser "bob" ["data2"; "write"] ex) = Ok true /\
  snd (DeletePermission ["data1"; "read"] ex) = Ok true /\ filter_in_range 1 ["data1"; "read"] (stored ex "p" "p").
Proof. repeat split; try no_anag; try reflexivity. intros r. vm_compute. intros [<-|[<-|[]]]; simpl; lia. Qed.
(** With a permuted rule the permission is neither added nor listed. *)
Theorem C65_permuted_permission_refuted : exists e u perm, declared e "p" "p" /\
  snd (AddPermissionForUser u perm e) = Ok false /\
  snd (GetPermissionsForUser u (fst (AddPermissionForUser u perm e))) = Ok [].
Proof. exists ex, "read", ["alice"; "data1"]. split; [apply ex_declared_p|split; reflexivity]. Qed.

Print Assumptions C15_add_policy_partial.
Print Assumptions C16_no_duplicates_partial.
Print Assumptions C17_add_policies_partial.
Print Assumptions C19_update_policies_partial.
Print Assumptions C20_remove_filtered.
Print Assumptions C20_remove_filtered_grouping.
Print Assumptions C21_all_listings.
Print Assumptions C22_types_isolated_in_histories.
Print Assumptions C65_delete_permission.
