(** Properties C37-C40, C43 and C44: loading and saving the policy. *)
From Coq Require Import Permutation.
From Verif Require Import Base P_Base M_Util M_RoleManager M_Effector M_Model M_Persist M_Eval M_Evaluator M_Enforcer M_Matcher
  S_Text S_Policy S_Persist S_History P_Text P_Decide P_Store P_Api P_History P_Persist P_Save P_Crash E_Examples T_Policy.

(** * C38: loading replaces *)
(** The rules after LoadPolicy are those the adapter offers, whatever was in memory. *)
Theorem C38_load_replaces : forall e rs, offers e rs -> Forall (known e) rs ->
  (forall sec pt, sec = "p" \/ sec = "g" -> declared e sec pt -> section_of pt = sec ->
     kept_as (kind_of e sec pt) (rules_for pt rs) (stored (fst (LoadPolicy e)) sec pt)) /\
  (forall sec pt, declared (fst (LoadPolicy e)) sec pt <-> declared e sec pt) /\
  (e_auto_build e = false -> snd (LoadPolicy e) = Ok tt).
Proof.
  intros e rs O K. destruct (load_policy_spec e rs O K) as [SP [SG [D [OK _]]]]. split; auto.
  intros sec pt S [a A] SC. unfold kind_of. rewrite A.
  destruct S as [->| ->]; [rewrite SP|rewrite SG]; rewrite A, SC, eqb_refl_s; apply emplace_kept.
Qed.
(** A text that mentions a type the model does not have is undefined behaviour. *)
Theorem C38_unknown_type : forall e rs, offers e rs -> ~ Forall (known e) rs -> snd (LoadPolicy e) = UB NullDeref.
Proof. exact load_policy_unknown. Qed.
(** Loading twice equals loading once. *)
Lemma load_adapter : forall e, e_fs (fst (LoadPolicy e)) = e_fs e /\
  match e_adapter e with
  | Some (AFiltered path _) => exists fd, e_adapter (fst (LoadPolicy e)) = Some (AFiltered path fd)
  | a => e_adapter (fst (LoadPolicy e)) = a
  end.
Proof.
  intros e. assert (RB : forall e1, e_fs (fst (rebuild_if_auto e1)) = e_fs e1 /\ e_adapter (fst (rebuild_if_auto e1)) = e_adapter e1).
  { intros e1. unfold rebuild_if_auto, e_BuildRoleLinks. destruct (e_auto_build e1); auto. destruct (hget (e_heap e1) (e_rm e1)); auto.
    destruct (BuildRoleLinks _ _ _) as [[? ?] ?]. auto. }
  set (e1 := set_model (ClearPolicy (e_model e)) e).
  assert (LP : LoadPolicy e = (adapter_load ;;; rebuild_if_auto) e1) by reflexivity. rewrite LP. clear LP. unfold mbind.
  assert (H : e_fs (fst (adapter_load e1)) = e_fs e /\
    match e_adapter e with
    | Some (AFiltered path _) => exists fd, e_adapter (fst (adapter_load e1)) = Some (AFiltered path fd)
    | a => e_adapter (fst (adapter_load e1)) = a
    end).
  { unfold adapter_load. change (e_adapter e1) with (e_adapter e).
    assert (EA : forall m, e_adapter (set_model m e1) = e_adapter e) by auto.
    destruct (e_adapter e) as [[b path|t|path fd|u]|].
    - destruct (FileAdapter_LoadPolicy _ _ _). split; auto. apply EA.
    - destruct (StringAdapter_LoadPolicy _ _). split; auto. apply EA.
    - destruct (Filtered_LoadPolicy _ _ _) as [[? ?] ?]. split; auto. cbn. eauto.
    - destruct (ua_load u (ua_log u)) as [lines ex']. destruct (load_lines lines (e_model e1)) as [m [x|y|z]]; (split; [reflexivity|apply EA]).
    - split; auto. apply EA. }
  destruct (adapter_load e1) as [e2 [x|y|z]]; cbn [fst] in *; auto. destruct (RB e2) as [R1 R2]. rewrite R1, R2. auto.
Qed.
Lemma offers_ext : forall e e' rs, e_fs e' = e_fs e ->
  match e_adapter e with
  | Some (AFiltered path _) => exists fd, e_adapter e' = Some (AFiltered path fd)
  | a => e_adapter e' = a
  end -> offers e rs -> offers e' rs.
Proof.
  intros e e' rs F A O. unfold offers in *. destruct (e_adapter e) as [[b path|t|path fd|u]|]; try (rewrite A, ?F; auto). destruct A as [fd' A]. rewrite A, F. auto.
Qed.
(** Two enforcers with the same types that are offered the same rules have the same
    policy after LoadPolicy, whatever they had before. *)
Theorem C38_load_is_independent : forall e e' rs, offers e rs -> offers e' rs -> Forall (known e) rs ->
  (forall sec pt, declared e sec pt <-> declared e' sec pt) ->
  (forall sec pt, is_hash (kind_of e sec pt) = is_hash (kind_of e' sec pt)) ->
  forall sec pt, sec = "p" \/ sec = "g" -> stored (fst (LoadPolicy e)) sec pt = stored (fst (LoadPolicy e')) sec pt.
Proof.
  intros e e' rs O O' K D H sec pt S.
  assert (K' : Forall (known e') rs) by (eapply Forall_impl; [|exact K]; intros kr Q; apply D; auto).
  destruct (load_policy_spec e rs O K) as [SP [SG _]]. destruct (load_policy_spec e' rs O' K') as [SP' [SG' _]].
  assert (X : forall a b, is_hash a = is_hash b -> store_clear a = store_clear b) by (intros [?|?] [?|?]; simpl; congruence).
  specialize (D sec pt). specialize (H sec pt). unfold declared in D. unfold kind_of in H.
  destruct S as [->| ->]; [rewrite SP, SP'|rewrite SG, SG'].
  all: destruct (get_ast (e_model e) _ pt) as [a|t|u], (get_ast (e_model e') _ pt) as [b|t'|u']; auto.
  all: try (rewrite (X _ _ H); auto).
  all: try (exfalso; destruct D as [D1 D2]; (destruct D1 as [? ?]; [eauto|discriminate]) || (destruct D2 as [? ?]; [eauto|discriminate])).
Qed.
Theorem C38_load_twice : forall e rs, offers e rs -> Forall (known e) rs ->
  let e1 := fst (LoadPolicy e) in
  (forall sec pt, sec = "p" \/ sec = "g" -> stored (fst (LoadPolicy e1)) sec pt = stored e1 sec pt).
Proof.
  intros e rs O K e1 sec pt S. destruct (load_adapter e) as [F A]. assert (O1 : offers e1 rs) by (eapply offers_ext; eauto).
  destruct (load_policy_spec e rs O K) as [SP [SG [D [_ KD]]]].
  assert (K1 : Forall (known e1) rs) by (eapply Forall_impl; [|exact K]; intros kr Q; apply D; auto).
  symmetry. unfold e1 at 1. apply C38_load_is_independent with rs; auto.
  intros. symmetry. apply D.
Qed.

Definition file_adapter : adapter := AFile false "policy.csv".
Definition with_file (text : string) (e : enforcer) : enforcer :=
  set_adapter (Some file_adapter) (set_fs (mkFs [("policy.csv", text)] (fun _ => true)) e).
Definition two_lines : string := "p, alice, data1, read" ++ newline ++ "# roles" ++ newline ++ "g, alice, admin" ++ newline.
Example C38_case : exists rs, offers (with_file two_lines ex) rs /\ Forall (known (with_file two_lines ex)) rs /\
  rs = [("p", ["alice"; "data1"; "read"]); ("g", ["alice"; "admin"])] /\
  stored (with_file two_lines ex) "p" "p" = [r_alice; r_bob] /\
  stored (fst (LoadPolicy (with_file two_lines ex))) "p" "p" = [r_alice].
Proof.
  eexists. split; [|split; [|split; [reflexivity|split; reflexivity]]].
  - split; [discriminate|]. apply file_means_fun. vm_compute. reflexivity.
  - repeat (apply Forall_cons; [eexists; reflexivity|]). apply Forall_nil.
Qed.
Print Assumptions C38_load_replaces.
Print Assumptions C38_unknown_type.
Print Assumptions C38_load_is_independent.
Print Assumptions C38_load_twice.

(** * C37: save and load *)
(** A policy of plain values saved to a file is loaded from it by any enforcer with the
    same types, as it was. *)
Lemma touch_types : forall m, (forall kr, In kr (entries m) -> plain_entry kr) -> policy_text (touch (touch m "p") "g") = Ok (glue newline (map line_of (entries m))).
Proof.
  intros m P. destruct (policy_text_ok (touch (touch m "p") "g")) as [t [E ->]]; [|rewrite E, !entries_touch; auto].
  rewrite !entries_touch. auto.
Qed.
Lemma save_file_spec : forall e b path, e_adapter e = Some (AFile b path) -> path <> "" -> writable (e_fs e) path = true -> writable_policy e ->
  snd (SavePolicy e) = Ok tt /\ (forall sec pt, stored (fst (SavePolicy e)) sec pt = stored e sec pt) /\
  exists text, aget path (files (e_fs (fst (SavePolicy e)))) = Some text /\ file_means text (entries (e_model e)).
Proof.
  intros e b path A NP W WP. assert (PE : forall kr, In kr (entries (e_model e)) -> plain_entry kr) by (intros; apply (writable_entries e WP); auto).
  unfold SavePolicy, IsFiltered, mbind. rewrite A. cbn [adapter_filtered]. unfold adapter_save. rewrite A. unfold FileAdapter_SavePolicy.
  destruct (String.eqb_spec path ""); [congruence|]. rewrite touch_types by auto. unfold SavePolicyFile. rewrite W.
  destruct (saved_means (e_model e) PE) as [FM _]. set (text := glue newline (map line_of (entries (e_model e)))) in *.
  set (e1 := set_fs (write_file (e_fs e) path text) (set_model (touch (touch (e_model e) "p") "g") e)).
  assert (N : exists w, notify_always e1 = (set_watcher w e1, Ok tt)).
  { unfold notify_always. destruct (e_watcher e1) eqn:EW; eauto. exists None. f_equal. destruct e1. simpl in *. rewrite EW. reflexivity. }
  destruct N as [w N]. rewrite N. cbn [fst snd]. split; auto. split.
  - intros sec pt. unfold stored, rules_in. cbn [set_watcher e_model]. unfold e1. cbn [set_fs set_model e_model]. rewrite !get_touch. auto.
  - exists text. split; auto. cbn. rewrite aget_aset_same. auto.
Qed.
Theorem C37_save_load : forall e b path, e_adapter e = Some (AFile b path) -> path <> "" -> writable (e_fs e) path = true -> writable_policy e ->
  let e1 := fst (SavePolicy e) in
  snd (SavePolicy e) = Ok tt /\
  forall e' b', e_adapter e' = Some (AFile b' path) -> aget path (files (e_fs e')) = aget path (files (e_fs e1)) -> same_types e e' ->
    (forall sec pt, sec = "p" \/ sec = "g" -> declared e sec pt ->
       kept_as (kind_of e' sec pt) (stored e sec pt) (stored (fst (LoadPolicy e')) sec pt)) /\
    (e_auto_build e' = false -> snd (LoadPolicy e') = Ok tt).
Proof.
  intros e b path A NP W WP e1. destruct (save_file_spec e b path A NP W WP) as [OK [_ [text [T FM]]]]. split; auto.
  intros e' b' A' F ST. assert (O : offers e' (entries (e_model e))).
  { unfold offers. rewrite A', F. unfold e1. rewrite T. auto. }
  assert (K : Forall (known e') (entries (e_model e))).
  { apply Forall_forall. intros kr I. destruct (writable_entries e WP kr I) as [_ [sec [S [D SC]]]]. unfold known. rewrite SC. apply ST; auto. }
  destruct (C38_load_replaces e' _ O K) as [L [_ OK']]. split; auto. intros sec pt S D.
  destruct (WP sec S) as [_ F']. destruct (F' pt D) as [[_ SC] _]. rewrite <- (rules_for_model e sec pt WP S SC). apply L; auto. apply ST; auto.
Qed.
(** In particular for the same enforcer: SavePolicy then LoadPolicy changes nothing. *)
Theorem C37_save_load_same : forall e b path, e_adapter e = Some (AFile b path) -> path <> "" -> writable (e_fs e) path = true -> writable_policy e ->
  (forall sec pt, NoDup (stored e sec pt)) ->
  forall sec pt, sec = "p" \/ sec = "g" -> declared e sec pt ->
    Permutation (stored (fst (LoadPolicy (fst (SavePolicy e)))) sec pt) (stored e sec pt) /\
    (is_hash (kind_of e sec pt) = false -> stored (fst (LoadPolicy (fst (SavePolicy e)))) sec pt = stored e sec pt).
Proof.
  intros e b path A NP W WP ND sec pt S D. destruct (C37_save_load e b path A NP W WP) as [_ H]. specialize (H (fst (SavePolicy e)) b).
  assert (Q : e_adapter (fst (SavePolicy e)) = Some (AFile b path) /\ same_asts e (fst (SavePolicy e))).
  { split; [|apply quiet_save]. unfold SavePolicy, IsFiltered, mbind. rewrite A. cbn [adapter_filtered]. unfold adapter_save. rewrite A.
    destruct (FileAdapter_SavePolicy (e_fs e) path (e_model e)) as [[m f] [x|y|z]]; try exact A. unfold notify_always. destruct (e_watcher _); exact A. }
  destruct Q as [Q1 Q2]. destruct H as [H _]; auto. { intros s q _. symmetry. apply same_asts_declared. auto. }
  specialize (H sec pt S D). rewrite (same_asts_kind _ _ _ _ Q2) in H. unfold kept_as in H. destruct (kind_of e sec pt); split; auto; try (rewrite H; auto; fail).
  - destruct H as [H1 H2]. apply NoDup_Permutation; auto.
  - discriminate.
Qed.
(** The string adapter keeps its text in memory: the same for a policy with a rule. *)
Theorem C37_string_partial : forall e t, e_adapter e = Some (AString t) -> t <> "" -> writable_policy e ->
  (exists sec pt, (sec = "p" \/ sec = "g") /\ stored e sec pt <> []) ->
  exists text, e_adapter (fst (SavePolicy e)) = Some (AString text) /\ snd (SavePolicy e) = Ok tt /\
  forall e', e_adapter e' = Some (AString text) -> same_types e e' ->
    forall sec pt, sec = "p" \/ sec = "g" -> declared e sec pt ->
       kept_as (kind_of e' sec pt) (stored e sec pt) (stored (fst (LoadPolicy e')) sec pt).
Proof.
  intros e t A NT WP NE. assert (PE : forall kr, In kr (entries (e_model e)) -> plain_entry kr) by (intros; apply (writable_entries e WP); auto).
  assert (NEE : entries (e_model e) <> []).
  { destruct NE as [sec [pt [S NS]]]. assert (D : declared e sec pt). { unfold declared. unfold stored, rules_in in NS. destruct (get_ast (e_model e) sec pt); [eauto|congruence|congruence]. }
    destruct (WP sec S) as [_ F']. destruct (F' pt D) as [[_ SC] _]. intros Z. apply NS. rewrite <- (rules_for_model e sec pt WP S SC), Z. auto. }
  destruct (saved_means (e_model e) PE) as [_ SM]. destruct (SM NEE) as [NT2 SM2]. clear SM.
  unfold SavePolicy, IsFiltered, mbind. rewrite A. cbn [adapter_filtered]. unfold adapter_save. rewrite A. unfold StringAdapter_SavePolicy.
  destruct (String.eqb_spec t ""); [congruence|]. rewrite touch_types by auto.
  set (text := glue newline (map line_of (entries (e_model e)))) in *. exists text. unfold notify_always.
  set (e1 := set_adapter (Some (AString text)) (set_model (touch (touch (e_model e) "p") "g") e)).
  destruct (e_watcher e1); (split; [reflexivity|]); (split; [reflexivity|]).
  all: intros e' A' ST sec pt S D; assert (O : offers e' (entries (e_model e))) by (unfold offers; rewrite A'; auto).
  all: assert (K : Forall (known e') (entries (e_model e))) by (apply Forall_forall; intros kr I; destruct (writable_entries e WP kr I) as [_ [s [S' [D' SC]]]]; unfold known; rewrite SC; apply ST; auto).
  all: destruct (C38_load_replaces e' _ O K) as [L _]; destruct (WP sec S) as [_ F']; destruct (F' pt D) as [[_ SC] _]; rewrite <- (rules_for_model e sec pt WP S SC); apply L; auto; apply ST; auto.
Qed.
(** An empty policy saved to a string adapter cannot be loaded again. *)
Theorem C37_string_empty_refuted : exists e, e_adapter e = Some (AString "p, alice, data1, read") /\ writable_policy e /\
  snd (SavePolicy e) = Ok tt /\ snd (LoadPolicy (fst (SavePolicy e))) = Throw CasbinAdapter.
Proof.
  exists (set_adapter (Some (AString "p, alice, data1, read")) (boot (basic_model []))). split; [reflexivity|]. split; [|split; reflexivity].
  intros sec [->| ->]; (split; [vm_compute; repeat constructor; simpl; tauto|]); intros pt [a Q]; unfold get_ast in Q; cbn in Q.
  - destruct (String.eqb_spec pt "p") as [->|]; [|discriminate]. split; [|constructor]. split; [|reflexivity]. split; [apply smem_lacks; reflexivity|]. split; [apply smem_lacks; reflexivity|].
    split; intros c r E; [inversion E; subst|destruct r as [|? [|? ?]]; inversion E; subst]; intros [H|[H|[H|[H|[H|H]]]]]; discriminate.
  - discriminate.
Qed.
(** Values with a comma or with blanks at the edges come back changed; a rule without
    fields cannot be saved at all. *)
Theorem C37_separator_refuted :
  (exists e, stored e "p" "p" = [["alice"; "a,b"; "read"]] /\ snd (SavePolicy e) = Ok tt /\
     stored (fst (LoadPolicy (fst (SavePolicy e)))) "p" "p" = [["alice"; "a"; "b"; "read"]]) /\
  (exists e, stored e "p" "p" = [["alice "; "data1"; "read"]] /\ snd (SavePolicy e) = Ok tt /\
     stored (fst (LoadPolicy (fst (SavePolicy e)))) "p" "p" = [["alice"; "data1"; "read"]]).
Proof.
  split; [exists (with_file "" (boot (basic_model [["alice"; "a,b"; "read"]])))|exists (with_file "" (boot (basic_model [["alice "; "data1"; "read"]])))]; repeat split.
Qed.
Theorem C37_empty_rule_refuted : forall e b path pt, e_adapter e = Some (AFile b path) -> In [] (stored e "p" pt) ->
  snd (SavePolicy e) <> Ok tt.
Proof.
  intros e b path pt A I H. unfold SavePolicy, IsFiltered, mbind in H. rewrite A in H. cbn [adapter_filtered] in H. unfold adapter_save in H. rewrite A in H.
  unfold FileAdapter_SavePolicy in H. destruct (String.eqb path ""); [discriminate|].
  assert (Z : forall t, sec_text (sec_of (touch (touch (e_model e) "p") "g") "p") <> Ok t).
  { apply sec_text_empty. exists pt. unfold stored, rules_in, get_ast in I. 
    assert (S : sec_of (touch (touch (e_model e) "p") "g") "p" = sec_of (e_model e) "p").
    { unfold sec_of, touch. rewrite aget_ainsert. cbn. rewrite aget_ainsert. cbn. destruct (aget "p" (e_model e)); auto. }
    rewrite S. destruct (aget pt (sec_of (e_model e) "p")) eqn:G; [|destruct I]. apply aget_In in G. unfold entries_of. apply in_flat_map. exists (pt, a). split; auto.
    apply in_map_iff. exists []. auto. }
  unfold policy_text in H. destruct (sec_text _) eqn:Q; [exfalso; eapply Z; eauto| |]; discriminate.
Qed.
Example C37_case : writable_policy (with_file "" ex) /\ (forall sec pt, NoDup (stored (with_file "" ex) sec pt)) /\
  e_adapter (with_file "" ex) = Some (AFile false "policy.csv") /\ writable (e_fs (with_file "" ex)) "policy.csv" = true /\
  stored (with_file "" ex) "p" "p" = [r_alice; r_bob] /\ stored (with_file "" ex) "g" "g" = [["alice"; "admin"]] /\
  snd (LoadPolicy (fst (SavePolicy (with_file "" ex)))) = Ok tt.
Proof.
  assert (PV : forall v, smem "," v = false -> smem "010" v = false -> Trim v = v -> plain_value v).
  { intros v H1 H2 H3. split; [apply smem_lacks; auto|]. split; [apply smem_lacks; auto|]. rewrite <- H3. apply Trim_spec. }
  split; [|split; [|repeat split]].
  - intros sec [->| ->]; (split; [vm_compute; apply NoDup_cons; [simpl; tauto|apply NoDup_nil]|]); intros pt [a Q]; unfold get_ast in Q; cbn in Q;
      [destruct (String.eqb_spec pt "p") as [->|]|destruct (String.eqb_spec pt "g") as [->|]]; try discriminate;
      (split; [split; [apply PV; reflexivity|reflexivity]|]); vm_compute;
      repeat (apply Forall_cons; [split; [discriminate|]; repeat (apply Forall_cons; [apply PV; reflexivity|]); apply Forall_nil|]); apply Forall_nil.
  - apply all_distinct_dec. repeat constructor; simpl; intuition discriminate.
Qed.
Print Assumptions C37_save_load.
Print Assumptions C37_save_load_same.
Print Assumptions C37_string_partial.

(** * C44: comments and blank lines *)
Lemma with_line_rd : forall f c t t', with_line c t t' -> lacks "010" c -> parse (f c) = None -> rd f t' = rd f t.
Proof.
  intros f c t t' W L P. destruct W.
  - apply (rd_insert f t t c L P).
  - apply (rd_insert f t t c L P).
  - apply (rd_insert f a b c L P).
Qed.
(** A blank line or a comment, wherever it is put in a policy file, changes nothing of
    what LoadPolicy does. *)
Theorem C44_file : forall e b path c t t' f, e_adapter e = Some (AFile b path) -> path <> "" ->
  aget path (files (e_fs e)) = Some t -> aget path (files f) = Some t' -> says_nothing c -> with_line c t t' ->
  same_policy (LoadPolicy e) (LoadPolicy (set_fs f e)).
Proof.
  intros e b path c t t' f A NP F F' SN W. pose proof (with_line_rd Trim c t t' W (proj1 SN) (parse_nothing c SN)) as R.
  apply load_file_ext with (b := b) (path := path) (rs := rd Trim t); auto.
  - unfold offers. rewrite A, F. split; auto. apply file_means_fun. auto.
  - unfold offers. cbn [set_fs e_adapter e_fs]. rewrite A, F'. split; auto. apply file_means_fun. rewrite <- R. auto.
Qed.
(** The string adapter does not trim its lines: there it holds for lines that are empty
    or have the # in the first column. *)
Theorem C44_string : forall e c t t', e_adapter e = Some (AString t) -> t <> "" -> says_nothing_strictly c -> with_line c t t' ->
  same_policy (LoadPolicy e) (LoadPolicy (set_adapter (Some (AString t')) e)).
Proof.
  intros e c t t' A N SN W. assert (N' : t' <> "") by (destruct W; [destruct c|destruct t|destruct a]; discriminate). pose proof (with_line_rd (fun x => x) c t t' W (proj1 SN) (parse_nothing_strictly c SN)) as R.
  apply load_string_ext with (t := t) (rs := rd (fun x => x) t); auto.
  - unfold offers. rewrite A. split; auto. apply string_means_fun. auto.
  - unfold offers. cbn [set_adapter e_adapter]. split; auto. apply string_means_fun. rewrite <- R. auto.
Qed.
Theorem C44_string_refuted : exists e t' c, e_adapter e = Some (AString "p, alice, data1, read") /\ says_nothing c /\
  with_line c "p, alice, data1, read" t' /\ snd (LoadPolicy e) = Ok tt /\
  snd (LoadPolicy (set_adapter (Some (AString t')) e)) = UB NullDeref.
Proof.
  exists (set_adapter (Some (AString "p, alice, data1, read")) ex), (" # people" ++ newline ++ "p, alice, data1, read")%string, " # people".
  split; [reflexivity|]. split; [|split; [apply line_first|split; reflexivity]].
  split; [apply smem_lacks; reflexivity|]. exists (Trim " # people"). split; [apply Trim_spec|]. right. exists " people". reflexivity.
Qed.
Example C44_case : says_nothing "   # people" /\ says_nothing " " /\ with_line "   # people" ("p, alice, data1, read" ++ newline ++ "p, bob, data2, write")
    ("p, alice, data1, read" ++ newline ++ "   # people" ++ newline ++ "p, bob, data2, write") /\
  stored (fst (LoadPolicy (with_file ("p, alice, data1, read" ++ newline ++ "   # people" ++ newline ++ "p, bob, data2, write") ex))) "p" "p" = [r_alice; r_bob].
Proof.
  split; [|split; [|split; [apply line_between|reflexivity]]]; (split; [apply smem_lacks; reflexivity|]).
  - exists (Trim "   # people"). split; [apply Trim_spec|]. right. exists " people". reflexivity.
  - exists (Trim " "). split; [apply Trim_spec|]. left. reflexivity.
Qed.
Print Assumptions C44_file.
Print Assumptions C44_string.

(** * C39: a load that fails *)
(** False: the old policy is dropped before the adapter is asked.  Whenever a user
    adapter fails before it has given a rule, LoadPolicy passes the exception on and
    leaves no rule at all. *)
Theorem C39_failed_load_refuted : forall e u x, e_adapter e = Some (AUser u) -> ua_load u (ua_log u) = ([], Some x) ->
  snd (LoadPolicy e) = Throw x /\ forall sec pt, sec = "p" \/ sec = "g" -> stored (fst (LoadPolicy e)) sec pt = [].
Proof.
  intros e u x A L. set (e1 := set_model (ClearPolicy (e_model e)) e).
  assert (LP : LoadPolicy e = (adapter_load ;;; rebuild_if_auto) e1) by reflexivity. rewrite LP. clear LP. unfold mbind, adapter_load.
  change (e_adapter e1) with (e_adapter e). rewrite A, L. cbn [load_lines fst snd]. split; auto.
  intros sec pt S. unfold stored, rules_in. cbn [set_model e_model e1]. rewrite clear_get.
  destruct S as [->| ->]; cbn [String.eqb Ascii.eqb Bool.eqb orb bind]; destruct (get_ast (e_model e) _ pt) as [a|?|?]; auto; cbn; destruct (a_policy a); auto.
Qed.
Theorem C39_empty_text_refuted : forall e, e_adapter e = Some (AString "") ->
  snd (LoadPolicy e) = Throw CasbinAdapter /\ forall sec pt, sec = "p" \/ sec = "g" -> stored (fst (LoadPolicy e)) sec pt = [].
Proof.
  intros e A. set (e1 := set_model (ClearPolicy (e_model e)) e).
  assert (LP : LoadPolicy e = (adapter_load ;;; rebuild_if_auto) e1) by reflexivity. rewrite LP. clear LP. unfold mbind, adapter_load.
  change (e_adapter e1) with (e_adapter e). rewrite A. cbn [StringAdapter_LoadPolicy String.eqb fst snd]. split; auto.
  intros sec pt S. unfold stored, rules_in. cbn [set_model e_model e1]. rewrite clear_get.
  destruct S as [->| ->]; cbn [String.eqb Ascii.eqb Bool.eqb orb bind]; destruct (get_ast (e_model e) _ pt) as [a|?|?]; auto; cbn; destruct (a_policy a); auto.
Qed.

(** A file that does not exist is loaded without a word, and leaves no rule. *)
Theorem C39_missing_file_refuted : forall e b path, e_adapter e = Some (AFile b path) -> path <> "" -> aget path (files (e_fs e)) = None -> e_auto_build e = false ->
  snd (LoadPolicy e) = Ok tt /\ forall sec pt, sec = "p" \/ sec = "g" -> stored (fst (LoadPolicy e)) sec pt = [].
Proof.
  intros e b path A NP F AB. assert (O : offers e []) by (unfold offers; rewrite A, F; split; auto; apply file_means_fun; reflexivity).
  destruct (load_policy_spec e [] O (Forall_nil _)) as [SP [SG [D [OK _]]]]. split; auto.
  intros sec pt [->| ->]; [rewrite SP|rewrite SG]; destruct (get_ast (e_model e) _ pt) as [a|?|?]; auto.
  all: destruct (String.eqb (section_of pt) _); destruct (a_policy a); auto.
Qed.
(** A grouping rule that is too short makes the load fail after the old policy is gone. *)
Definition short_grouping : string := "p, carol, data3, read" ++ newline ++ "g, carol" ++ newline.
Theorem C39_short_rule_refuted : exists e, stored e "p" "p" = [r_alice; r_bob] /\ stored e "g" "g" = [["alice"; "admin"]] /\
  snd (LoadPolicy e) = Throw IllegalArgument /\
  stored (fst (LoadPolicy e)) "p" "p" = [r_carol] /\ stored (fst (LoadPolicy e)) "g" "g" = [["carol"]].
Proof. exists (with_file short_grouping ex). repeat split. Qed.
(** What does hold: a load that fails in the adapter leaves the role links alone. *)
Theorem C39_links_partial : forall e, snd (adapter_load (set_model (ClearPolicy (e_model e)) e)) <> Ok tt ->
  e_heap (fst (LoadPolicy e)) = e_heap e /\ snd (LoadPolicy e) <> Ok tt.
Proof.
  intros e. set (e1 := set_model (ClearPolicy (e_model e)) e). intros N.
  assert (LP : LoadPolicy e = (adapter_load ;;; rebuild_if_auto) e1) by reflexivity. rewrite LP. clear LP. unfold mbind.
  assert (H : e_heap (fst (adapter_load e1)) = e_heap e).
  { unfold adapter_load. change (e_adapter e1) with (e_adapter e). destruct (e_adapter e) as [[b path|t|path fd|u]|]; auto.
    - destruct (FileAdapter_LoadPolicy _ _ _). auto.
    - destruct (StringAdapter_LoadPolicy _ _). auto.
    - destruct (Filtered_LoadPolicy _ _ _) as [[? ?] ?]. auto.
    - destruct (ua_load u (ua_log u)) as [lines ex']. destruct (load_lines lines (e_model e1)) as [m [x|y|z]]; auto. }
  destruct (adapter_load e1) as [e2 [[]|y|z]]; cbn [fst snd] in *; [congruence| |]; (split; [auto|discriminate]).
Qed.
Print Assumptions C39_failed_load_refuted.
Print Assumptions C39_empty_text_refuted.
Print Assumptions C39_missing_file_refuted.
Print Assumptions C39_links_partial.

(** * C40: a crash while saving *)
(** [crashed e path c]: the process stopped while SavePolicy wrote the file; c is what the
    file may contain then. *)
Definition crashed (e : enforcer) (path : string) (c : option string) : Prop :=
  exists text, aget path (files (e_fs (fst (SavePolicy e)))) = Some text /\ crash_content (aget path (files (e_fs e))) text c.
(** False: the file is emptied first, so for every policy that has a rule there is a
    moment in which the file holds neither the old text nor the new one. *)
Theorem C40_crash_refuted : forall e b path text, e_adapter e = Some (AFile b path) -> snd (SavePolicy e) = Ok tt ->
  aget path (files (e_fs (fst (SavePolicy e)))) = Some text -> text <> "" -> aget path (files (e_fs e)) <> Some "" ->
  crashed e path (Some "") /\ Some "" <> Some text /\ Some "" <> aget path (files (e_fs e)).
Proof.
  intros e b path text A OK T NT NO. split; [|split; congruence]. exists text. split; auto.
  replace "" with (stake 0 text) by (destruct text; auto). apply crash_writing. lia.
Qed.
(** The truncated file may even hold a rule that was in neither policy: here the old
    policy and the new one mention data10 only, the crash leaves a rule for data1. *)
Theorem C40_wrong_rule_refuted : exists e c, snd (SavePolicy e) = Ok tt /\ crashed e "policy.csv" (Some c) /\
  stored e "p" "p" = [["alice"; "data10"]] /\
  forall e', e_adapter e' = Some file_adapter -> aget "policy.csv" (files (e_fs e')) = Some c -> e_model e' = e_model e ->
    stored (fst (LoadPolicy e')) "p" "p" = [["alice"; "data1"]].
Proof.
  exists (with_file "" (boot (basic_model [["alice"; "data10"]]))), "p, alice, data1". split; [reflexivity|]. split; [|split; [reflexivity|]].
  - exists "p, alice, data10". split; [reflexivity|]. exact (crash_writing _ "p, alice, data10" 15 ltac:(simpl; lia)).
  - intros e' A F M. assert (O : offers e' [("p", ["alice"; "data1"])]).
    { unfold offers. rewrite A. unfold file_adapter. rewrite F. split; [discriminate|]. apply file_means_fun. vm_compute. reflexivity. }
    destruct (load_policy_spec e' _ O) as [SP _]. { apply Forall_cons; [|apply Forall_nil]. unfold known, declared. rewrite M. eexists. reflexivity. }
    rewrite SP, M. reflexivity.
Qed.
(** What does hold, for a policy of plain values: the file holds the old text, or the
    first rules of the new policy in order and at most one damaged line after them. *)
Theorem C40_prefix_partial : forall e b path c, e_adapter e = Some (AFile b path) -> path <> "" -> writable (e_fs e) path = true -> writable_policy e ->
  crashed e path c ->
  c = aget path (files (e_fs e)) \/
  exists text rs k extra t, aget path (files (e_fs (fst (SavePolicy e)))) = Some text /\ file_means text rs /\
    c = Some t /\ file_means t (firstn k rs ++ extra) /\ List.length extra <= 1.
Proof.
  intros e b path c A NP W WP [text [T C]]. inversion C as [|n LE]; subst; auto. right.
  assert (PE : forall kr, In kr (entries (e_model e)) -> plain_entry kr) by (intros; apply (writable_entries e WP); auto).
  assert (TX : text = glue newline (map line_of (entries (e_model e)))).
  { unfold SavePolicy, IsFiltered, mbind in T. rewrite A in T. cbn [adapter_filtered] in T. unfold adapter_save in T. rewrite A in T. unfold FileAdapter_SavePolicy in T.
    destruct (String.eqb_spec path ""); [congruence|]. rewrite touch_types in T by auto. unfold SavePolicyFile in T. rewrite W in T. unfold notify_always in T.
    destruct (e_watcher _); cbn in T; rewrite aget_aset_same in T; congruence. }
  destruct (cut_means (entries (e_model e)) n PE) as [k [extra [H1 H2]]]. rewrite <- TX in H1.
  exists text, (entries (e_model e)), k, extra, (stake n text). split; auto. split; [rewrite TX; apply (saved_means (e_model e) PE)|auto].
Qed.
Example C40_case : writable_policy (with_file "p, dave, data9, read" ex) -> 
  snd (SavePolicy (with_file "p, dave, data9, read" ex)) = Ok tt /\ crashed (with_file "p, dave, data9, read" ex) "policy.csv" (Some "p, alice, data1, re").
Proof.
  intros _. split; [reflexivity|]. exists ("p, alice, data1, read" ++ newline ++ "p, bob, data2, write" ++ newline ++ "g, alice, admin")%string. split; [reflexivity|].
  exact (crash_writing _ ("p, alice, data1, read" ++ newline ++ "p, bob, data2, write" ++ newline ++ "g, alice, admin")%string 19 ltac:(simpl; lia)).
Qed.
Print Assumptions C40_crash_refuted.
Print Assumptions C40_wrong_rule_refuted.
Print Assumptions C40_prefix_partial.

(** * C43: filtered loading *)
(** False: the flag that says whether a line is kept is left uninitialised when the line
    should be kept.  With a filter, LoadFilteredPolicy either meets a line that fits and
    is undefined, or loads nothing. *)
Lemma filtered_load : forall e path flt, e_adapter e = Some (AFiltered path true) ->
  e_LoadFilteredPolicy flt e =
  ((fun e0 : enforcer => let '(fd', m, out) := LoadFilteredPolicy (e_fs e) path true flt (ClearPolicy (e_model e)) in
     (set_adapter (Some (AFiltered path fd')) (set_model m e), out)) ;;; rebuild_if_auto) e.
Proof.
  intros e path flt A. set (e1 := set_model (ClearPolicy (e_model e)) e). unfold e_LoadFilteredPolicy.
  match goal with |- (e_ClearPolicy ;;; ?k ;;; ?k2) e = _ => assert (LP : (e_ClearPolicy ;;; k ;;; k2) e = (k ;;; k2) e1) by reflexivity; rewrite LP; clear LP end.
  unfold mbind. change (e_adapter e1) with (e_adapter e). rewrite A. cbn [adapter_filtered negb].
  change (e_fs e1) with (e_fs e). change (e_model e1) with (ClearPolicy (e_model e)).
  destruct (LoadFilteredPolicy _ _ _ _ _) as [[fd m] out]. reflexivity.
Qed.
Theorem C43_filter_refuted : forall e path f content lines, e_adapter e = Some (AFiltered path true) -> path <> "" ->
  aget path (files (e_fs e)) = Some content -> file_lines content lines ->
  ((exists l, In l lines /\ fits f l) -> snd (e_LoadFilteredPolicy (Some f) e) = UB Uninitialised) /\
  ((forall l, In l lines -> ~ fits f l) -> forall sec pt, sec = "p" \/ sec = "g" -> stored (fst (e_LoadFilteredPolicy (Some f) e)) sec pt = []).
Proof.
  intros e path f content lines A NP F L. apply file_lines_fun in L. rewrite (filtered_load e path (Some f) A). unfold mbind, LoadFilteredPolicy. rewrite F, <- L.
  destruct (String.eqb_spec path ""); [contradiction|]. destruct (load_filtered_some f lines (ClearPolicy (e_model e))) as [H1 H2]. split.
  - intros X. rewrite (H2 X). auto.
  - intros X sec pt S. rewrite (H1 X). set (e2 := set_adapter _ _).
    assert (Q : same_asts e2 (fst (rebuild_if_auto e2))) by apply quiet_rebuild_if.
    rewrite (same_asts_stored _ _ sec pt Q). unfold stored, rules_in, e2. cbn [set_adapter set_model e_model]. rewrite clear_get.
    destruct S as [->| ->]; cbn [String.eqb Ascii.eqb Bool.eqb orb bind]; destruct (get_ast (e_model e) _ pt) as [a|?|?]; auto; cbn; destruct (a_policy a); auto.
Qed.
Theorem C43_witness_refuted : exists e f, e_adapter e = Some (AFiltered "policy.csv" true) /\
  aget "policy.csv" (files (e_fs e)) = Some "p, alice, data1, read" /\ fits f "p, alice, data1, read" /\
  snd (e_LoadFilteredPolicy (Some f) e) = UB Uninitialised.
Proof.
  exists (set_adapter (Some (AFiltered "policy.csv" true)) (with_file "p, alice, data1, read" ex)), (mkFilter ["alice"] []).
  split; [reflexivity|]. split; [reflexivity|]. split; [|reflexivity].
  destruct (filterLine_spec (mkFilter ["alice"] []) "p, alice, data1, read") as [[H _]|[_ H]]; auto. vm_compute in H. discriminate.
Qed.
(** Without a filter the whole file is loaded, twice. *)
Lemma load_rules_app : forall a b m, load_rules (a ++ b) m = match load_rules a m with (m', Ok _) => load_rules b m' | (m', x) => (m', x) end.
Proof. induction a as [|r a IH]; intros b m; simpl; [auto|]. destruct (load_rule r m) as [m' [x|y|z]]; auto. Qed.
Theorem C43_no_filter_refuted : forall e path rs, e_adapter e = Some (AFiltered path true) -> offers e rs -> Forall (known e) rs ->
  forall sec pt, sec = "p" \/ sec = "g" -> declared e sec pt -> section_of pt = sec ->
    kept_as (kind_of e sec pt) (rules_for pt rs ++ rules_for pt rs) (stored (fst (e_LoadFilteredPolicy None e)) sec pt).
Proof.
  intros e path rs A O K sec pt S D SC. rewrite (filtered_load e path None A). unfold mbind, LoadFilteredPolicy, Filtered_LoadPolicy, FileAdapter_LoadPolicy, LoadPolicyFile.
  unfold offers in O. rewrite A in O. destruct O as [NP O]. destruct (String.eqb_spec path ""); [contradiction|].
  set (m0 := ClearPolicy (e_model e)). assert (KK : Forall (m_known m0) (rs ++ rs)).
  { assert (Forall (m_known m0) rs); [|apply Forall_app; auto]. eapply Forall_impl; [|exact K]. intros kr [a Q]. unfold m_known, m0. rewrite clear_get, Q. cbn [bind]. eauto. }
  destruct (load_rules_known (rs ++ rs) m0 KK) as [m2 [E2 G2]]. rewrite load_rules_app in E2.
  match goal with |- context [stored (fst ?x) sec pt] => assert (H : exists e2, e_model e2 = m2 /\ x = rebuild_if_auto e2) end.
  { destruct (aget path (files (e_fs e))) as [c|].
    - apply file_means_fun in O. rewrite load_lines_parse, map_map, (getlines_rules Trim) by reflexivity. rewrite <- O.
      destruct (load_rules rs m0) as [m1 [[]|y|z]]; try discriminate. rewrite load_filtered_none, load_lines_parse, map_map, (getlines_rules Trim) by reflexivity. rewrite <- O, E2.
      match goal with |- context [rebuild_if_auto ?e2] => exists e2 end. auto.
    - subst rs. cbn in E2. inversion E2; subst. cbn [load_lines load_filtered]. match goal with |- context [rebuild_if_auto ?e2] => exists e2 end. auto. }
  destruct H as [e2 [M ->]]. pose proof (quiet_rebuild_if e2) as Q. rewrite (same_asts_stored _ _ _ _ Q). destruct D as [a D].
  unfold stored, rules_in, kind_of. rewrite M, G2, D. unfold m0. rewrite clear_get, D. rewrite <- rules_for_app.
  assert (SG : String.eqb sec "p" || String.eqb sec "g" = true) by (destruct S as [->| ->]; auto). cbn [bind filled]. rewrite SG. unfold filled. rewrite SC, eqb_refl_s. cbn [bind with_policy a_policy]. apply emplace_kept.
Qed.
(** After a filtered load that worked, SavePolicy is refused and leaves the file alone. *)
Theorem C43_save_refused : forall e path flt, e_adapter e = Some (AFiltered path true) -> snd (e_LoadFilteredPolicy flt e) = Ok tt ->
  SavePolicy (fst (e_LoadFilteredPolicy flt e)) = (fst (e_LoadFilteredPolicy flt e), Throw CasbinEnforcer).
Proof.
  intros e path flt A OK. assert (F : e_adapter (fst (e_LoadFilteredPolicy flt e)) = Some (AFiltered path true)).
  { rewrite (filtered_load e path flt A) in *. unfold mbind in *. destruct (LoadFilteredPolicy _ _ _ _ _) as [[fd m] out] eqn:L. destruct out; try discriminate.
    assert (fd = true) as ->. { unfold LoadFilteredPolicy in L. destruct (match flt with Some _ => _ | None => _ end) as [[fd1 m1] [x|y|z]]; try (inversion L; fail).
      destruct (String.eqb path ""); [inversion L|]. destruct (load_filtered _ _ _) as [m2 [x'|y|z]]; inversion L; auto. }
    unfold rebuild_if_auto, e_BuildRoleLinks. cbn [set_adapter set_model e_auto_build e_heap e_rm e_model]. destruct (e_auto_build e); auto.
    destruct (hget (e_heap e) (e_rm e)); auto. destruct (BuildRoleLinks _ _ _) as [[? ?] ?]. auto. }
  unfold SavePolicy, IsFiltered, mbind. rewrite F. auto.
Qed.
(** After LoadPolicy the adapter no longer counts as filtered: LoadFilteredPolicy then
    drops the policy and throws. *)
Theorem C43_after_load_refuted : forall e path flt, e_adapter e = Some (AFiltered path false) ->
  snd (e_LoadFilteredPolicy flt e) = Throw CasbinAdapter /\
  forall sec pt, sec = "p" \/ sec = "g" -> stored (fst (e_LoadFilteredPolicy flt e)) sec pt = [].
Proof.
  intros e path flt A. set (e1 := set_model (ClearPolicy (e_model e)) e).
  assert (LP : e_LoadFilteredPolicy flt e = (e1, Throw CasbinAdapter)).
  { unfold e_LoadFilteredPolicy. match goal with |- (e_ClearPolicy ;;; ?k ;;; ?k2) e = _ => assert (LP : (e_ClearPolicy ;;; k ;;; k2) e = (k ;;; k2) e1) by reflexivity; rewrite LP; clear LP end.
    unfold mbind. change (e_adapter e1) with (e_adapter e). rewrite A. auto. }
  rewrite LP. cbn [fst snd]. split; auto. intros sec pt S. unfold stored, rules_in, e1. cbn [set_model e_model]. rewrite clear_get.
  destruct S as [->| ->]; cbn [String.eqb Ascii.eqb Bool.eqb orb bind]; destruct (get_ast (e_model e) _ pt) as [a|?|?]; auto; cbn; destruct (a_policy a); auto.
Qed.
(** And SavePolicy with such an adapter never returns. *)
Theorem C43_save_after_load_refuted : forall e path, e_adapter e = Some (AFiltered path false) -> snd (SavePolicy e) = UB InfiniteRecursion.
Proof. intros e path A. unfold SavePolicy, IsFiltered, mbind. rewrite A. cbn [adapter_filtered]. unfold adapter_save. rewrite A. auto. Qed.
Definition with_filtered (text : string) (e : enforcer) : enforcer := set_adapter (Some (AFiltered "policy.csv" true)) (with_file text e).
Example C43_case :
  (exists lines, file_lines two_lines lines /\ (forall l, In l (firstn 1 lines) -> ~ fits (mkFilter ["bob"] ["bob"]) l)) /\
  snd (e_LoadFilteredPolicy None (with_filtered two_lines ex)) = Ok tt /\
  stored (fst (e_LoadFilteredPolicy None (with_filtered two_lines ex))) "p" "p" = [r_alice; r_alice] /\
  (let text := ("p, alice, data1, read" ++ newline)%string in snd (e_LoadFilteredPolicy (Some (mkFilter ["bob"] [])) (with_filtered text ex)) = Ok tt).
Proof.
  split; [|repeat split].
  exists ["p, alice, data1, read"; "# roles"; "g, alice, admin"]. split.
  - exists ["p, alice, data1, read"; "# roles"; "g, alice, admin"], "". split.
    + exact (Split_spec newline two_lines ltac:(discriminate)).
    + left. split; auto. apply trimmed_map. reflexivity.
  - intros l [<-|[]] F. destruct (filterLine_spec (mkFilter ["bob"] ["bob"]) "p, alice, data1, read") as [[_ H]|[H _]]; auto. vm_compute in H. discriminate.
Qed.
(** Whatever file it was made with, a filtered file adapter says it is filtered until the
    policy is loaded in full, however that load ends, and from then on it says it is not:
    another filtered load is turned down, and saving never returns. *)
Theorem C43_full_load : forall e path fd, e_adapter e = Some (AFiltered path fd) ->
  let e' := fst (LoadPolicy e) in
  snd (IsFiltered e) = Ok fd /\ snd (IsFiltered e') = Ok false /\
  (forall flt, snd (e_LoadFilteredPolicy flt e') = Throw CasbinAdapter) /\ snd (SavePolicy e') = UB InfiniteRecursion.
Proof.
  intros e path fd A e'. assert (F : e_adapter e' = Some (AFiltered path false)).
  { unfold e'. set (e1 := set_model (ClearPolicy (e_model e)) e).
    assert (LP : LoadPolicy e = (adapter_load ;;; rebuild_if_auto) e1) by reflexivity. rewrite LP. clear LP.
    unfold mbind, adapter_load. change (e_adapter e1) with (e_adapter e). rewrite A. unfold Filtered_LoadPolicy.
    destruct (FileAdapter_LoadPolicy _ _ _) as [m [[]|y|z]]; auto.
    unfold rebuild_if_auto, e_BuildRoleLinks. cbn [set_adapter set_model e_auto_build e_heap e_rm e_model]. destruct (e_auto_build e1); auto.
    destruct (hget (e_heap e1) (e_rm e1)); auto. destruct (BuildRoleLinks _ _ _) as [[? ?] ?]. auto. }
  repeat split.
  - unfold IsFiltered. rewrite A. auto.
  - unfold IsFiltered. rewrite F. auto.
  - intros flt. exact (proj1 (C43_after_load_refuted e' path flt F)).
  - exact (C43_save_after_load_refuted e' path F).
Qed.
Example C43_full_load_case :
  snd (IsFiltered (with_filtered two_lines ex)) = Ok true /\ snd (LoadPolicy (with_filtered two_lines ex)) = Ok tt /\
  snd (IsFiltered (fst (LoadPolicy (with_filtered two_lines ex)))) = Ok false.
Proof. repeat split. Qed.
Print Assumptions C43_filter_refuted.
Print Assumptions C43_full_load.
Print Assumptions C43_no_filter_refuted.
Print Assumptions C43_save_refused.
Print Assumptions C43_after_load_refuted.
