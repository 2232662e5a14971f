(** Proofs about loading and saving. *)
From Coq Require Import Permutation.
From Verif Require Import Base P_Base M_Util M_RoleManager M_Model M_Persist M_Evaluator M_Enforcer S_Text S_Policy S_Persist S_History
  P_Text P_Decide P_Store P_Api P_History.

(** ** Reading lines *)
Definition parse (line : string) : option (string * rule) :=
  if String.eqb line "" || String.prefix "#" line then None
  else match map Trim (Split line "," None) with [] => None | k :: f => Some (k, f) end.

Lemma trimmed_map : forall parts l, Forall2 (trimmed blank) parts l <-> l = map Trim parts.
Proof.
  induction parts as [|p ps IH]; intros l; split; intros H.
  - inversion H. auto.
  - subst. constructor.
  - inversion H; subst. simpl. f_equal; [symmetry; apply Trim_unique; auto|apply IH; auto].
  - subst. simpl. constructor; [apply Trim_spec|apply IH; auto].
Qed.
Lemma line_means_parse : forall line o, line_means line o <-> o = parse line.
Proof.
  intros line o. unfold parse. split.
  - intros H. destruct H as [|s|line parts key fields N1 N2 SP TR]; [auto|destruct s; auto|].
    destruct (String.eqb_spec line ""); [congruence|]. destruct (String.prefix "#" line) eqn:P.
    + exfalso. destruct line as [|c t]; [congruence|]. apply (N2 t). cbn [String.prefix] in P.
      destruct (ascii_dec "#" c); [subst; auto|discriminate].
    + cbn [orb]. rewrite (Split_unique "," _ _ ltac:(discriminate) SP). apply trimmed_map in TR. rewrite <- TR. auto.
  - intros ->. destruct (String.eqb_spec line "") as [->|N]; [constructor|]. cbn [orb].
    destruct (String.prefix "#" line) eqn:P.
    + destruct line as [|c t]; [congruence|]. cbn [String.prefix] in P. destruct (ascii_dec "#" c); [subst; constructor|discriminate].
    + assert (SP := Split_spec "," line ltac:(discriminate)).
      destruct (map Trim (Split line "," None)) as [|k f] eqn:E.
      * exfalso. destruct (Split line "," None); [inversion SP|discriminate].
      * eapply line_rule; eauto; [|apply trimmed_map; auto]. intros t ->. destruct t; discriminate.
Qed.
Definition cat_some {A} (l : list (option A)) : list A :=
  flat_map (fun o => match o with Some x => [x] | None => [] end) l.
Lemma lines_mean_fun : forall (clean : string -> string -> Prop) f, (forall p l, clean p l <-> l = f p) ->
  forall ps rs, lines_mean clean ps rs <-> rs = cat_some (map (fun p => parse (f p)) ps).
Proof.
  intros clean f CF. induction ps as [|p ps IH]; intros rs; split; intros H.
  - inversion H. auto.
  - subst. constructor.
  - inversion H as [|? l ? ? C L M|? l r ? ? C L M]; subst; apply CF in C; subst; apply line_means_parse in L; apply IH in M; subst;
      simpl; rewrite <- L; auto.
  - subst. simpl. destruct (parse (f p)) as [r|] eqn:E; simpl.
    + eapply lines_rule; [apply CF; reflexivity|apply line_means_parse; auto|apply IH; auto].
    + eapply lines_skip; [apply CF; reflexivity|apply line_means_parse; auto|apply IH; auto].
Qed.
Lemma trimmed_fun : forall p l, trimmed blank p l <-> l = Trim p.
Proof. intros. split; [intros; symmetry; apply Trim_unique; auto|intros ->; apply Trim_spec]. Qed.
Lemma eq_fun : forall p l : string, p = l <-> l = (fun x => x) p.
Proof. intros. split; auto. Qed.

Lemma file_means_fun : forall c rs, file_means c rs <-> rs = cat_some (map (fun p => parse (Trim p)) (Split c newline None)).
Proof.
  intros c rs. unfold file_means. split.
  - intros [ps [S M]]. rewrite <- (lines_mean_fun _ _ trimmed_fun). rewrite (Split_unique newline _ _ ltac:(discriminate) S). auto.
  - intros ->. exists (Split c newline None). split; [apply Split_spec; discriminate|]. apply (lines_mean_fun _ _ trimmed_fun). auto.
Qed.
Lemma string_means_fun : forall c rs, string_means c rs <-> rs = cat_some (map parse (Split c newline None)).
Proof.
  intros c rs. unfold string_means. split.
  - intros [ps [S M]]. apply (lines_mean_fun _ _ eq_fun) in M. rewrite (Split_unique newline _ _ ltac:(discriminate) S). auto.
  - intros ->. exists (Split c newline None). split; [apply Split_spec; discriminate|]. apply (lines_mean_fun _ _ eq_fun). auto.
Qed.

(** ** Loading rules *)
Definition load_rule (kr : string * rule) (m : model) : model * res unit :=
  let sec := stake 1 (fst kr) in
  let m1 := touch m sec in
  match get_ast m1 sec (fst kr) with
  | Ok a => (put_policy m1 sec (fst kr) a (emplace (a_policy a) (snd kr)), Ok tt)
  | Throw e => (m1, Throw e)
  | UB u => (m1, UB u)
  end.
Fixpoint load_rules (rs : list (string * rule)) (m : model) : model * res unit :=
  match rs with
  | [] => (m, Ok tt)
  | r :: rs => match load_rule r m with (m', Ok _) => load_rules rs m' | (m', e) => (m', e) end
  end.
Lemma load_line_parse : forall line m, LoadPolicyLine line m = match parse line with None => (m, Ok tt) | Some kr => load_rule kr m end.
Proof.
  intros line m. unfold LoadPolicyLine, parse. destruct (String.eqb line "" || String.prefix "#" line); auto.
  destruct (Split line "," None) as [|x l] eqn:S; [|reflexivity].
  exfalso. assert (SP := Split_spec "," line ltac:(discriminate)). rewrite S in SP. inversion SP.
Qed.
Lemma load_lines_parse : forall lines m, load_lines lines m = load_rules (cat_some (map parse lines)) m.
Proof.
  induction lines as [|l ls IH]; intros m; simpl; auto. rewrite load_line_parse. destruct (parse l) as [kr|]; simpl; auto.
  destruct (load_rule kr m) as [m' [x|t|u]]; auto.
Qed.

Lemma section_stake : forall pt, stake 1 pt = section_of pt.
Proof. intros [|c s]; auto. Qed.
Lemma rules_for_cons : forall pt k r rs, rules_for pt ((k, r) :: rs) = if String.eqb k pt then r :: rules_for pt rs else rules_for pt rs.
Proof. intros. unfold rules_for. simpl. destruct (String.eqb k pt); auto. Qed.
Lemma rules_for_app : forall pt a b, rules_for pt (a ++ b) = rules_for pt a ++ rules_for pt b.
Proof. intros. unfold rules_for. rewrite filter_app, map_app. auto. Qed.
Definition m_known (m : model) (kr : string * rule) : Prop := exists a, get_ast m (section_of (fst kr)) (fst kr) = Ok a.
(** The assertion after loading. *)
Definition filled (sec pt : string) (rs : list (string * rule)) (r : res assertion) : res assertion :=
  let! a := r in Ok (if String.eqb (section_of pt) sec then with_policy a (fold_left emplace (rules_for pt rs) (a_policy a)) else a).
Lemma with_policy_id : forall a, with_policy a (a_policy a) = a.
Proof. intros []. reflexivity. Qed.
Lemma with_policy_twice : forall a p q, with_policy (with_policy a p) q = with_policy a q.
Proof. intros []. reflexivity. Qed.

Lemma load_rule_known : forall kr m, m_known m kr -> exists m', load_rule kr m = (m', Ok tt) /\
  forall sec pt, get_ast m' sec pt = filled sec pt [kr] (get_ast m sec pt).
Proof.
  intros [k r] m [a A]. unfold load_rule. cbn [fst snd] in *. rewrite section_stake, get_touch, A. eexists. split; [reflexivity|].
  intros sec pt. unfold filled. rewrite rules_for_cons. unfold rules_for at 1 2. cbn [List.filter map].
  destruct (pair_dec sec pt (section_of k) k) as [V|V].
  - inversion V; subst. rewrite eqb_refl_s, eqb_refl_s. rewrite get_put_same, A. reflexivity.
  - rewrite get_put_other by auto. rewrite get_touch. destruct (get_ast m sec pt) as [b|t|u]; auto. cbn [bind].
    destruct (String.eqb_spec (section_of pt) sec) as [W|W]; auto. destruct (String.eqb_spec k pt) as [X|X]; [subst; congruence|].
    cbn [fold_left]. rewrite with_policy_id. auto.
Qed.
Lemma load_rule_unknown : forall kr m, ~ m_known m kr -> snd (load_rule kr m) = UB NullDeref.
Proof.
  intros [k r] m N. unfold load_rule. cbn [fst snd]. rewrite section_stake, get_touch. unfold m_known in N. cbn [fst] in N.
  destruct (get_ast m (section_of k) k) as [a|t|u] eqn:G; [exfalso; eauto| |]; unfold get_ast in G; destruct (aget k (sec_of m (section_of k))); inversion G; auto.
Qed.
Lemma filled_nil : forall sec pt r, filled sec pt [] r = r.
Proof. intros. unfold filled. destruct r as [a|t|u]; auto. simpl. rewrite with_policy_id. destruct (String.eqb (section_of pt) sec); auto. Qed.
Lemma filled_app : forall sec pt a b r, filled sec pt b (filled sec pt a r) = filled sec pt (a ++ b) r.
Proof.
  intros. unfold filled. destruct r as [x|t|u]; auto. cbn [bind]. destruct (String.eqb (section_of pt) sec); auto.
  rewrite with_policy_twice, rules_for_app, fold_left_app. auto.
Qed.
Lemma filled_known : forall m m' kr rs, (forall sec pt, get_ast m' sec pt = filled sec pt rs (get_ast m sec pt)) -> (m_known m' kr <-> m_known m kr).
Proof.
  intros m m' kr rs H. unfold m_known. rewrite H. unfold filled. destruct (get_ast m (section_of (fst kr)) (fst kr)); cbn [bind]; split; intros [b B]; try discriminate; eauto.
Qed.
Lemma m_known_dec : forall m kr, m_known m kr \/ ~ m_known m kr.
Proof. intros. unfold m_known. destruct (get_ast m (section_of (fst kr)) (fst kr)); [left; eauto| |]; right; intros [? ?]; discriminate. Qed.
Lemma load_rules_known : forall rs m, Forall (m_known m) rs -> exists m', load_rules rs m = (m', Ok tt) /\
  forall sec pt, get_ast m' sec pt = filled sec pt rs (get_ast m sec pt).
Proof.
  induction rs as [|r rs IH]; intros m F.
  - exists m. split; auto. intros. rewrite filled_nil. auto.
  - inversion F as [|? ? K FF]; subst. destruct (load_rule_known r m K) as [m1 [E1 G1]]. simpl. rewrite E1.
    destruct (IH m1) as [m2 [E2 G2]].
    { eapply Forall_impl; [|exact FF]. intros x X. apply (filled_known m m1 x [r] G1). auto. }
    exists m2. split; auto. intros. rewrite G2, G1, filled_app. auto.
Qed.
Lemma load_rules_unknown : forall rs m, ~ Forall (m_known m) rs -> snd (load_rules rs m) = UB NullDeref.
Proof.
  induction rs as [|r rs IH]; intros m F; [exfalso; auto|]. simpl. destruct (m_known_dec m r) as [K|K].
  - destruct (load_rule_known r m K) as [m1 [E1 G1]]. rewrite E1. apply IH. intros FF. apply F. constructor; auto.
    eapply Forall_impl; [|exact FF]. intros x X. apply (filled_known m m1 x [r] G1). auto.
  - pose proof (load_rule_unknown r m K) as U. destruct (load_rule r m) as [m1 out]. simpl in U. subst. auto.
Qed.

(** ** LoadPolicy *)
Lemma getlines_rules : forall f c, parse (f "") = None ->
  cat_some (map (fun p => parse (f p)) (getlines c)) = cat_some (map (fun p => parse (f p)) (Split c newline None)).
Proof.
  intros f c N. unfold getlines. change (String nl "") with newline. induction (Split c newline None) as [|x l IH]; auto.
  cbn [drop_last_empty]. destruct l as [|y l].
  - destruct (String.eqb_spec x ""); auto. subst. simpl. rewrite N. auto.
  - simpl in *. f_equal. exact IH.
Qed.
Definition only_model (e e' : enforcer) : Prop :=
  e_heap e' = e_heap e /\ e_rm e' = e_rm e /\ e_watcher e' = e_watcher e /\ e_fs e' = e_fs e /\ e_ev e' = e_ev e /\
  e_enabled e' = e_enabled e /\ e_auto_save e' = e_auto_save e /\ e_auto_build e' = e_auto_build e /\ e_notify e' = e_notify e.
Lemma adapter_load_offers : forall e rs, offers e rs ->
  let (e', out) := adapter_load e in
  let (m', out') := load_rules rs (e_model e) in
  e_model e' = m' /\ out = out' /\ only_model e e'.
Proof.
  intros e rs O. unfold offers in O. unfold adapter_load. destruct (e_adapter e) as [[b path|t|path fd|u]|]; [| | | |tauto].
  - destruct O as [NP O]. unfold FileAdapter_LoadPolicy, LoadPolicyFile. destruct (String.eqb_spec path ""); [congruence|].
    destruct (aget path (files (e_fs e))) as [c|].
    + apply file_means_fun in O. rewrite load_lines_parse, map_map, (getlines_rules Trim) by reflexivity. rewrite <- O.
      destruct (load_rules rs (e_model e)). repeat split.
    + subst. repeat split.
  - destruct O as [NP O]. unfold StringAdapter_LoadPolicy. destruct (String.eqb_spec t ""); [congruence|].
    apply string_means_fun in O. rewrite load_lines_parse. change (String nl "") with newline. rewrite <- O. destruct (load_rules rs (e_model e)). repeat split.
  - destruct O as [NP O]. unfold Filtered_LoadPolicy, FileAdapter_LoadPolicy, LoadPolicyFile. destruct (String.eqb_spec path ""); [congruence|].
    destruct (aget path (files (e_fs e))) as [c|].
    + apply file_means_fun in O. rewrite load_lines_parse, map_map, (getlines_rules Trim) by reflexivity. rewrite <- O.
      destruct (load_rules rs (e_model e)). repeat split.
    + subst. repeat split.
  - destruct O as [lines [E M]]. rewrite E. apply (lines_mean_fun _ _ eq_fun) in M. rewrite load_lines_parse. change (map parse lines) with (map (fun p => parse p) lines). rewrite <- M.
    destruct (load_rules rs (e_model e)) as [m [x|y|z]]; repeat split. destruct x. auto.
Qed.

Lemma clear_get : forall m sec pt, get_ast (ClearPolicy m) sec pt =
  let! a := get_ast m sec pt in Ok (if String.eqb sec "p" || String.eqb sec "g" then with_policy a (store_clear (a_policy a)) else a).
Proof.
  intros m sec pt.
  assert (C : forall am q, aget q (clear_sec am) = option_map (fun a => with_policy a (store_clear (a_policy a))) (aget q am)).
  { induction am as [|[k a] am IH]; simpl; intros; auto. destruct (String.eqb q k); auto. }
  assert (S1 : forall m0 s am s' q, get_ast (aset s am m0) s' q = if String.eqb s' s then match aget q am with Some a => Ok a | None => UB NullDeref end else get_ast m0 s' q).
  { intros. unfold get_ast, sec_of. rewrite aget_aset. destruct (String.eqb s' s); auto. }
  assert (S2 : forall m0 s q, match aget q (clear_sec (sec_of m0 s)) with Some a => Ok a | None => UB NullDeref end =
    let! a := get_ast m0 s q in Ok (with_policy a (store_clear (a_policy a)))).
  { intros. rewrite C. unfold get_ast. destruct (aget q (sec_of m0 s)); auto. }
  unfold ClearPolicy. rewrite S1, S2, get_touch, S1, S2, !get_touch, S1, S2, get_touch.
  destruct (String.eqb_spec sec "g") as [->|G]. { simpl. auto. }
  destruct (String.eqb_spec sec "p") as [->|P]. { simpl. auto. }
  simpl. rewrite get_touch. destruct (get_ast m sec pt); auto.
Qed.
Lemma fold_kind : forall l s, is_hash (fold_left emplace l s) = is_hash s.
Proof. induction l as [|r l IH]; simpl; intros; auto. rewrite IH. destruct s; simpl; auto. destruct (existsb (rule_eqb r) l0); auto. Qed.
Lemma clear_kind : forall s, is_hash (store_clear s) = is_hash s.
Proof. intros []; auto. Qed.
Lemma same_asts_kind : forall e e' sec pt, same_asts e e' -> kind_of e' sec pt = kind_of e sec pt.
Proof.
  intros e e' sec pt H. specialize (H sec pt). unfold kind_of, strip in *.
  destruct (get_ast (e_model e') sec pt), (get_ast (e_model e) sec pt); simpl in H; congruence.
Qed.
Lemma load_policy_spec : forall e rs, offers e rs -> Forall (known e) rs ->
  (forall pt, stored (fst (LoadPolicy e)) "p" pt = match get_ast (e_model e) "p" pt with
     | Ok a => if String.eqb (section_of pt) "p" then rules_of (fold_left emplace (rules_for pt rs) (store_clear (a_policy a))) else [] | _ => [] end) /\
  (forall pt, stored (fst (LoadPolicy e)) "g" pt = match get_ast (e_model e) "g" pt with
     | Ok a => if String.eqb (section_of pt) "g" then rules_of (fold_left emplace (rules_for pt rs) (store_clear (a_policy a))) else [] | _ => [] end) /\
  (forall sec pt, declared (fst (LoadPolicy e)) sec pt <-> declared e sec pt) /\
  (e_auto_build e = false -> snd (LoadPolicy e) = Ok tt) /\
  (forall sec pt, is_hash (kind_of (fst (LoadPolicy e)) sec pt) = is_hash (kind_of e sec pt)).
Proof.
  intros e rs O K. set (e1 := set_model (ClearPolicy (e_model e)) e).
  assert (K1 : Forall (m_known (e_model e1)) rs).
  { eapply Forall_impl; [|exact K]. intros kr [a A]. unfold m_known, e1. cbn [set_model e_model]. rewrite clear_get, A. cbn [bind]. eauto. }
  destruct (load_rules_known rs (e_model e1) K1) as [m2 [E2 G2]].
  assert (O1 : offers e1 rs) by exact O. pose proof (adapter_load_offers e1 rs O1) as L. rewrite E2 in L.
  assert (LP : LoadPolicy e = (adapter_load ;;; rebuild_if_auto) e1) by reflexivity.
  unfold mbind in LP. destruct (adapter_load e1) as [e2 out]. destruct L as [M2 [-> OM]]. rewrite LP. clear LP.
  pose proof (quiet_rebuild_if e2) as Q.
  assert (GG : forall sec pt, get_ast (e_model e2) sec pt = filled sec pt rs (get_ast (ClearPolicy (e_model e)) sec pt)).
  { intros. rewrite M2, G2. auto. }
  repeat split.
  - intros pt. rewrite (same_asts_stored _ _ _ _ Q). unfold stored, rules_in. rewrite GG, clear_get. destruct (get_ast (e_model e) "p" pt); auto. simpl.
    destruct (String.eqb (section_of pt) "p"); auto. simpl. apply rules_clear.
  - intros pt. rewrite (same_asts_stored _ _ _ _ Q). unfold stored, rules_in. rewrite GG, clear_get. destruct (get_ast (e_model e) "g" pt); auto. simpl.
    destruct (String.eqb (section_of pt) "g"); auto. simpl. apply rules_clear.
  - intros D. apply (same_asts_declared _ _ _ _ Q) in D. destruct D as [a D]. rewrite GG, clear_get in D. destruct (get_ast (e_model e) sec pt) eqn:G; try discriminate. exists a0. auto.
  - intros [a D]. apply (same_asts_declared _ _ _ _ Q). unfold declared. rewrite GG, clear_get, D. cbn [bind filled]. unfold filled. cbn [bind]. eauto.
  - intros B. unfold rebuild_if_auto. destruct OM as [_ [_ [_ [_ [_ [_ [_ [AB _]]]]]]]]. rewrite AB. unfold e1. cbn [set_model e_auto_build]. rewrite B. auto.
  - intros sec pt. rewrite (same_asts_kind _ _ _ _ Q). unfold kind_of. rewrite GG, clear_get. destruct (get_ast (e_model e) sec pt); auto. unfold filled. cbn [bind].
    destruct (String.eqb (section_of pt) sec); destruct (String.eqb sec "p" || String.eqb sec "g"); cbn [with_policy a_policy]; rewrite ?fold_kind, ?clear_kind; auto.
Qed.
Lemma load_policy_unknown : forall e rs, offers e rs -> ~ Forall (known e) rs -> snd (LoadPolicy e) = UB NullDeref.
Proof.
  intros e rs O K. unfold LoadPolicy, e_ClearPolicy, modify. unfold mbind at 1.
  set (e1 := set_model (ClearPolicy (e_model e)) e).
  assert (K1 : ~ Forall (m_known (e_model e1)) rs).
  { intros F. apply K. eapply Forall_impl; [|exact F]. intros kr [a A]. unfold e1 in A. cbn [set_model e_model] in A. rewrite clear_get in A.
    unfold known, declared. destruct (get_ast (e_model e) (section_of (fst kr)) (fst kr)); try discriminate. eauto. }
  assert (O1 : offers e1 rs) by exact O. pose proof (adapter_load_offers e1 rs O1) as L.
  pose proof (load_rules_unknown rs (e_model e1) K1) as U. destruct (load_rules rs (e_model e1)) as [m2 out2]. simpl in U. subst.
  unfold mbind. destruct (adapter_load e1) as [e2 out]. destruct L as [M2 [-> OM]]. auto.
Qed.
Lemma emplace_kept : forall s l, kept_as s l (rules_of (fold_left emplace l (store_clear s))).
Proof.
  intros [v|v] l; simpl.
  - rewrite fold_emplace_vec. auto.
  - split; [|intros; rewrite fold_emplace_in; simpl; tauto].
    assert (H : forall l s, is_hash s = true -> NoDup (rules_of s) -> NoDup (rules_of (fold_left emplace l s))).
    { induction l0 as [|r l0 IH]; simpl; intros; auto. apply IH.
      - destruct s; try discriminate. simpl. destruct (existsb (rule_eqb r) l1); auto.
      - destruct s as [w|w]; try discriminate. simpl in *. destruct (existsb (rule_eqb r) w) eqn:E; auto. simpl.
        apply NoDup_app; auto; [repeat constructor; auto|]. intros x I [<-|[]]. rewrite (proj2 (existsb_rule_true r w)) in E; auto. discriminate. }
    apply H; auto. constructor.
Qed.
Lemma emplace_distinct : forall s l, NoDup l -> rules_of (fold_left emplace l (store_clear s)) = l.
Proof.
  intros [v|v] l N; simpl; [rewrite fold_emplace_vec; auto|]. rewrite fold_emplace_hash; auto.
Qed.
