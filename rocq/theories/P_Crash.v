(** More about policy texts: comments, truncated files, filters. *)
From Verif Require Import Base P_Base M_Util M_RoleManager M_Model M_Persist M_Evaluator M_Enforcer S_Text S_Policy S_Persist S_History
  P_Text P_Decide P_Store P_Api P_History P_Persist P_Save.

(** ** Lines that say nothing *)
Lemma lacks_single : forall c s, lacks c s -> Split s (String c "") None = [s].
Proof. intros c s L. apply Split_unique; [discriminate|]. apply splits_last. auto. Qed.
Lemma parse_nothing : forall line, says_nothing line -> parse (Trim line) = None.
Proof.
  intros line [_ [t [T N]]]. apply trimmed_fun in T. rewrite <- T. destruct N as [->|[s ->]]; auto. destruct s; auto.
Qed.
Lemma parse_nothing_strictly : forall line, says_nothing_strictly line -> parse line = None.
Proof. intros line [_ [->|[s ->]]]; auto. destruct s; auto. Qed.
Lemma cat_app : forall A (a b : list (option A)), cat_some (a ++ b) = cat_some a ++ cat_some b.
Proof. intros. apply flat_map_app. Qed.
Definition rd (f : string -> string) (c : string) := cat_some (map (fun p => parse (f p)) (Split c newline None)).
Lemma rd_app : forall f a b, rd f (a ++ newline ++ b) = rd f a ++ rd f b.
Proof. intros. unfold rd. change (Split (a ++ newline ++ b) newline None) with (Split (a ++ String "010" "" ++ b)%string (String "010" "") None).
  rewrite (Split_app "010" a b), map_app, cat_app. auto. Qed.
Lemma rd_nothing : forall f c, lacks "010" c -> parse (f c) = None -> rd f c = [].
Proof. intros f c L P. unfold rd. change newline with (String "010" ""). rewrite (lacks_single "010" c L). simpl. rewrite P. auto. Qed.
Lemma rd_insert : forall f a b c, lacks "010" c -> parse (f c) = None ->
  rd f (a ++ newline ++ c ++ newline ++ b) = rd f (a ++ newline ++ b) /\ rd f (c ++ newline ++ a) = rd f a /\ rd f (a ++ newline ++ c) = rd f a.
Proof.
  intros f a b c L P. rewrite !rd_app. rewrite (rd_nothing f c L P). simpl. rewrite app_nil_r. auto.
Qed.

(** ** Loading depends on the rules only *)
Lemma rebuild_fs : forall f e, rebuild_if_auto (set_fs f e) = (set_fs f (fst (rebuild_if_auto e)), snd (rebuild_if_auto e)).
Proof.
  intros f e. unfold rebuild_if_auto, e_BuildRoleLinks. cbn [set_fs e_auto_build e_heap e_rm e_model]. destruct (e_auto_build e); auto.
  destruct (hget (e_heap e) (e_rm e)); auto. destruct (BuildRoleLinks _ _ _) as [[? ?] ?]. auto.
Qed.
Lemma rebuild_adapter : forall a e, rebuild_if_auto (set_adapter a e) = (set_adapter a (fst (rebuild_if_auto e)), snd (rebuild_if_auto e)).
Proof.
  intros f e. unfold rebuild_if_auto, e_BuildRoleLinks. cbn [set_adapter e_auto_build e_heap e_rm e_model]. destruct (e_auto_build e); auto.
  destruct (hget (e_heap e) (e_rm e)); auto. destruct (BuildRoleLinks _ _ _) as [[? ?] ?]. auto.
Qed.
Lemma load_file_ext : forall e b path f rs, e_adapter e = Some (AFile b path) -> offers e rs -> offers (set_fs f e) rs ->
  same_policy (LoadPolicy e) (LoadPolicy (set_fs f e)).
Proof.
  intros e b path f rs A O O'. set (e1 := set_model (ClearPolicy (e_model e)) e).
  assert (O1 : offers e1 rs) by exact O. assert (O1' : offers (set_fs f e1) rs) by exact O'.
  pose proof (adapter_load_offers e1 rs O1) as L. pose proof (adapter_load_offers (set_fs f e1) rs O1') as L'. cbn [set_fs e_model] in L'.
  assert (LP : LoadPolicy e = (adapter_load ;;; rebuild_if_auto) e1) by reflexivity.
  assert (LP' : LoadPolicy (set_fs f e) = (adapter_load ;;; rebuild_if_auto) (set_fs f e1)) by reflexivity.
  rewrite LP, LP'. clear LP LP'. unfold mbind.
  assert (S : exists m, fst (adapter_load e1) = set_model m e1).
  { unfold adapter_load. change (e_adapter e1) with (e_adapter e). rewrite A. destruct (FileAdapter_LoadPolicy _ _ _). simpl. eauto. }
  assert (S' : exists m, fst (adapter_load (set_fs f e1)) = set_model m (set_fs f e1)).
  { unfold adapter_load. change (e_adapter (set_fs f e1)) with (e_adapter e). rewrite A. destruct (FileAdapter_LoadPolicy _ _ _). simpl. eauto. }
  change (e_model (set_fs f e1)) with (e_model e1) in L'.
  destruct (adapter_load e1) as [e2 out], (adapter_load (set_fs f e1)) as [e2' out']. destruct (load_rules rs (e_model e1)) as [m x].
  destruct L as [M [-> _]], L' as [M' [-> _]], S as [m1 S], S' as [m1' S']. cbn [fst] in *. subst e2 e2'. cbn in M, M'. subst m1 m1'.
  destruct x; try (repeat split; fail). change (set_model m (set_fs f e1)) with (set_fs f (set_model m e1)). rewrite rebuild_fs. repeat split.
Qed.
Lemma load_string_ext : forall e t t' rs, e_adapter e = Some (AString t) -> offers e rs -> offers (set_adapter (Some (AString t')) e) rs ->
  same_policy (LoadPolicy e) (LoadPolicy (set_adapter (Some (AString t')) e)).
Proof.
  intros e t t' rs A O O'. set (e1 := set_model (ClearPolicy (e_model e)) e). set (a := Some (AString t')) in *.
  assert (O1 : offers e1 rs) by exact O. assert (O1' : offers (set_adapter a e1) rs) by exact O'.
  pose proof (adapter_load_offers e1 rs O1) as L. pose proof (adapter_load_offers (set_adapter a e1) rs O1') as L'.
  assert (LP : LoadPolicy e = (adapter_load ;;; rebuild_if_auto) e1) by reflexivity.
  assert (LP' : LoadPolicy (set_adapter a e) = (adapter_load ;;; rebuild_if_auto) (set_adapter a e1)) by reflexivity.
  rewrite LP, LP'. clear LP LP'. unfold mbind.
  assert (S : exists m, fst (adapter_load e1) = set_model m e1).
  { unfold adapter_load. change (e_adapter e1) with (e_adapter e). rewrite A. destruct (StringAdapter_LoadPolicy _ _). simpl. eauto. }
  assert (S' : exists m, fst (adapter_load (set_adapter a e1)) = set_model m (set_adapter a e1)).
  { unfold adapter_load. change (e_adapter (set_adapter a e1)) with a. unfold a at 1. destruct (StringAdapter_LoadPolicy _ _). simpl. eauto. }
  change (e_model (set_adapter a e1)) with (e_model e1) in L'.
  destruct (adapter_load e1) as [e2 out], (adapter_load (set_adapter a e1)) as [e2' out']. destruct (load_rules rs (e_model e1)) as [m x].
  destruct L as [M [-> _]], L' as [M' [-> _]], S as [m1 S], S' as [m1' S']. cbn [fst] in *. subst e2 e2'. cbn in M, M'. subst m1 m1'.
  destruct x; try (repeat split; fail). change (set_model m (set_adapter a e1)) with (set_adapter a (set_model m e1)). rewrite rebuild_adapter. repeat split.
Qed.

(** ** A file cut off somewhere *)
Lemma stake_short : forall n s, n <= String.length s -> lacks "010" s -> lacks "010" (stake n s).
Proof. intros n s L H. rewrite <- (stake_sdrop n s) in H. apply lacks_app in H. apply H. Qed.
Lemma stake_app_le : forall n a b, n <= String.length a -> stake n (a ++ b) = stake n a.
Proof. induction n; destruct a; simpl; intros; auto; try lia. rewrite IHn by lia. auto. Qed.
Lemma stake_app_gt : forall n a b, stake (String.length a + n) (a ++ b) = (a ++ stake n b)%string.
Proof. induction a; simpl; intros; auto. rewrite IHa. auto. Qed.
Lemma cut_lines : forall lines n, Forall (lacks "010") lines -> lines <> [] ->
  exists k piece, Split (stake n (glue newline lines)) newline None = firstn k lines ++ [piece].
Proof.
  induction lines as [|l ls IH]; intros n F NE; [congruence|]. inversion F as [|? ? F1 F2]; subst.
  destruct (le_lt_dec n (String.length l)) as [LE|GT].
  - exists 0, (stake n l). assert (stake n (glue newline (l :: ls)) = stake n l) as ->.
    { destruct ls; auto. change (glue newline (l :: s :: ls)) with (l ++ newline ++ glue newline (s :: ls))%string. apply stake_app_le. auto. }
    apply lacks_single. apply stake_short; auto.
  - destruct ls as [|l2 ls].
    + exists 0, l. assert (stake n (glue newline [l]) = l) as ->; [|apply lacks_single; auto].
      cbn [glue]. clear -GT. revert n GT. induction l; intros n G; destruct n; simpl in *; try lia; auto. rewrite IHl by lia. auto.
    + change (glue newline (l :: l2 :: ls)) with (l ++ newline ++ glue newline (l2 :: ls))%string.
      assert (stake n (l ++ newline ++ glue newline (l2 :: ls)) = l ++ newline ++ stake (n - String.length l - 1) (glue newline (l2 :: ls)))%string as ->.
      { replace n with (String.length l + (1 + (n - String.length l - 1))) at 1 by lia. rewrite stake_app_gt. auto. }
      destruct (IH (n - String.length l - 1) F2 ltac:(discriminate)) as [k [piece E]]. exists (S k), piece.
      unfold newline in *. rewrite Split_app, E, (lacks_single "010" l F1). auto.
Qed.
Lemma cut_means : forall rs n, (forall kr, In kr rs -> plain_entry kr) ->
  exists k extra, file_means (stake n (glue newline (map line_of rs))) (firstn k rs ++ extra) /\ List.length extra <= 1.
Proof.
  intros rs n P. destruct rs as [|r0 rs]. { exists 0, []. split; [|simpl; lia]. apply file_means_fun. destruct n; reflexivity. }
  destruct (cut_lines (map line_of (r0 :: rs)) n) as [k [piece E]].
  - apply Forall_forall. intros x I. apply in_map_iff in I. destruct I as [kr [<- I]]. apply line_no_newline. auto.
  - discriminate.
  - exists k, (cat_some [parse (Trim piece)]). split; [|destruct (parse (Trim piece)); simpl; lia]. apply file_means_fun. rewrite E, map_app, cat_app. f_equal.
    rewrite firstn_map, map_map. assert (Q : forall kr, In kr (firstn k (r0 :: rs)) -> plain_entry kr).
    { intros kr I. apply P. rewrite <- (firstn_skipn k (r0 :: rs)). apply in_app_iff. auto. }
    induction (firstn k (r0 :: rs)) as [|x l IH]; auto. cbn [map]. unfold cat_some in *. cbn [flat_map]. rewrite (proj2 (parse_line x (Q x (or_introl eq_refl)))). cbn [app]. f_equal.
    apply IH. intros. apply Q. simpl. auto.
Qed.

(** ** Filters *)
Lemma words_differ_spec : forall flt parts, List.length flt <= List.length parts -> exists d, words_differ flt parts = Ok d /\
  (d = false <-> forall j v, nth_error flt j = Some v -> v <> "" -> exists x, nth_error (map Trim parts) j = Some x /\ trimmed blank v x).
Proof.
  induction flt as [|w ws IH]; intros parts L.
  - exists false. split; auto. split; auto. intros _ [|j] v H; discriminate.
  - destruct parts as [|x xs]; [simpl in L; lia|]. cbn [words_differ]. destruct (IH xs) as [d [E D]]; [simpl in L; lia|].
    assert (SP : (forall j v, nth_error (w :: ws) j = Some v -> v <> "" -> exists y, nth_error (map Trim (x :: xs)) j = Some y /\ trimmed blank v y) <->
      (w <> "" -> Trim w = Trim x) /\ (forall j v, nth_error ws j = Some v -> v <> "" -> exists y, nth_error (map Trim xs) j = Some y /\ trimmed blank v y)).
    { split.
      - intros H. split; [intros N; destruct (H 0 w eq_refl N) as [y [Y T]]; simpl in Y; inversion Y; subst; apply Trim_unique; auto|].
        intros j v Q N. apply (H (S j) v Q N).
      - intros [H1 H2] [|j] v Q N; simpl in Q.
        + inversion Q; subst. exists (Trim x). split; auto. rewrite <- H1 by auto. apply Trim_spec.
        + apply (H2 j v Q N). }
    destruct (Nat.ltb_spec 0 (String.length w)) as [LT|GE]; cbn [andb].
    + destruct (String.eqb_spec (Trim w) (Trim x)) as [EQ|NE]; cbn [negb].
      * exists d. split; auto. rewrite D, SP. tauto.
      * exists true. split; auto. rewrite SP. split; [discriminate|]. intros [H _]. exfalso. apply NE. apply H. intros ->. simpl in LT. lia.
    + exists d. split; auto. rewrite D, SP. split; [|tauto]. intros H. split; auto. intros N. exfalso. apply N. destruct w; auto. simpl in GE. lia.
Qed.
Lemma filterLine_spec : forall f line,
  (fits f line /\ filterLine line (Some f) = UB Uninitialised) \/ (~ fits f line /\ filterLine line (Some f) = Ok true).
Proof.
  intros f line. unfold filterLine. assert (SP := Split_spec "," line ltac:(discriminate)).
  destruct (Split line "," None) as [|p0 ps] eqn:E; [inversion SP|].
  change (if String.eqb (Trim p0) "p" then f_P f else if String.eqb (Trim p0) "g" then f_G f else []) with (filter_for f (Trim p0)).
  assert (FT : fits f line <-> List.length (filter_for f (Trim p0)) <= List.length ps /\
    forall j v, nth_error (filter_for f (Trim p0)) j = Some v -> v <> "" -> exists x, nth_error (map Trim ps) j = Some x /\ trimmed blank v x).
  { split.
    - intros [parts [key [fields [S [T [L H]]]]]]. rewrite (splits_unique "," line _ _ ltac:(discriminate) S SP) in T. apply trimmed_map in T. cbn [map] in T. inversion T; subst.
      rewrite map_length in L. auto.
    - intros [L H]. exists (p0 :: ps), (Trim p0), (map Trim ps). split; auto. split; [apply trimmed_map; auto|]. rewrite map_length. auto. }
  unfold filterWords. cbn [List.length tl]. destruct (Nat.ltb_spec (S (List.length ps)) (List.length (filter_for f (Trim p0)) + 1)) as [LT|GE].
  - right. split; auto. intros F. apply FT in F. lia.
  - destruct (words_differ_spec (filter_for f (Trim p0)) ps) as [d [W D]]; [lia|]. rewrite W. cbn [bind]. destruct d.
    + right. split; auto. intros F. apply FT in F. destruct F as [_ F]. apply D in F. discriminate.
    + left. split; auto. apply FT. split; [lia|]. apply D. auto.
Qed.
Lemma load_filtered_none : forall lines m, load_filtered lines None m = load_lines lines m.
Proof. induction lines; simpl; intros; auto. destruct (LoadPolicyLine a m) as [m' [x|y|z]]; auto. Qed.
Lemma load_filtered_some : forall f lines m,
  ((forall l, In l lines -> ~ fits f l) -> load_filtered lines (Some f) m = (m, Ok tt)) /\
  ((exists l, In l lines /\ fits f l) -> load_filtered lines (Some f) m = (m, UB Uninitialised)).
Proof.
  intros f lines m. induction lines as [|l ls [IH1 IH2]].
  - split; auto. intros [? [[] _]].
  - cbn [load_filtered]. destruct (filterLine_spec f l) as [[F1 F2]|[F1 F2]]; rewrite F2.
    + split; auto. intros H. exfalso. apply (H l); simpl; auto.
    + split; [intros H; apply IH1; intros; apply H; simpl; auto|]. intros [x [[->|I] F]]; [contradiction|]. apply IH2. eauto.
Qed.

Lemma drop_last_app : forall l x, drop_last_empty (l ++ [x]) = if String.eqb x "" then l else l ++ [x].
Proof.
  induction l as [|y l IH]; intros x; simpl; auto. destruct (l ++ [x]) eqn:E; [destruct l; discriminate|]. rewrite <- E, IH. destruct (String.eqb x ""); auto.
Qed.
Lemma file_lines_fun : forall c lines, file_lines c lines -> lines = map Trim (getlines c).
Proof.
  intros c lines [pieces [rest [S H]]]. unfold getlines. change (String nl "") with newline.
  apply Split_unique in S; [|discriminate]. rewrite S, drop_last_app.
  destruct H as [[-> H]|[N H]].
  - apply trimmed_map in H. auto.
  - destruct (String.eqb_spec rest ""); [contradiction|]. apply trimmed_map in H. auto.
Qed.
