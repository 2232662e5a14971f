(** Enforcers that share a storage: proofs. *)
From Coq Require Import Permutation.
From Verif Require Import Base P_Base M_Util M_RoleManager M_Model M_Persist M_Evaluator M_Enforcer S_Text S_Policy S_Persist S_History S_Sync S_Notify S_Cluster
  P_Decide P_Store P_Api P_History P_Nodup P_Notify P_Persist P_Ready T_Persist.

(** ** Who changes the storage tells the watcher *)
Definition alert (e : enforcer) : Prop := e_watcher e <> None /\ e_notify e = true.
Definition behaviour (e : enforcer) := match e_adapter e with Some (AUser u) => Some (ua_load u) | _ => None end.
Definition loud (e e' : enforcer) : Prop :=
  alert e -> alert e' /\ behaviour e' = behaviour e /\ heard e <= heard e' /\ (told e' = told e \/ heard e < heard e').
Lemma loud_refl : forall e, loud e e.
Proof. intros e A. split; auto. Qed.
Lemma loud_trans : forall a b c, loud a b -> loud b c -> loud a c.
Proof.
  intros a b c H1 H2 A. destruct (H1 A) as [B [E1 [L1 N1]]]. destruct (H2 B) as [C [E2 [L2 N2]]]. split; auto. split; [congruence|]. split; [lia|].
  destruct N1 as [N1|N1]; [|right; lia]. destruct N2 as [N2|N2]; [left; congruence|right; lia].
Qed.
Lemma mute_loud : forall e e', mute e e' -> loud e e'.
Proof.
  intros e e' [_ [A [_ [W N]]]] [H1 H2]. split; [split; congruence|]. unfold behaviour, told, heard. rewrite A, W. auto.
Qed.
Lemma ls_mute : forall A (c : M A), keeps mute c -> steps loud c.
Proof. intros A c K. apply steps_keeps. intros e. apply mute_loud, K. Qed.
Lemma ls_bind : forall A B (c : M A) (k : A -> M B), steps loud c -> (forall a, steps loud (k a)) -> steps loud (mbind c k).
Proof. intros. apply steps_bind; auto. exact loud_trans. Qed.
Lemma ls_ret : forall A (a : A), steps loud (ret a).
Proof. intros. apply steps_ret. exact loud_refl. Qed.
Lemma ls_block : forall A (f : model -> res (model * A)) (g : A -> bool) (k : A -> M unit) ac, (forall a, keeps mute (k a)) ->
  steps loud (mbind (on_model f) (fun a => if negb (g a) then ret false else k a ;;; autosave ac ;;; notify ;;; ret true)).
Proof.
  intros A f g k ac K e e' b E. unfold mbind at 1, on_model in E.
  destruct (f (e_model e)) as [[m a]|x|u] eqn:Q; try discriminate.
  assert (L1 : loud e (set_model m e)) by (intros H; split; auto).
  destruct (g a); cbn [negb] in E; [|inversion E; subst; exact L1].
  unfold mbind in E. pose proof (K a (set_model m e)) as KA. destruct (k a (set_model m e)) as [e1 [v|x|u]]; try discriminate. cbn [fst] in KA.
  intros H. destruct (L1 H) as [H1 [B1 [_ _]]]. destruct (mute_loud _ _ KA H1) as [H2 [B2 _]].
  assert (HH : heard e1 = heard e) by (destruct KA as [_ [_ [_ [W _]]]]; unfold heard; rewrite W; reflexivity).
  destruct (autosave_core ac e1) as [_ W]. destruct (no_word_autosave ac e1) as [W1 N1].
  assert (B3 : behaviour (fst (autosave ac e1)) = behaviour e1).
  { unfold autosave, behaviour. destruct (e_adapter e1) as [ad|] eqn:EA; [|cbn; rewrite ?EA; reflexivity].
    destruct (e_auto_save e1); [|cbn; rewrite ?EA; reflexivity].
    assert (BA : match fst (adapter_call ad ac) with AUser u => Some (ua_load u) | _ => None end = match ad with AUser u => Some (ua_load u) | _ => None end).
    { destruct ad as [? ?|?|? ?|u]; destruct ac; cbn; repeat match goal with |- context [if ?x then _ else _] => destruct x end; reflexivity. }
    destruct (adapter_call ad ac) as [a' out]. cbn [fst] in BA. rewrite <- BA. destruct out as [v'|[]|]; reflexivity. }
  destruct (autosave ac e1) as [e2 [v2|x|u]]; try discriminate. cbn [fst] in *. destruct H2 as [HW HN].
  unfold notify in E. rewrite W1, N1, HN in E. destruct (e_watcher e1) as [n|] eqn:EW; [|congruence]. inversion E; subst.
  assert (HE : heard (set_watcher (Some (S n)) e2) = S (heard e)). { rewrite <- HH. unfold heard. cbn. rewrite EW. reflexivity. }
  split; [split; [discriminate|cbn; congruence]|]. split; [change (behaviour e2 = behaviour e); congruence|]. split; [lia|right; lia].
Qed.
Lemma ls_add : forall sec pt r, steps loud (i_addPolicy sec pt r).
Proof. intros. apply (ls_block bool (fun m => AddPolicy m sec pt r) (fun b => b) (fun _ => when_g sec (e_BuildIncrementalRoleLinks policy_add pt [r]))). intros; apply tail_mute. Qed.
Lemma ls_add_many : forall sec pt rs, steps loud (i_addPolicies sec pt rs).
Proof. intros. apply (ls_block bool (fun m => AddPolicies m sec pt rs) (fun b => b) (fun _ => when_g sec (e_BuildIncrementalRoleLinks policy_add pt rs))). intros; apply tail_mute. Qed.
Lemma ls_remove : forall sec pt r, steps loud (i_removePolicy sec pt r).
Proof. intros. apply (ls_block bool (fun m => RemovePolicy m sec pt r) (fun b => b) (fun _ => when_g sec (e_BuildIncrementalRoleLinks policy_add pt [r]))). intros; apply tail_mute. Qed.
Lemma ls_remove_filtered : forall sec pt i vals, steps loud (i_removeFilteredPolicy sec pt i vals).
Proof.
  intros sec pt i vals.
  assert (B : steps loud (mbind (on_model (fun m => RemoveFilteredPolicy m sec pt i vals)) (fun a => if negb (fst a) then ret false else
    when_g sec (e_BuildIncrementalRoleLinks policy_remove pt (snd a)) ;;; autosave (CRemoveFiltered sec pt i vals) ;;; notify ;;; ret true))).
  { apply (ls_block (bool * list rule)). intros; apply tail_mute. }
  intros e e' a E. apply (B e e' a). rewrite <- E. unfold i_removeFilteredPolicy, mbind, on_model. destruct (RemoveFilteredPolicy (e_model e) sec pt i vals) as [[m [b eff]]|x|u]; reflexivity.
Qed.
Lemma ls_add_grouping : forall pt r, steps loud (AddNamedGroupingPolicy pt r).
Proof. intros. apply ls_bind. { apply ls_add; auto. } intros. apply ls_bind. { apply ls_mute, mute_links_if. } intros. apply ls_ret. Qed.
Lemma ls_remove_filtered_grouping : forall pt i vals, steps loud (RemoveFilteredNamedGroupingPolicy pt i vals).
Proof. intros. apply ls_bind. { apply ls_remove_filtered. } intros. apply ls_bind. { apply ls_mute, mute_rebuild_if. } intros. apply ls_ret. Qed.
Lemma ls_add_roles : forall user roles f, steps loud (add_roles user roles f).
Proof. induction roles as [|r rs IH]; intros f. { apply ls_ret. } cbn [add_roles]. apply ls_bind. { apply ls_add_grouping. } intros. apply IH. Qed.
Lemma ls_save : forall e e' a u, e_adapter e = Some (AUser u) -> SavePolicy e = (e', Ok a) -> loud e e'.
Proof.
  intros e e' a u U1 E A. unfold SavePolicy, IsFiltered, mbind in E. rewrite U1 in E.
  destruct (adapter_filtered (AUser u)); [discriminate|]. unfold adapter_save in E. rewrite U1 in E. destruct (ua_save u (ua_log u)); [discriminate|].
  unfold notify_always in E. destruct A as [A N]. destruct (e_watcher e) as [n|] eqn:W; inversion E; subst; [|congruence].
  split; [split; [discriminate|exact N]|]. split; [reflexivity|]. unfold heard. rewrite W. cbn. split; [lia|left; reflexivity].
Qed.
Lemma run_loud : forall o rules c e e' u, cluster_call rules c -> e_adapter e = Some (AUser u) -> run o c e = (e', Ok tt) -> loud e e'.
Proof.
  intros o rules c e e' u [F G] U E.
  assert (S : c <> KSavePolicy -> steps loud (run o c)).
  { intros NS. destruct c; cbn [forwarded] in F; try (destruct F; fail); try (destruct G; fail); cbn [run]; try (apply ls_bind; [|intros; apply ls_ret]).
    all: try (intros e0 e1 a0 E0; inversion E0; subst; intros [H1 H2]; split; [split; auto|auto]; fail).
    - apply ls_add; auto.
    - apply ls_add_many.
    - apply ls_remove.
    - apply ls_remove_filtered.
    - apply ls_add_grouping; auto.
    - apply ls_add_many.
    - apply ls_bind. { apply ls_remove; auto. } intros. apply ls_bind. { apply ls_mute, mute_rebuild_if. } intros. apply ls_ret.
    - apply ls_remove_filtered_grouping.
    - apply ls_add_roles.
    - apply ls_bind. { apply ls_remove_filtered_grouping. } intros. apply ls_bind. { apply ls_remove_filtered. } intros. apply ls_ret.
    - apply ls_bind. { apply ls_remove_filtered_grouping. } intros. apply ls_bind. { apply ls_remove_filtered. } intros. apply ls_ret.
    - apply ls_mute, mute_all_types.
    - apply ls_mute, mute_GetRolesForUser.
    - apply ls_mute, mute_implicit_roles.
    - apply ls_mute, mute_implicit_perms.
    - apply ls_mute, mute_implicit_users.
    - apply ls_mute, mute_enforce.
    - apply ls_mute, mute_enforceMap.
    - apply ls_mute, mute_batch.
    - congruence.
    - apply ls_mute, mute_rebuild.
    - apply ls_mute, mute_matching. }
  assert (D : c = KSavePolicy \/ c <> KSavePolicy) by (destruct c; (left; reflexivity) || (right; discriminate)).
  destruct D as [->|D]; [|eapply S; eauto].
  cbn [run] in E. eapply ls_save; eauto.
Qed.

(** ** The types stay *)
Lemma forwarded_types : forall o rules c e sec pt, forwarded rules c -> (declared (fst (run o c e)) sec pt <-> declared e sec pt).
Proof.
  intros o rules c e sec pt F.
  assert (G : keeps same_shape (run o c)).
  { destruct c; cbn [forwarded] in F; try (destruct F; fail);
      try (eapply (shape_run o _ rules); simpl; intuition; fail); try (intros e0 s q; reflexivity).
    intros e0. cbn [run]. unfold drop_value, mbind, AddNamedMatchingFunc. destruct (hget (e_heap e0) (e_rm e0)); intros s q; reflexivity. }
  specialize (G e sec pt). unfold declared, outline in *. destruct (get_ast (e_model (fst (run o c e))) sec pt), (get_ast (e_model e) sec pt); cbn in G; try discriminate; split; intros [x H]; eauto; discriminate.
Qed.

(** ** What the storage has *)
Lemma same_table_trans : forall T U V, same_table T U -> same_table U V -> same_table T V.
Proof. intros T U V A B s q x S. rewrite (A s q x S). apply B, S. Qed.
Lemma does_obeyed : forall c T T' U, does c T T' -> same_table T U -> same_table T' (obeyed U c).
Proof.
  intros c T T' U D S s q x P. specialize (S s q x P). destruct c; cbn [does obeyed] in *; rewrite D, S; tauto.
Qed.
Lemma replay_has : forall log T T' U, replay log T T' -> same_table T U -> same_table T' (has_after U log).
Proof.
  intros log T T' U R. revert U. induction R as [T T' E|c log T T1 T' D _ _ IH]; intros U S.
  - intros s q x P. rewrite E. apply S, P.
  - cbn. apply IH. eapply does_obeyed; eauto.
Qed.
Lemma has_app : forall T l1 l2, has_after T (l1 ++ l2) = has_after (has_after T l1) l2.
Proof. intros. unfold has_after. apply fold_left_app. Qed.

(** ** Loading *)
Lemma load_others : forall e rs, offers e rs -> Forall (known e) rs -> (forall kr, In kr rs -> section_of (fst kr) = "p" \/ section_of (fst kr) = "g") ->
  forall sec pt, sec <> "p" -> sec <> "g" -> stored (fst (LoadPolicy e)) sec pt = stored e sec pt.
Proof.
  intros e rs O K PG sec pt N1 N2. set (e1 := set_model (ClearPolicy (e_model e)) e).
  assert (K1 : Forall (m_known (e_model e1)) rs).
  { eapply Forall_impl; [|exact K]. intros kr [a A]. unfold m_known, e1. cbn [set_model e_model]. rewrite clear_get, A. cbn [bind]. eauto. }
  destruct (load_rules_known rs (e_model e1) K1) as [m2 [E2 G2]].
  assert (O1 : offers e1 rs) by exact O. pose proof (adapter_load_offers e1 rs O1) as L. rewrite E2 in L.
  assert (LP : LoadPolicy e = (adapter_load ;;; rebuild_if_auto) e1) by reflexivity.
  unfold mbind in LP. destruct (adapter_load e1) as [e2 out]. destruct L as [M2 [-> OM]]. rewrite LP. clear LP.
  pose proof (quiet_rebuild_if e2) as Q. rewrite (same_asts_stored _ _ _ _ Q). unfold stored, rules_in. rewrite M2, G2. unfold e1. cbn [set_model e_model].
  rewrite clear_get. destruct (get_ast (e_model e) sec pt) as [a|t|u]; auto. cbn [bind].
  destruct (String.eqb_spec sec "p"); [congruence|]. destruct (String.eqb_spec sec "g"); [congruence|]. cbn [orb]. unfold filled. cbn [bind].
  destruct (String.eqb_spec (section_of pt) sec) as [SC|]; auto. cbn [with_policy a_policy].
  assert (NR : rules_for pt rs = []); [|rewrite NR; reflexivity].
  unfold rules_for. assert (FN : List.filter (fun kr => String.eqb (fst kr) pt) rs = []); [|rewrite FN; reflexivity].
  clear - PG SC N1 N2. induction rs as [|kr rs IH]; auto. cbn [List.filter]. destruct (String.eqb_spec (fst kr) pt) as [E|]; [|apply IH; intros; apply PG; right; auto].
  destruct (PG kr (or_introl eq_refl)); congruence.
Qed.
Lemma load_keeps : forall e rs, offers e rs -> e_auto_save (fst (LoadPolicy e)) = e_auto_save e /\ e_notify (fst (LoadPolicy e)) = e_notify e /\ e_watcher (fst (LoadPolicy e)) = e_watcher e.
Proof.
  intros e rs O. set (e1 := set_model (ClearPolicy (e_model e)) e). assert (O1 : offers e1 rs) by exact O. pose proof (adapter_load_offers e1 rs O1) as L.
  assert (LP : LoadPolicy e = (adapter_load ;;; rebuild_if_auto) e1) by reflexivity. unfold mbind in LP. rewrite LP. clear LP.
  destruct (adapter_load e1) as [e2 out]. destruct (load_rules rs (e_model e1)) as [m' out']. destruct L as [_ [_ OM]].
  destruct OM as [_ [_ [W [_ [_ [_ [S [_ N]]]]]]]]. destruct (mute_rebuild_if e2) as [_ [_ [MS [MW MN]]]].
  destruct out as [x|t|u]; cbn [fst]; rewrite ?MS, ?MW, ?MN, S, W, N; auto.
Qed.

(** ** All nodes have what the storage has *)
Section Nodes.
  Variables (rules : rule -> Prop) (T0 : table) (load : list acall -> list string * option exn) (o : oracle).
  Hypothesis apart : forall r r', rules r -> rules r' -> Permutation r r' -> r = r'.
  Hypothesis plain : forall r, rules r -> plain_rule r.
  Hypothesis rel : reliable T0 load.

  Notation up_to_date := (up_to_date rules T0 load).
  Notation in_step := (in_step rules T0 load).
  Lemma with_log_told : forall log e, takes_part rules load e -> told (with_log log e) = log.
  Proof. intros log e P. destruct (tp_adapter _ _ _ P) as [u [A _]]. unfold with_log, told. rewrite A. reflexivity. Qed.
  Lemma with_log_idem : forall e, with_log (told e) e = e.
  Proof. intros e. unfold with_log, told. destruct e as [m h rm ad w f ev a b c d]. cbn. destruct ad as [[? ?|?|? ?|u]|]; auto. destruct u. reflexivity. Qed.
  Lemma with_log_part : forall log e, takes_part rules load e -> takes_part rules load (with_log log e).
  Proof.
    intros log e [[u [A [B L]]] S N W T R]. unfold with_log. rewrite A. constructor; auto. eexists. split; [reflexivity|]. cbn. auto.
  Qed.
  Lemma with_log_stored : forall log e sec pt, stored (with_log log e) sec pt = stored e sec pt.
  Proof. intros. unfold with_log. destruct (e_adapter e) as [[? ?|?|? ?|u]|]; auto. Qed.
  Lemma with_log_declared : forall log e sec pt, declared (with_log log e) sec pt <-> declared e sec pt.
  Proof. intros. unfold with_log. destruct (e_adapter e) as [[? ?|?|? ?|u]|]; reflexivity. Qed.
  Lemma with_log_twice : forall l l' e, with_log l (with_log l' e) = with_log l e.
  Proof. intros. unfold with_log. destruct (e_adapter e) as [[? ?|?|? ?|u]|] eqn:A; rewrite ?A; reflexivity. Qed.
  Lemma stored_declared : forall e sec pt r, In r (stored e sec pt) -> declared e sec pt.
  Proof. intros e sec pt r. unfold stored, rules_in, declared. destruct (get_ast (e_model e) sec pt); [eauto|intros []..]. Qed.

  (** The log says nothing that cannot be written. *)
  Lemma writable_log : forall log e, up_to_date log e ->
    forall s q x, s = "p" \/ s = "g" -> has_after T0 log s q x -> plain_type s q /\ plain_rule x.
  Proof.
    intros log e [P S] s q x PG H. apply (S s q x PG) in H. split; [|apply plain; eapply (proj2 (tp_rules _ _ _ P s q)); eauto].
    apply (tp_types _ _ _ P); auto. eapply stored_declared, H.
  Qed.
  (** Loading brings an enforcer up to date. *)
  Lemma loads : forall log e x, up_to_date log e -> takes_part rules load x -> told x = log -> same_types e x ->
    up_to_date log (fst (LoadPolicy x)) /\ told (fst (LoadPolicy x)) = log /\ same_types e (fst (LoadPolicy x)).
  Proof.
    intros log e x U P TL ST. destruct (rel log (writable_log log e U)) as [lines [rs [LD [LM [ND [PG IN]]]]]].
    destruct (tp_adapter _ _ _ P) as [u [A [B L]]].
    assert (O : offers x rs). { unfold offers. rewrite A. exists lines. split; auto. rewrite L. unfold told in TL. rewrite A in TL. rewrite TL. exact LD. }
    assert (K : Forall (known x) rs).
    { apply Forall_forall. intros [q r] I. pose proof (PG _ I) as G. cbn [fst] in G. unfold known. cbn [fst]. apply (ST _ _ G).
      apply (IN _ q r G eq_refl) in I. destruct U as [_ S]. apply (S _ _ _ G) in I. eapply stored_declared, I. }
    destruct (load_policy_spec x rs O K) as [SP [SG [D _]]]. destruct (load_adapter x) as [_ LA]. rewrite A in LA. destruct (load_keeps x rs O) as [K1 [K2 K3]].
    assert (KEPT : forall sec pt, sec = "p" \/ sec = "g" -> section_of pt = sec -> declared x sec pt ->
      kept_as (kind_of x sec pt) (rules_for pt rs) (stored (fst (LoadPolicy x)) sec pt)).
    { intros sec pt G SC DC. apply (proj1 (C38_load_replaces x rs O K)); auto. }
    assert (RF : forall pt r, In r (rules_for pt rs) <-> In (pt, r) rs).
    { intros pt r. unfold rules_for. rewrite in_map_iff. split.
      - intros [[q y] [E I]]. apply filter_In in I. cbn in *. destruct I as [I Q]. apply String.eqb_eq in Q. subst. exact I.
      - intros I. exists (pt, r). split; auto. apply filter_In. split; auto. cbn. apply eqb_refl_s. }
    assert (NR : forall pt, NoDup (rules_for pt rs)).
    { intros pt. unfold rules_for. clear - ND. induction rs as [|[q y] rs IH]; [constructor|]. inversion ND; subst. cbn [List.filter]. destruct (String.eqb_spec (fst (q, y)) pt) as [E|]; auto.
      cbn [map snd]. constructor; auto. intros I. apply in_map_iff in I. destruct I as [[q' y'] [E' I]]. apply filter_In in I. cbn in *. destruct I as [I Q].
      apply String.eqb_eq in Q. subst. contradiction. }
    assert (POL : forall sec pt, sec = "p" \/ sec = "g" -> NoDup (stored (fst (LoadPolicy x)) sec pt) /\
      forall r, In r (stored (fst (LoadPolicy x)) sec pt) <-> has_after T0 log sec pt r).
    { intros sec pt G. destruct (get_ast (e_model x) sec pt) as [a|t|v] eqn:GA.
      - assert (DC : declared x sec pt) by (eexists; exact GA). destruct (tp_types _ _ _ P sec pt G DC) as [_ SC]. specialize (KEPT sec pt G SC DC).
        assert (X : NoDup (stored (fst (LoadPolicy x)) sec pt) /\ forall r, In r (stored (fst (LoadPolicy x)) sec pt) <-> In r (rules_for pt rs)).
        { destruct (kind_of x sec pt); cbn [kept_as] in KEPT; [rewrite KEPT; split; [apply NR|tauto]|exact KEPT]. }
        destruct X as [X1 X2]. split; auto. intros r. rewrite X2, RF. apply IN; auto.
      - assert (Z : stored (fst (LoadPolicy x)) sec pt = []). { destruct G as [-> | ->]; [rewrite SP|rewrite SG]; rewrite GA; reflexivity. }
        rewrite Z. split; [constructor|]. intros r. split; [intros []|]. intros H. exfalso. destruct U as [_ S]. apply (S _ _ _ G) in H. apply stored_declared in H. apply (ST _ _ G) in H. destruct H; congruence.
      - assert (Z : stored (fst (LoadPolicy x)) sec pt = []). { destruct G as [-> | ->]; [rewrite SP|rewrite SG]; rewrite GA; reflexivity. }
        rewrite Z. split; [constructor|]. intros r. split; [intros []|]. intros H. exfalso. destruct U as [_ S]. apply (S _ _ _ G) in H. apply stored_declared in H. apply (ST _ _ G) in H. destruct H; congruence. }
    split; [split|split].
    - constructor.
      + exists u. rewrite LA. auto.
      + rewrite K1. apply P.
      + rewrite K2. apply P.
      + rewrite K3. apply P.
      + intros sec pt G DC. apply (tp_types _ _ _ P); auto. apply D, DC.
      + intros sec pt. destruct (string_dec sec "p") as [->|N1]; [|destruct (string_dec sec "g") as [->|N2]].
        * destruct (POL "p" pt (or_introl eq_refl)) as [N I]. split; auto. intros r H. apply I in H. destruct U as [UP US]. apply (US "p" pt r (or_introl eq_refl)) in H. eapply (proj2 (tp_rules _ _ _ UP "p" pt)); eauto.
        * destruct (POL "g" pt (or_intror eq_refl)) as [N I]. split; auto. intros r H. apply I in H. destruct U as [UP US]. apply (US "g" pt r (or_intror eq_refl)) in H. eapply (proj2 (tp_rules _ _ _ UP "g" pt)); eauto.
        * rewrite (load_others x rs O K PG sec pt N1 N2). apply P.
    - intros s q r G. apply (POL s q G).
    - unfold told. rewrite LA. unfold told in TL. rewrite A in TL. exact TL.
    - intros sec pt G. rewrite D. apply ST, G.
  Qed.
  (** A call through an enforcer that is up to date. *)
  Lemma calls : forall c e e', cluster_call rules c -> up_to_date (told e) e -> run o c e = (e', Ok tt) ->
    up_to_date (told e') e' /\ (heard e < heard e' \/ told e' = told e) /\ forall sec pt, declared e' sec pt <-> declared e sec pt.
  Proof.
    intros c e e' CC [P S] E. destruct (tp_adapter _ _ _ P) as [u [A [B L]]].
    assert (DD : forall sec pt, declared e' sec pt <-> declared e sec pt).
    { intros sec pt. pose proof (forwarded_types o rules c e sec pt (proj1 CC)) as Q. rewrite E in Q. exact Q. }
    assert (G : guard rules e). { split; [eauto|]. split; [apply P|]. split; intros sec pt; apply (tp_rules _ _ _ P sec pt). }
    destruct (run_mirrors rules apart o c (proj1 CC) e e' tt E G) as [[[u' [A' B']] [S' [D' R']]] [log [TL RP]]].
    destruct (run_loud o rules c e e' u CC A E) as [[W' N'] [BH [_ HT]]]; [split; apply P|].
    split; [|split; auto; tauto]. split.
    - constructor; auto.
      + exists u'. split; auto. split; auto. unfold behaviour in BH. rewrite A, A' in BH. congruence.
      + intros sec pt PG DC. apply (tp_types _ _ _ P); auto. apply DD, DC.
      + intros sec pt. split; [apply D'|apply R'].
    - rewrite TL, has_app. eapply replay_has; eauto.
  Qed.

  Lemma nth_others : forall f i e l j, nth_error (others_do f i e l) j =
    match nth_error l j with None => None | Some x => if Nat.eqb j i then Some e else Some (f x) end.
  Proof.
    intros f i e l. revert i. induction l as [|x l IH]; intros [|i] [|j]; cbn; auto.
    rewrite nth_error_map. destruct (nth_error l j); reflexivity.
  Qed.
  Lemma steps_in_step : forall w i c e, in_step w -> node w i = Some e -> snd (run o c e) = Ok tt -> cluster_call rules c -> in_step (cluster_step o w (i, c)).
  Proof.
    intros w i c e [UP ST] N OK CC. unfold cluster_step. cbn [fst snd]. rewrite N. destruct (run o c e) as [e' out] eqn:E. cbn [fst snd] in *. subst out.
    assert (TE : told e = heard_by_storage w). { unfold node in N. destruct (nth_error (nodes w) i) as [x|] eqn:X; [|discriminate]. injection N as <-.
      destruct (UP i (with_log (heard_by_storage w) x)) as [[[u [A _]]] _]; [unfold node; rewrite X; reflexivity|]. unfold told. rewrite A. unfold with_log in A. destruct (e_adapter x) as [[? ?|?|? ?|v]|] eqn:EX; try congruence.
      cbn in A. injection A as <-. reflexivity. }
    pose proof (UP i e N) as UE. rewrite <- TE in UE. destruct (calls c e e' CC UE E) as [U' [HT DD]].
    set (f := fun x => if Nat.ltb (heard e) (heard e') then fst (LoadPolicy (with_log (told e') x)) else x).
    assert (ND : forall j y, node (mkCluster (told e') (others_do f i e' (nodes w))) j = Some y ->
      up_to_date (told e') y /\ same_types e y).
    { intros j y. unfold node. cbn [heard_by_storage nodes]. rewrite nth_others. destruct (nth_error (nodes w) j) as [x|] eqn:X; [|discriminate]. destruct (Nat.eqb_spec j i) as [->|NE]; intros Q; cbn in Q; injection Q as <-.
      - rewrite with_log_idem. split; auto. intros sec pt G. symmetry. apply DD.
      - assert (NX : node w j = Some (with_log (heard_by_storage w) x)) by (unfold node; rewrite X; reflexivity).
        pose proof (UP j _ NX) as UX. pose proof (ST i j _ _ N NX) as SX.
        assert (PX : takes_part rules load (with_log (told e') x)). { rewrite <- (with_log_twice (told e') (heard_by_storage w) x). apply with_log_part, UX. }
        assert (SX' : same_types e (with_log (told e') x)). { intros sec pt G. rewrite (SX sec pt G), !with_log_declared. tauto. }
        assert (SE' : same_types e' (with_log (told e') x)). { intros sec pt G. rewrite DD. apply SX', G. }
        unfold f. destruct (Nat.ltb_spec (heard e) (heard e')) as [H|H].
        + destruct (loads (told e') e' (with_log (told e') x) U' PX) as [UL [TL SL]]; auto.
          { rewrite <- (with_log_twice (told e') (heard_by_storage w) x). apply with_log_told, UX. }
          assert (W1 : with_log (told e') (fst (LoadPolicy (with_log (told e') x))) = fst (LoadPolicy (with_log (told e') x))).
          { rewrite <- TL at 1. apply with_log_idem. }
          rewrite W1. split; auto. intros sec pt G. rewrite <- DD. apply SL, G.
        + destruct HT as [HT|HT]; [lia|]. split; auto. rewrite HT in PX. split; [rewrite HT; auto|]. rewrite HT, TE. destruct UX as [_ UX]. intros s q r G. rewrite <- (UX s q r G). unfold policy. rewrite !with_log_stored. tauto. }
    split.
    - intros j y Q. apply (ND j y Q).
    - intros j k y z Y Z sec pt G. destruct (ND j y Y) as [_ A]. destruct (ND k z Z) as [_ B]. rewrite <- (A sec pt G). apply B, G.
  Qed.
  Lemma works_in_step : forall w h w', works o w h w' -> Forall (fun a => cluster_call rules (snd a)) h -> in_step w -> in_step w'.
  Proof.
    intros w h w' W. induction W as [|w i c h w' e N OK W IH]; intros F I; auto. inversion F; subst. apply IH; auto. eapply steps_in_step; eauto.
  Qed.
End Nodes.
