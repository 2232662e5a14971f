(** Enforcers that share a storage answer alike: proofs. *)
From Coq Require Import Permutation.
From Verif Require Import Base P_Base M_Util M_RoleManager M_Effector M_Model M_Persist M_Eval M_Evaluator M_Enforcer
  S_Text S_Effect S_Enforce S_Policy S_Persist S_History S_Roles S_Sync S_Rbac S_Standard S_Files S_Notify S_Cluster S_Agree
  P_Decide P_Store P_Api P_History P_Nodup P_Notify P_Persist P_Roles P_Sync P_Ready P_Standard P_Files P_Cluster T_Persist.

Section Agree.
  Variables (rules : rule -> Prop) (T0 : table) (load : list acall -> list string * option exn).
  Hypothesis apart : forall r r', rules r -> rules r' -> Permutation r r' -> r = r'.
  Hypothesis plain : forall r, rules r -> plain_rule r.
  Hypothesis rel : reliable T0 load.
  Variables (o : oracle) (names : S_Roles.node -> Prop) (n : nat) (grules : rule -> Prop) (rf pf : list string) (pe : policy_effect)
    (mat : string) (d : reading) (lvl : nat).
  Hypothesis X : oracle_ext o.
  Hypothesis RD : reads o n mat d.
  Hypothesis MAT : mat <> "".
  Hypothesis NOEVAL : HasEval mat = false.
  Hypothesis VARS : forall x, In x (rd_vars d) -> In x (r_names rf ++ p_names pf).
  Hypothesis T : tidy names n grules.
  Notation prep := (prepared o names n grules rf pf pe mat d lvl).

  Lemma prep_call : forall c e e', safe_call grules c -> shaped_call (List.length pf) c -> run o c e = (e', Ok tt) -> prep e -> prep e'.
  Proof.
    intros c e e' S C E [M ST D L]. constructor.
    - eapply managed_call; eauto; discriminate.
    - eapply standard_run; eauto; discriminate.
    - intros f I. replace e' with (fst (run o c e)) by (rewrite E; reflexivity). eapply declared_run; eauto.
    - pose proof (managed_mirror names n grules T o e M) as MI. pose proof (run_mirror names n grules T (level_of e) o c S e MI) as K. rewrite E in K.
      rewrite <- L. apply (mirror_level _ _ _ _ _ K).
  Qed.
  Lemma prep_log : forall log e, prep e -> prep (with_log log e).
  Proof.
    intros log e P. unfold with_log. destruct (e_adapter e) as [[? ?|?|? ?|u]|] eqn:A; auto.
    eapply (prep_call (KSetAdapter _)); [| |reflexivity|exact P]; [|exact Logic.I].
    cbn [safe_call calm_adapter ua_resp]. pose proof (managed_mirror names n grules T o e (pr_managed _ _ _ _ _ _ _ _ _ _ _ P)) as [_ _ _ _ C].
    rewrite A in C. exact C.
  Qed.
  Lemma prep_load : forall log e x, up_to_date rules T0 load log e -> takes_part rules load x -> told x = log -> same_types e x ->
    prep e -> prep x -> prep (fst (LoadPolicy x)).
  Proof.
    intros log e x U P TL ST PE PX. destruct (rel log (writable_log rules T0 load plain log e U)) as [lines [rs [LD [LM [ND [PG IN]]]]]].
    destruct (tp_adapter _ _ _ P) as [u [A [B L]]].
    assert (O : offers x rs). { unfold offers. rewrite A. exists lines. split; auto. rewrite L. unfold told in TL. rewrite A in TL. rewrite TL. exact LD. }
    assert (HAS : forall q r, In (q, r) rs -> In r (stored e (section_of q) q)).
    { intros q r I. pose proof (PG _ I) as G. cbn [fst] in G. apply (IN _ q r G eq_refl) in I. destruct U as [_ S]. apply (S _ _ _ G) in I. exact I. }
    pose proof (managed_mirror names n grules T o x (pr_managed _ _ _ _ _ _ _ _ _ _ _ PX)) as [[r [H [R LV]]] GO W AB C].
    pose proof (managed_mirror names n grules T o e (pr_managed _ _ _ _ _ _ _ _ _ _ _ PE)) as [_ GE _ _ _].
    destruct (pr_standard _ _ _ _ _ _ _ _ _ _ _ PX) as [[SD SE] SS SF SO].
    destruct (load_step o names n grules false rf pf (effect_text pe) mat x rs) as [x' [E [M [S' [SH [_ [_ [_ [_ LL]]]]]]]]]; auto.
    - exists r. split; auto. apply R.
    - constructor; auto; apply GO.
    - destruct (e_ev x); auto.
    - intros q y I. pose proof (HAS q y I) as J. split; [|split].
      + pose proof (PG _ I) as G. apply (ST _ _ G). eapply stored_declared, J.
      + intros ->. apply (st_fields _ _ _ _ _ _ _ (pr_standard _ _ _ _ _ _ _ _ _ _ _ PE)). exact J.
      + intros Q. rewrite Q in J. unfold stored, rules_in in J. destruct (get_ast (e_model e) "g" q) as [a| |] eqn:GA; [|destruct J..].
        destruct GE as [_ GE]. assert (AG : aget q (sec_of (e_model e) "g") = Some a) by (unfold get_ast in GA; destruct (aget q (sec_of (e_model e) "g")); inversion GA; auto).
        apply GE in AG. destruct AG as [_ AG]. rewrite Forall_forall in AG. auto.
    - rewrite E. cbn [fst]. constructor; auto.
      + intros f I. destruct (pr_defines _ _ _ _ _ _ _ _ _ _ _ PX f I) as [a Q]. specialize (SH "g" f). rewrite Q in SH. unfold declared. destruct (get_ast (e_model x') "g" f); try discriminate. eauto.
      + rewrite LL. apply (pr_level _ _ _ _ _ _ _ _ _ _ _ PX).
  Qed.

  Definition all_prep (w : cluster) : Prop := forall i e, S_Cluster.node w i = Some e -> prep e.
  Lemma steps_prep : forall w i c e, in_step rules T0 load w -> all_prep w -> S_Cluster.node w i = Some e -> snd (run o c e) = Ok tt ->
    orderly rules grules (List.length pf) c -> all_prep (cluster_step o w (i, c)).
  Proof.
    intros w i c e IS AP N OK [CC [SC HC]]. pose proof IS as [UP ST].
    pose proof (steps_in_step rules T0 load o apart plain rel w i c e IS N OK CC) as IS'.
    unfold cluster_step. cbn [fst snd]. rewrite N. destruct (run o c e) as [e' out] eqn:E. cbn [fst snd] in *. subst out.
    assert (PE : prep e') by (eapply prep_call; eauto).
    assert (UE : up_to_date rules T0 load (told e') e' /\ forall sec pt, declared e' sec pt <-> declared e sec pt).
    { assert (TE : told e = heard_by_storage w). { unfold S_Cluster.node in N. destruct (nth_error (nodes w) i) as [x|] eqn:Q; [|discriminate]. injection N as <-.
        rewrite <- (with_log_twice (heard_by_storage w) (heard_by_storage w) x) at 1. apply (with_log_told rules load). eapply UP. unfold S_Cluster.node. rewrite Q. reflexivity. }
      pose proof (UP i e N) as U. rewrite <- TE in U. destruct (calls rules T0 load o apart c e e' CC U E) as [U' [_ D']]. auto. }
    destruct UE as [U' DD].
    set (f := fun x => if Nat.ltb (heard e) (heard e') then fst (LoadPolicy (with_log (told e') x)) else x).
    intros j y. unfold S_Cluster.node. cbn [heard_by_storage nodes]. rewrite nth_others. destruct (nth_error (nodes w) j) as [x|] eqn:Q; [|discriminate].
    destruct (Nat.eqb_spec j i) as [->|NE]; intros Z; cbn in Z; injection Z as <-; [apply prep_log, PE|].
    assert (NX : S_Cluster.node w j = Some (with_log (heard_by_storage w) x)) by (unfold S_Cluster.node; rewrite Q; reflexivity).
    pose proof (UP j _ NX) as UX. pose proof (ST i j _ _ N NX) as SX. pose proof (AP j _ NX) as PX.
    assert (PX' : prep (with_log (told e') x)). { rewrite <- (with_log_twice (told e') (heard_by_storage w) x). apply prep_log, PX. }
    unfold f. destruct (Nat.ltb (heard e) (heard e')); [|exact PX']. apply prep_log. eapply (prep_load (told e') e'); auto.
    - rewrite <- (with_log_twice (told e') (heard_by_storage w) x). apply with_log_part, UX.
    - rewrite <- (with_log_twice (told e') (heard_by_storage w) x). apply (with_log_told rules load), UX.
    - intros sec pt G. rewrite DD, (SX sec pt G), !with_log_declared. tauto.
  Qed.
  Lemma works_prep : forall w h w', works o w h w' -> Forall (fun a => orderly rules grules (List.length pf) (snd a)) h ->
    in_step rules T0 load w -> all_prep w -> in_step rules T0 load w' /\ all_prep w'.
  Proof.
    intros w h w' W. induction W as [|w i c h w' e N OK W IH]; intros F I P; auto. inversion F as [|? ? O F']; subst. apply IH; auto.
    - eapply steps_in_step; eauto. apply O.
    - eapply steps_prep; eauto.
  Qed.

  (** What each of them answers. *)
  Lemma prep_answers : forall log e req, up_to_date rules T0 load log e -> prep e -> pe <> Priority -> List.length req = List.length rf ->
    (forall r, has_after T0 log "p" "p" r -> calls_ok names d (value_of rf req pf r)) ->
    ((exists r, has_after T0 log "p" "p" r) \/
     calls_ok names d (value_of rf req pf (blank pf)) /\ ~ rd_sem d (value_of rf req pf (blank pf)) (table_linked (has_after T0 log) lvl)) ->
    exists b, snd (Enforce o (map DStr req) e) = Ok b /\
      (b = true <-> decided pe (fun r => rd_sem d (value_of rf req pf r) (table_linked (has_after T0 log) lvl)) (effect_of pf) (has_after T0 log "p" "p")).
  Proof.
    intros log e req [_ S] [M ST D L] NP LQ CO NE.
    assert (HP : forall r, In r (stored e "p" "p") <-> has_after T0 log "p" "p" r) by (intros; apply (S "p" "p"); auto).
    assert (AS : forall l, assigned e l <-> table_links (has_after T0 log) l).
    { intros l. split; intros [pt [r [I Q]]]; exists pt, r; (split; [|exact Q]); apply (S "g" pt); auto. }
    assert (LK : forall f args, linked e f args <-> table_linked (has_after T0 log) lvl f args).
    { intros f args. unfold linked, table_linked. rewrite L. destruct args as [|a [|b [|c [|]]]]; try tauto; apply within_ext; intros; apply AS. }
    assert (SM : forall val, rd_sem d val (linked e) <-> rd_sem d val (table_linked (has_after T0 log) lvl)).
    { intros val. split; apply (rs_local _ _ _ _ RD); intros; rewrite (LK f args); tauto. }
    pose proof (std_candidates o rf pf pe mat e req ST) as CA.
    destruct (std_decision o names n grules false rf pf pe mat d X RD MAT NOEVAL VARS T e req) as [b [E B]]; auto.
    - intros f _. exact M.
    - intros r I. apply CO, HP. rewrite <- CA. exact I.
    - destruct NE as [[r H]|[C N]]; [left; rewrite CA; intros Q; apply HP in H; rewrite Q in H; exact H|right; split; auto; rewrite SM; exact N].
    - exists b. split; auto. rewrite B, CA. clear B.
      assert (Q : forall x, (exists r, In r (stored e "p" "p") /\ rd_sem d (value_of rf req pf r) (linked e) /\ effect_of pf r = x) <->
        (exists r, has_after T0 log "p" "p" r /\ rd_sem d (value_of rf req pf r) (table_linked (has_after T0 log) lvl) /\ effect_of pf r = x)).
      { intros x. split; intros [r [I [J K]]]; exists r; (split; [apply HP; auto|split; [apply SM; auto|auto]]). }
      destruct pe; unfold granted, decided; try rewrite !Q; tauto.
  Qed.
End Agree.
