(** Direct calls on the model and the role manager. *)
From Coq Require Import Permutation.
From Verif Require Import Base P_Base M_Util M_RoleManager M_Effector M_Model M_Persist M_Eval M_Evaluator M_Enforcer
  S_Effect S_Enforce S_Policy S_History S_Roles S_Sync S_Rbac P_Decide P_Store P_Api P_History P_Nodup P_Group P_Roles P_Sync P_Ready P_SyncedState M_Direct S_Direct.
Local Arguments spell : simpl never.

(** ** What a direct call does to the model *)
Definition of_direct (d : direct) (sec pt : string) (x : rule) : Prop := In x (brings d sec pt).
(** One assertion's rules are rewritten, each new one being an old one or brought. *)
Definition rewrites (m m' : model) (sec pt : string) (new : rule -> Prop) : Prop :=
  m' = m \/ exists a p, get_ast m sec pt = Ok a /\ m' = put_policy m sec pt a p /\
    (is_hash p = true -> is_hash (a_policy a) = true) /\
    forall x, In x (rules_of p) -> In x (rules_of (a_policy a)) \/ new x.
Lemma rewrites_writes : forall m m' sec pt new, rewrites m m' sec pt new -> writes m m' sec pt.
Proof. intros m m' sec pt new [->|[a [p [A [E _]]]]]; [left; auto|right; eauto]. Qed.

Lemma in_emplace : forall p r x, In x (rules_of (emplace p r)) -> In x (rules_of p) \/ x = r.
Proof. intros [l|l] r x; simpl; [|destruct (existsb (rule_eqb r) l); simpl; auto]; rewrite in_app_iff; simpl; intuition. Qed.
Lemma hash_emplace : forall p r, is_hash (emplace p r) = is_hash p.
Proof. intros [l|l] r; simpl; auto. destruct (existsb (rule_eqb r) l); auto. Qed.
Lemma in_emplace_many : forall rs p x, In x (rules_of (fold_left emplace rs p)) -> In x (rules_of p) \/ In x rs.
Proof.
  induction rs as [|r rs IH]; simpl; intros p x H; auto. apply IH in H. destruct H as [H|H]; auto. apply in_emplace in H. intuition.
Qed.
Lemma hash_emplace_many : forall rs p, is_hash (fold_left emplace rs p) = is_hash p.
Proof. induction rs; simpl; intros; auto. rewrite IHrs. apply hash_emplace. Qed.
Lemma hash_with : forall p l, is_hash (with_rules p l) = is_hash p.
Proof. intros [x|x] l; auto. Qed.

Lemma rw_add : forall m sec pt r m' b, AddPolicy m sec pt r = Ok (m', b) -> rewrites m m' sec pt (fun x => x = r).
Proof.
  intros m sec pt r m' b. unfold AddPolicy. destruct (get_ast m sec pt) as [a| |] eqn:G; try discriminate. cbn [bind].
  destruct (has_rule (rules_of (a_policy a)) r); intros H; inversion H; subst; [left; auto|right]. exists a. eexists. split; [exact G|]. split; [reflexivity|].
  split; [rewrite hash_emplace; auto|]. intros x. apply in_emplace.
Qed.
Lemma rw_add_many : forall m sec pt rs m' b, AddPolicies m sec pt rs = Ok (m', b) -> rewrites m m' sec pt (fun x => In x rs).
Proof.
  intros m sec pt rs m' b. unfold AddPolicies. destruct rs as [|r rs]. { intros H; inversion H; subst; left; auto. }
  destruct (get_ast m sec pt) as [a| |] eqn:G; try discriminate. cbn [bind].
  destruct (existsb (has_rule (rules_of (a_policy a))) (r :: rs)); intros H; inversion H; subst; [left; auto|right]. exists a. eexists. split; [exact G|]. split; [reflexivity|].
  change (fold_left emplace rs (emplace (a_policy a) r)) with (fold_left emplace (r :: rs) (a_policy a)).
  split; [rewrite hash_emplace_many; auto|]. apply in_emplace_many.
Qed.
Lemma rw_remove : forall m sec pt r m' b, RemovePolicy m sec pt r = Ok (m', b) -> rewrites m m' sec pt (fun _ => False).
Proof.
  intros m sec pt r m' b. unfold RemovePolicy. destruct (get_ast m sec pt) as [a| |] eqn:G; try discriminate. cbn [bind].
  destruct (erase_first r (rules_of (a_policy a))) eqn:E; intros H; inversion H; subst; [right|left; auto]. exists a. eexists. split; [exact G|]. split; [reflexivity|].
  split; [rewrite hash_with; auto|]. rewrite rules_with. intros x I. left. eapply (erase_first_in (fun _ => True)); eauto.
Qed.
Lemma rw_remove_many : forall m sec pt rs m' b, RemovePolicies m sec pt rs = Ok (m', b) -> rewrites m m' sec pt (fun _ => False).
Proof.
  intros m sec pt rs m' b. unfold RemovePolicies. destruct (get_ast m sec pt) as [a| |] eqn:G; try discriminate. cbn [bind].
  destruct (forallb (has_rule (rules_of (a_policy a))) rs); [destruct rs|]; intros H; inversion H; subst; left; auto.
Qed.
Lemma rw_remove_filtered : forall m sec pt i vals m' b, RemoveFilteredPolicy m sec pt i vals = Ok (m', b) -> rewrites m m' sec pt (fun _ => False).
Proof.
  intros m sec pt i vals m' b. unfold RemoveFilteredPolicy. destruct (get_ast m sec pt) as [a| |] eqn:G; try discriminate. cbn [bind].
  destruct (partition_rules i vals (rules_of (a_policy a))) as [[eff tmp]| |] eqn:E; try discriminate. intros H; inversion H; subst.
  right. exists a. eexists. split; [exact G|]. split; [reflexivity|]. split; [discriminate|]. intros x I. left.
  apply partition_rules_spec in E. destruct E as [_ E]. eapply selects_in in E. apply E. exact I.
Qed.
Lemma rw_update : forall m sec pt old new m' b, UpdatePolicy m sec pt old new = Ok (m', b) -> rewrites m m' sec pt (fun x => x = new).
Proof.
  intros m sec pt old new m' b. unfold UpdatePolicy. destruct (get_ast m sec pt) as [a| |] eqn:G; try discriminate. cbn [bind].
  destruct (erase_first old (rules_of (a_policy a))) as [l|] eqn:E; [|intros H; inversion H; subst; left; auto].
  destruct (has_rule l new); intros H; inversion H; subst; right; exists a; eexists; (split; [exact G|]); (split; [reflexivity|]).
  - split; [rewrite hash_with; auto|]. rewrite rules_with. intros x I. left. eapply (erase_first_in (fun _ => True)); eauto.
  - split; [rewrite hash_emplace, hash_with; auto|]. intros x I. apply in_emplace in I. destruct I as [I|I]; auto. rewrite rules_with in I. left. eapply (erase_first_in (fun _ => True)); eauto.
Qed.
Lemma rw_update_many : forall m sec pt olds news m' b, UpdatePolicies m sec pt olds news = Ok (m', b) -> rewrites m m' sec pt (fun x => In x news).
Proof.
  intros m sec pt olds news m' b. unfold UpdatePolicies. destruct (get_ast m sec pt) as [a| |] eqn:G; try discriminate. cbn [bind].
  destruct (erase_all olds (rules_of (a_policy a))) as [l ok] eqn:E.
  assert (W : forall x, In x (rules_of (with_rules (a_policy a) l)) -> In x (rules_of (a_policy a))).
  { rewrite rules_with. intros. eapply (erase_all_in (fun _ => True)); eauto. }
  destruct (negb ok); [|destruct (existsb (has_rule l) news)]; intros H; inversion H; subst; right; exists a; eexists; (split; [exact G|]); (split; [reflexivity|]).
  1,2: split; [rewrite hash_with; auto|]; intros x I; left; auto.
  split; [rewrite hash_emplace_many, hash_with; auto|]. intros x I. apply in_emplace_many in I. destruct I; auto.
Qed.

Definition model_call (d : direct) : Prop := match d with DClearPolicy | DRole _ => False | _ => True end.
Lemma weaken : forall m m' sec pt (P Q : rule -> Prop), rewrites m m' sec pt P -> (forall x, P x -> Q x) -> rewrites m m' sec pt Q.
Proof.
  intros m m' sec pt P Q [H|[a [p [A [E [I J]]]]]] W; [left; auto|right]. exists a, p. repeat (split; auto). intros x K. destruct (J x K); auto.
Qed.
Lemma model_self : forall e, set_model (e_model e) e = e.
Proof. intros []. reflexivity. Qed.
Lemma on_model_cases : forall A (f : model -> res (model * A)) e e' out, on_model f e = (e', out) ->
  e' = e \/ exists m a, f (e_model e) = Ok (m, a) /\ e' = set_model m e.
Proof. intros A f e e' out. unfold on_model. destruct (f (e_model e)) as [[m a]| |] eqn:E; intros H; inversion H; subst; eauto 6. Qed.
(** A call on the model leaves the enforcer as it was but for one assertion's rules. *)
Lemma directly_model : forall d e e' out, model_call d -> directly d e = (e', out) ->
  exists m sec pt, e' = set_model m e /\ rewrites (e_model e) m sec pt (fun x => In x (brings d sec pt)).
Proof.
  intros d e e' out K E.
  assert (T : e' = e -> exists m sec pt, e' = set_model m e /\ rewrites (e_model e) m sec pt (fun x => In x (brings d sec pt))).
  { intros ->. exists (e_model e), "", "". split; [rewrite model_self; auto|left; auto]. }
  assert (B : forall s q, (String.eqb s s && String.eqb q q) = true) by (intros; rewrite !String.eqb_refl; auto).
  destruct d as [s q r|s q rs|s q r|s q rs|s q i vals|s q r1 r2|s q r1 r2| |c]; simpl in K; try tauto; unfold directly in E.
  5: { assert (E' : exists o', on_model (fun m => RemoveFilteredPolicy m s q i vals) e = (e', o')).
       { unfold mbind in E. destruct (on_model _ e) as [e1 [x| |]]; inversion E; subst; eauto. }
       destruct E' as [o' E']. apply on_model_cases in E'. destruct E' as [E'|[m [b [F ->]]]]; auto.
       exists m, s, q. split; auto. eapply weaken; [eapply rw_remove_filtered; eauto|]. intros x []. }
  all: apply on_model_cases in E; destruct E as [E|[m [b [F ->]]]]; auto; exists m, s, q; (split; [reflexivity|]).
  - eapply weaken; [eapply rw_add; eauto|]. simpl. intros x ->. rewrite B. left; auto.
  - eapply weaken; [eapply rw_add_many; eauto|]. simpl. intros x I. rewrite B. auto.
  - eapply weaken; [eapply rw_remove; eauto|]. intros x [].
  - eapply weaken; [eapply rw_remove_many; eauto|]. intros x [].
  - eapply weaken; [eapply rw_update; eauto|]. simpl. intros x ->. rewrite B. left; auto.
  - eapply weaken; [eapply rw_update_many; eauto|]. simpl. intros x I. rewrite B. auto.
Qed.
Lemma directly_role : forall c e e' out, directly (DRole c) e = (e', out) -> (forall u, out <> UB u) ->
  exists r, hget (e_heap e) (e_rm e) = Ok r /\ e' = set_heap (hset (e_heap e) (e_rm e) (rrun r c)) e.
Proof.
  intros c e e' out E N. simpl in E. destruct (hget (e_heap e) (e_rm e)) as [r|x|u] eqn:H; inversion E; subst; eauto.
  - unfold hget in H. destruct (nth_error _ _); discriminate.
  - destruct (N u); auto.
Qed.

(** ** The links follow the calls on the role manager alone *)
Lemma asts_clear : forall m, sec_of (ClearPolicy m) "g" = clear_sec (sec_of m "g").
Proof.
  intros m. unfold ClearPolicy. cbv zeta. unfold sec_of at 1. rewrite aget_aset_same. f_equal.
  assert (T : forall m s s', sec_of (touch m s) s' = sec_of m s').
  { intros. unfold touch, sec_of. rewrite aget_ainsert. seqb s' s; auto. subst. destruct (aget s m0); auto. }
  rewrite T. unfold sec_of at 1. rewrite aget_aset. simpl (String.eqb "g" "p"). cbv iota. fold (sec_of (touch m "p") "g"). apply T.
Qed.
Lemma keys_clear : forall am, map fst (clear_sec am) = map fst am.
Proof. induction am as [|[k a] am IH]; simpl; congruence. Qed.

Section Linked.
  Variable names : node -> Prop.
  Variable n : nat.
  Variable rules : rule -> Prop.
  Hypothesis T : tidy names n rules.
  Notation linked := (linked_by names n rules).

  Lemma direct_linked : forall k lvl L d e e' out, linked lvl L e -> in_order names k rules d -> directly d e = (e', out) ->
    (forall u, out <> UB u) -> linked lvl (match d with DRole c => links_step L c | _ => L end) e'.
  Proof.
    intros k lvl L d e e' out LB [O1 O2 O3] E N.
    assert (K : model_call d \/ d = DClearPolicy \/ exists c, d = DRole c) by (destruct d; simpl; eauto).
    destruct K as [K|[->|[c ->]]].
    - replace (match d with DRole c => links_step L c | _ => L end) with L by (destruct d; auto; destruct K).
      destruct (directly_model d e e' out K E) as [m [sec [pt [-> [->|[a [p [A [-> [_ I]]]]]]]]]].
      + rewrite model_self. auto.
      + destruct (string_dec sec "g") as [->|NG].
        * apply edit_linked; auto. apply Forall_forall. intros x X. destruct (I x X) as [J|J]; [|eapply O1; eauto].
          destruct (proj2 (lb_ok _ _ _ _ _ _ LB) pt a (get_asts _ _ _ A)) as [_ F]. rewrite Forall_forall in F. auto.
        * apply (frame_linked names n rules lvl L e); auto. constructor; auto. unfold asts. simpl. unfold put_policy, put_ast, sec_of. rewrite aget_aset.
          destruct (String.eqb_spec "g" sec); congruence.
    - simpl in E. inversion E; subst. destruct LB as [RM [G1 G2] W B C]. constructor; auto.
      + split; simpl; rewrite asts_clear; [rewrite keys_clear; auto|]. intros pt a. rewrite get_clear_sec.
        destruct (aget pt (sec_of (e_model e) "g")) as [b|] eqn:A; simpl; [|discriminate]. intros X. inversion X; subst. simpl.
        destruct (G2 pt b A) as [S _]. split; auto. rewrite rules_clear. constructor.
      + intros pt a. unfold asts. simpl. rewrite asts_clear, get_clear_sec.
        destruct (aget pt (sec_of (e_model e) "g")) as [b|] eqn:A; simpl; [|discriminate]. intros X. inversion X; subst. simpl. apply (W pt b A).
    - destruct (directly_role c e e' out E N) as [r [H ->]]. destruct LB as [[r' [H' [R LV]]] G W B C].
      assert (r' = r) by congruence. subst. constructor; auto. exists (rrun r c). simpl. split; [eapply hget_hset; eauto|].
      split; [|apply rrun_level]. apply rep_step; [apply T|exact R|]. eauto.
  Qed.
  Lemma worked_linked : forall k lvl ds L e e', worked e ds e' -> linked lvl L e -> Forall (in_order names k rules) ds ->
    linked lvl (in_force L ds) e'.
  Proof.
    intros k lvl ds L e e' W. revert L. induction W as [e|e d ds e1 out e2 E N W IH]; intros L LB F; auto.
    inversion F; subst. unfold in_force. simpl. apply IH; auto. eapply direct_linked; eauto.
  Qed.

  (** ** The enforcer stays in order *)
  Lemma direct_standard : forall o hashed rf pf eft mat k lvl L d e e' out, oracle_ext o -> linked lvl L e -> k = List.length pf ->
    in_order names k rules d -> directly d e = (e', out) -> (forall u, out <> UB u) ->
    standard o hashed rf pf eft mat e -> standard o hashed rf pf eft mat e' /\ same_shape e e'.
  Proof.
    intros o hashed rf pf eft mat k lvl L d e e' out X LB -> O E N [SR SV SF SO].
    pose proof (direct_linked _ lvl L d e e' out LB O E N) as LB'. destruct O as [O1 O2 O3].
    assert (GEN : same_shape e e' -> e_rm e' = e_rm e -> e_ev e' = e_ev e -> e_enabled e' = e_enabled e ->
      (p_indexed (e_model e') = true -> p_indexed (e_model e) = true) ->
      (forall r, In r (stored e' "p" "p") -> In r (stored e "p" "p") \/ In r (brings d "p" "p")) ->
      standard o hashed rf pf eft mat e' /\ same_shape e e').
    { intros SH RM EV EN PI ST. split; auto. constructor; auto; try congruence.
      - destruct SR as [D F]. split; [eapply shape_declares; eauto|]. rewrite EV. destruct (e_ev e) as [ev|]; auto.
        eapply shape_fits; eauto; [exact (lb_wired _ _ _ _ _ _ LB)|exact (lb_wired _ _ _ _ _ _ LB')].
      - intros r I. destruct (ST r I); auto. }
    assert (K : model_call d \/ d = DClearPolicy \/ exists c, d = DRole c) by (destruct d; simpl; eauto).
    destruct K as [K|[->|[c ->]]].
    - destruct (directly_model d e e' out K E) as [m [sec [pt [-> RW]]]].
      apply GEN; try reflexivity.
      + eapply writes_shape, rewrites_writes; eauto.
      + destruct RW as [->|[a [p [A [-> [HI I]]]]]]; auto. unfold p_indexed. simpl. destruct (pair_dec "p" "p" sec pt) as [V|V].
        * inversion V; subst. rewrite get_put_same, A. auto.
        * rewrite get_put_other by auto. auto.
      + intros r. destruct RW as [->|[a [p [A [-> [HI I]]]]]]; auto. unfold stored, rules_in. simpl. destruct (pair_dec "p" "p" sec pt) as [V|V].
        * inversion V; subst. rewrite get_put_same, A. simpl. apply I.
        * rewrite get_put_other by auto. auto.
    - simpl in E. inversion E; subst. apply GEN; try reflexivity.
      + apply (shape_clear e).
      + unfold p_indexed. simpl. rewrite clear_get. simpl. destruct (get_ast (e_model e) "p" "p") as [a| |]; simpl; auto. destruct (a_policy a); auto.
      + intros r. unfold stored. simpl. rewrite clear_rules by auto. intros [].
    - destruct (directly_role c e e' out E N) as [r [H ->]]. apply GEN; try reflexivity; auto. intros sec pt. reflexivity.
  Qed.
  Lemma worked_standard : forall o hashed rf pf eft mat lvl ds L e e', oracle_ext o -> worked e ds e' -> linked lvl L e ->
    Forall (in_order names (List.length pf) rules) ds -> standard o hashed rf pf eft mat e -> standard o hashed rf pf eft mat e' /\ same_shape e e'.
  Proof.
    intros o hashed rf pf eft mat lvl ds L e e' X W. revert L. induction W as [e|e d ds e1 out e2 E N W IH]; intros L LB F S.
    { split; auto. apply same_shape_refl. }
    inversion F; subst. destruct (direct_standard o hashed rf pf eft mat _ lvl L d e e1 out X LB eq_refl H1 E N S) as [S1 SH].
    destruct (IH _ (direct_linked _ lvl L d e e1 out LB H1 E N) H2 S1) as [S2 SH2]. split; auto. eapply same_shape_trans; eauto.
  Qed.
End Linked.
Lemma worked_rbac : forall o names rules lvl ds L e e', oracle_ext o -> tidy names 2 rules -> worked e ds e' -> linked_by names 2 rules lvl L e ->
  Forall (in_order names 3 rules) ds -> standard_rbac o e -> standard_rbac o e'.
Proof.
  intros o names rules lvl ds L e e' X T W LB F S. apply rbac_standard in S. destruct S as [S G]. apply rbac_standard.
  destruct (worked_standard names 2 rules T o false ["sub"; "obj"; "act"] ["sub"; "obj"; "act"] _ _ lvl ds L e e' X W LB F S) as [S' SH]. split; auto.
  destruct G as [a A]. pose proof (SH "g" "g") as Q. rewrite A in Q. unfold declared. destruct (get_ast (e_model e') "g" "g"); try discriminate. eauto.
Qed.
