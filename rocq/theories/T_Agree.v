(** Property C97: enforcers that share a storage and hear of each other's changes answer alike. *)
From Coq Require Import Permutation.
From Verif Require Import Base P_Base M_Util M_RoleManager M_Effector M_Model M_Persist M_Eval M_Evaluator M_Enforcer M_Matcher
  S_Text S_Effect S_Enforce S_Policy S_Persist S_History S_Roles S_Sync S_Rbac S_Standard S_Notify S_Cluster
  P_Enforce P_Decide P_Store P_Api P_History P_Nodup P_Notify P_Text P_Persist P_Save P_Roles P_Sync P_Ready P_Standard P_Cluster P_Agree E_Examples T_Enforce T_Policy T_Notify T_Rbac T_Users T_Standard T_Cluster S_Agree.
Local Arguments spell : simpl never.

(** After any history of calls that returned, through any of them and in any order, each of
    them decides every request by the rules the storage has, for every model whose matcher
    has a reading and whose effect does not depend on the order of the rules. *)
Theorem C97_answers_partial : forall (rules : rule -> Prop) T0 load o names n grules rf pf pe mat d lvl w h w' i e req,
  (forall r r', rules r -> rules r' -> Permutation r r' -> r = r') -> (forall r, rules r -> plain_rule r) -> reliable T0 load ->
  oracle_ext o -> reads o n mat d -> mat <> "" -> HasEval mat = false -> (forall x, In x (rd_vars d) -> In x (r_names rf ++ p_names pf)) ->
  tidy names n grules -> pe <> Priority ->
  in_step rules T0 load w -> (forall i e, S_Cluster.node w i = Some e -> prepared o names n grules rf pf pe mat d lvl e) ->
  Forall (fun a => orderly rules grules (List.length pf) (snd a)) h -> works o w h w' ->
  S_Cluster.node w' i = Some e -> List.length req = List.length rf ->
  let has := has_after T0 (heard_by_storage w') in
  (forall r, has "p" "p" r -> calls_ok names d (value_of rf req pf r)) ->
  ((exists r, has "p" "p" r) \/
   calls_ok names d (value_of rf req pf (blank pf)) /\ ~ rd_sem d (value_of rf req pf (blank pf)) (table_linked has lvl)) ->
  exists b, snd (Enforce o (map DStr req) e) = Ok b /\
    (b = true <-> decided pe (fun r => rd_sem d (value_of rf req pf r) (table_linked has lvl)) (effect_of pf) (has "p" "p")).
Proof.
  intros rules T0 load o names n grules rf pf pe mat d lvl w h w' i e req AP PL RE X RD MA NE VA T NP IS PR F W N L has CO BL.
  destruct (works_prep rules T0 load AP PL RE o names n grules rf pf pe mat d lvl X MA NE T w h w' W F IS PR) as [[U _] P].
  eapply (prep_answers rules T0 load); eauto.
Qed.
Print Assumptions C97_answers_partial.

(** So any two of them answer alike. *)
Theorem C97_alike_partial : forall (rules : rule -> Prop) T0 load o names n grules rf pf pe mat d lvl w h w' i j e e' req,
  (forall r r', rules r -> rules r' -> Permutation r r' -> r = r') -> (forall r, rules r -> plain_rule r) -> reliable T0 load ->
  oracle_ext o -> reads o n mat d -> mat <> "" -> HasEval mat = false -> (forall x, In x (rd_vars d) -> In x (r_names rf ++ p_names pf)) ->
  tidy names n grules -> pe <> Priority ->
  in_step rules T0 load w -> (forall i e, S_Cluster.node w i = Some e -> prepared o names n grules rf pf pe mat d lvl e) ->
  Forall (fun a => orderly rules grules (List.length pf) (snd a)) h -> works o w h w' ->
  S_Cluster.node w' i = Some e -> S_Cluster.node w' j = Some e' -> List.length req = List.length rf ->
  let has := has_after T0 (heard_by_storage w') in
  (forall r, has "p" "p" r -> calls_ok names d (value_of rf req pf r)) ->
  ((exists r, has "p" "p" r) \/
   calls_ok names d (value_of rf req pf (blank pf)) /\ ~ rd_sem d (value_of rf req pf (blank pf)) (table_linked has lvl)) ->
  exists b, snd (Enforce o (map DStr req) e) = Ok b /\ snd (Enforce o (map DStr req) e') = Ok b.
Proof.
  intros rules T0 load o names n grules rf pf pe mat d lvl w h w' i j e e' req AP PL RE X RD MA NE VA T NP IS PR F W N N' L has CO BL.
  destruct (C97_answers_partial rules T0 load o names n grules rf pf pe mat d lvl w h w' i e req) as [b [E B]]; auto.
  destruct (C97_answers_partial rules T0 load o names n grules rf pf pe mat d lvl w h w' j e' req) as [b' [E' B']]; auto.
  exists b. split; auto. rewrite E'. f_equal. apply eq_iff_eq_true. rewrite B, B'. tauto.
Qed.
Print Assumptions C97_alike_partial.

(** In the standard RBAC model each of them allows a request exactly if the storage has a
    rule for the object and the action whose subject is the requester, or is reached from
    them by the grouping rules the storage has. *)
Theorem C97_rbac_partial : forall (rules : rule -> Prop) T0 load o names grules lvl w h w' i e sub obj act,
  (forall r r', rules r -> rules r' -> Permutation r r' -> r = r') -> (forall r, rules r -> plain_rule r) -> reliable T0 load ->
  oracle_ext o -> reads o 2 rbac_matcher rbac_reading -> tidy names 2 grules ->
  in_step rules T0 load w ->
  (forall i e, S_Cluster.node w i = Some e -> prepared o names 2 grules f3 f3 AllowOverride rbac_matcher rbac_reading lvl e) ->
  Forall (fun a => orderly rules grules 3 (snd a)) h -> works o w h w' -> S_Cluster.node w' i = Some e ->
  let has := has_after T0 (heard_by_storage w') in
  names (None, sub) -> (forall s r, has "p" "p" (s :: r) -> names (None, s)) ->
  ((exists r, has "p" "p" r) \/ names (None, "") /\ (obj <> "" \/ act <> "")) ->
  exists b, snd (Enforce o (map DStr [sub; obj; act]) e) = Ok b /\
    (b = true <-> exists s, has "p" "p" [s; obj; act] /\ within (table_links has) None lvl sub s).
Proof.
  intros rules T0 load o names grules lvl w h w' i e sub obj act AP PL RE X RD T IS PR F W N has Nsub Np NE.
  assert (VARS : forall x, In x (rd_vars rbac_reading) -> In x (r_names f3 ++ p_names f3)) by by_cases.
  assert (EV : HasEval rbac_matcher = false) by reflexivity.
  destruct (works_prep rules T0 load AP PL RE o names 2 grules f3 f3 AllowOverride rbac_matcher rbac_reading lvl X ltac:(discriminate) EV T w h w' W F IS PR) as [[U _] P].
  assert (L3 : forall r, has "p" "p" r -> exists s o' a, r = [s; o'; a]).
  { intros r H. destruct (U i e N) as [_ S]. apply (S "p" "p" r (or_introl eq_refl)) in H. pose proof (st_fields _ _ _ _ _ _ _ (pr_standard _ _ _ _ _ _ _ _ _ _ _ (P i e N)) r H) as L.
    destruct r as [|s [|o' [|a [|]]]]; try discriminate. eauto. }
  assert (C : forall s o' a, names (None, s) -> calls_ok names rbac_reading (value_of f3 [sub; obj; act] f3 [s; o'; a])).
  { intros s o' a Ns. split; [exact Logic.I|]. intros f args [Q|[]]. inversion Q; subst. split; [left; reflexivity|]. split; auto. }
  destruct (C97_answers_partial rules T0 load o names 2 grules f3 f3 AllowOverride rbac_matcher rbac_reading lvl w h w' i e [sub; obj; act]) as [b [E B]]; auto; try discriminate.
  - intros r H. destruct (L3 r H) as [s [o' [a ->]]]. apply C. eapply Np; eauto.
  - destruct NE as [NE|[N0 NE]]; [left; exact NE|right]. split; [apply (C "" "" ""); auto|]. intros [_ [Q1 Q2]]. cbn in Q1, Q2. destruct NE; auto.
  - exists b. split; auto. rewrite B. unfold decided. fold has. split.
    + intros [r [H [Q _]]]. destruct (L3 r H) as [s [o' [a ->]]]. destruct Q as [Q1 [Q2 Q3]]. cbn in Q1, Q2, Q3. subst. eauto.
    + intros [s [H Q]]. exists [s; obj; act]. split; auto. split; [|reflexivity]. split; [exact Q|]. split; reflexivity.
Qed.
Print Assumptions C97_rbac_partial.

(** An enforcer that joins later, whatever rules it had, answers alike once it has loaded. *)
Theorem C97_joins : forall (rules : rule -> Prop) T0 load o names n grules rf pf pe mat d lvl log e x req,
  (forall r, rules r -> plain_rule r) -> reliable T0 load ->
  oracle_ext o -> reads o n mat d -> mat <> "" -> HasEval mat = false -> (forall v, In v (rd_vars d) -> In v (r_names rf ++ p_names pf)) ->
  tidy names n grules -> pe <> Priority ->
  up_to_date rules T0 load log e -> takes_part rules load x -> told x = log -> same_types e x ->
  prepared o names n grules rf pf pe mat d lvl e -> prepared o names n grules rf pf pe mat d lvl x -> List.length req = List.length rf ->
  let has := has_after T0 log in
  (forall r, has "p" "p" r -> calls_ok names d (value_of rf req pf r)) ->
  ((exists r, has "p" "p" r) \/
   calls_ok names d (value_of rf req pf (blank pf)) /\ ~ rd_sem d (value_of rf req pf (blank pf)) (table_linked has lvl)) ->
  exists b, snd (Enforce o (map DStr req) e) = Ok b /\ snd (Enforce o (map DStr req) (fst (LoadPolicy x))) = Ok b.
Proof.
  intros rules T0 load o names n grules rf pf pe mat d lvl log e x req PL RE X RD MA NE VA T NP U TP TL ST PE PX L has CO BL.
  assert (PJ : prepared o names n grules rf pf pe mat d lvl (fst (LoadPolicy x))) by (eapply (prep_load rules T0 load); eauto).
  assert (UJ : up_to_date rules T0 load log (fst (LoadPolicy x))) by (apply (loads rules T0 load PL RE log e x); auto).
  destruct (prep_answers rules T0 load o names n grules rf pf pe mat d lvl X RD MA NE VA T log e req U PE NP L CO BL) as [b [E B]].
  destruct (prep_answers rules T0 load o names n grules rf pf pe mat d lvl X RD MA NE VA T log _ req UJ PJ NP L CO BL) as [b' [E' B']].
  exists b. split; auto. rewrite E'. f_equal. apply eq_iff_eq_true. rewrite B, B'. tauto.
Qed.
Print Assumptions C97_joins.

(** ** The three enforcers of C93 *)
Definition team_rule (r : rule) : Prop := In r [["alice"; "admin"]; ["bob"; "admin"]; ["carol"; "admin"]].
Lemma team_tidy : tidy plain_names 2 team_rule.
Proof.
  constructor; auto.
  - intros [[dx|] x] [[dy|] y] Hx Hy E; unfold plain_names in *; simpl in *; try discriminate. unfold spell in E. congruence.
  - intros r H. unfold team_rule in H. cases_in H; (split; [reflexivity|]); do 3 eexists; (split; [reflexivity|]); split; reflexivity.
  - intros r r' H H' P. unfold team_rule in *. cases_in H; cases_in H'; try reflexivity; not_perm P.
Qed.
Lemma ex_kept : forall o, managed o plain_names 2 team_rule ex.
Proof.
  intros o. apply (managed_built o plain_names 2 team_rule (boot (rbac_model [r_alice; r_bob] [["alice"; "admin"]]))); try reflexivity.
  - eexists. split; reflexivity.
  - split.
    + repeat constructor; simpl; tauto.
    + intros pt a H. simpl in H. destruct (String.eqb pt "g") eqn:E; [|discriminate]. inversion H; subst. split; [reflexivity|].
      simpl. unfold team_rule. repeat constructor; simpl; tauto.
Qed.
Lemma member_prepared : forall o, prepared o plain_names 2 team_rule f3 f3 AllowOverride rbac_matcher rbac_reading 10 member.
Proof.
  intros o. constructor.
  - eapply managed_call with (c := KSetWatcher) (out := Ok tt); [|exact Logic.I|reflexivity|discriminate].
    eapply managed_call with (c := KSetAdapter _) (out := Ok tt); [apply ex_kept| |reflexivity|discriminate].
    intros log c. left. reflexivity.
  - constructor; try reflexivity; try discriminate.
    + split; [|exact Logic.I]. prove_declares.
    + intros r I. vm_compute in I. cases_in I; reflexivity.
  - intros f [<-|[]]. eexists. reflexivity.
  - reflexivity.
Qed.
(** They answer as expected before and after the history of C93. *)
Definition says (o : oracle) (e : enforcer) (l : list (rule * bool)) : bool :=
  forallb (fun q => match snd (Enforce o (reqs (fst q)) e) with Ok b => Bool.eqb b (snd q) | _ => false end) l.
Example C97_case : oracle_ext mini /\ reads mini 2 rbac_matcher rbac_reading /\ tidy plain_names 2 team_rule /\
  in_step ex_rules (db_table rows0) (db_load rows0) three /\
  (forall i e, S_Cluster.node three i = Some e -> prepared mini plain_names 2 team_rule f3 f3 AllowOverride rbac_matcher rbac_reading 10 e) /\
  Forall (fun a => orderly ex_rules team_rule 3 (snd a)) talk /\
  says mini member [(r_alice, true); (r_bob, true); (r_carol, false)] = true /\
  exists w, works mini three talk w /\ (exists r, has_after (db_table rows0) (heard_by_storage w) "p" "p" r) /\
    forall i, i < 3 -> exists e, S_Cluster.node w i = Some e /\ says mini e [(r_alice, false); (r_bob, false); (r_carol, true)] = true.
Proof.
  split; [apply mini_ext|]. split; [apply mini_rbac|]. split; [apply team_tidy|]. split; [apply three_in_step|].
  split; [intros i e N; apply three_nodes in N; subst; apply member_prepared|]. split.
  { pose proof (proj1 (proj2 (proj2 (proj2 (proj2 C93_case))))) as F. unfold talk in *.
    repeat match goal with H : Forall _ (_ :: _) |- _ => inversion H; subst; clear H end.
    repeat (apply Forall_cons; [split; [assumption|]; split; cbn [snd safe_call shaped_call]; try exact Logic.I; try (intros; reflexivity)|]); [..|apply Forall_nil].
    - repeat (apply Forall_cons; [unfold team_rule; simpl; auto|]). apply Forall_nil.
    - split; [reflexivity|]. exists r_bob. reflexivity. }
  split; [vm_compute; reflexivity|].
  assert (Q : match go mini three talk with Some w => has_row (fold_left db_do (heard_by_storage w) rows0) ("p", "p", r_carol) &&
      forallb (fun i => match S_Cluster.node w i with Some e => says mini e [(r_alice, false); (r_bob, false); (r_carol, true)] | None => false end) [0; 1; 2] | None => false end = true)
    by (vm_compute; reflexivity).
  destruct (go mini three talk) as [w|] eqn:G; [|discriminate]. exists w. split; [apply go_works, G|].
  apply andb_prop in Q. destruct Q as [Q1 Q2]. split.
  - exists r_carol. apply (db_after (heard_by_storage w) rows0 (db_table rows0)); [intros; reflexivity|]. apply has_row_spec, Q1.
  - rewrite forallb_forall in Q2. intros i L. assert (I : In i [0; 1; 2]) by (cbn; lia). specialize (Q2 i I).
    destruct (S_Cluster.node w i) as [e|]; [|discriminate]. eauto.
Qed.

Definition joiner : enforcer := set_watcher (Some 0) (set_adapter (e_adapter member) (linked_boot (rbac_model [r_carol] []))).
Example C97_joins_case : up_to_date ex_rules (db_table rows0) (db_load rows0) [] member /\ takes_part ex_rules (db_load rows0) joiner /\ told joiner = [] /\
  same_types member joiner /\ prepared mini plain_names 2 team_rule f3 f3 AllowOverride rbac_matcher rbac_reading 10 joiner /\
  says mini joiner [(r_alice, false); (r_bob, false); (r_carol, true)] = true /\
  says mini (fst (LoadPolicy joiner)) [(r_alice, true); (r_bob, true); (r_carol, false)] = true.
Proof.
  split; [apply member_up|]. split; [|split; [reflexivity|split; [|split; [|split; vm_compute; reflexivity]]]].
  - destruct member_part as [A S N W T R]. constructor; try exact A; try reflexivity; try discriminate.
    + intros sec pt G D. apply T; auto. destruct D as [a Q]. destruct G as [ -> | -> ]; unfold declared, get_ast in *; cbn in *; [destruct (String.eqb pt "p")|destruct (String.eqb pt "g")]; try discriminate; eauto.
    + intros sec pt. split; [revert sec pt; apply all_distinct_dec; repeat constructor; simpl; intuition discriminate|].
      apply all_rules_dec. unfold ex_rules. cbn. repeat (apply Forall_cons || apply Forall_nil); simpl; tauto.
  - intros sec pt [ -> | -> ]; unfold declared, get_ast; cbn; [destruct (String.eqb pt "p")|destruct (String.eqb pt "g")]; split; intros [a Q]; try discriminate; eauto.
  - constructor.
    + eapply managed_call with (c := KSetWatcher) (out := Ok tt); [|exact Logic.I|reflexivity|discriminate].
      eapply managed_call with (c := KSetAdapter _) (out := Ok tt); [| |reflexivity|discriminate]; [|intros log c; left; reflexivity].
      apply (managed_built mini plain_names 2 team_rule (boot (rbac_model [r_carol] []))); try reflexivity.
      * eexists. split; reflexivity.
      * split; [repeat constructor; simpl; tauto|].
        intros pt a H. simpl in H. destruct (String.eqb pt "g") eqn:E; [|discriminate]. inversion H; subst. split; [reflexivity|constructor].
    + constructor; try reflexivity; try discriminate.
      * split; [|exact Logic.I]. prove_declares.
      * intros r I. vm_compute in I. cases_in I; reflexivity.
    + intros f [<-|[]]. eexists. reflexivity.
    + reflexivity.
Qed.

(** False for updates: who was replaced in a rule keeps the access everywhere else. *)
Theorem C97_update_refuted : exists w w' e0 e1, in_step ex_rules (db_table rows0) (db_load rows0) w /\
  (forall i e, S_Cluster.node w i = Some e -> prepared mini plain_names 2 team_rule f3 f3 AllowOverride rbac_matcher rbac_reading 10 e) /\
  works mini w [(0, KUpdatePolicy "p" r_alice r_carol)] w' /\ S_Cluster.node w' 0 = Some e0 /\ S_Cluster.node w' 1 = Some e1 /\
  snd (Enforce mini (reqs r_alice) e0) = Ok false /\ snd (Enforce mini (reqs r_alice) e1) = Ok true.
Proof.
  exists three. assert (Q : match go mini three [(0, KUpdatePolicy "p" r_alice r_carol)] with
    | Some w => match S_Cluster.node w 0, S_Cluster.node w 1 with Some e0, Some e1 =>
        Some (snd (Enforce mini (reqs r_alice) e0), snd (Enforce mini (reqs r_alice) e1)) | _, _ => None end | None => None end = Some (Ok false, Ok true)) by (vm_compute; reflexivity).
  destruct (go mini three [(0, KUpdatePolicy "p" r_alice r_carol)]) as [w|] eqn:G; [|discriminate].
  destruct (S_Cluster.node w 0) as [e0|] eqn:N0; [|discriminate]. destruct (S_Cluster.node w 1) as [e1|] eqn:N1; [|discriminate].
  exists w, e0, e1. injection Q as Q0 Q1. split; [apply three_in_step|]. split; [intros i e N; apply three_nodes in N; subst; apply member_prepared|]. split; [apply go_works, G|]. auto.
Qed.
Print Assumptions C97_update_refuted.

(** False for the effect Priority: which rule is first depends on the storage.  Here it lists
    the newest rule first, and the enforcer that added it has it last. *)
Definition new_first (db0 : list row) (log : list acall) : list string * option exn := (rev (fst (db_load db0 log)), None).
Lemma lines_mean_app : forall a b rs rs', lines_mean eq a rs -> lines_mean eq b rs' -> lines_mean eq (a ++ b) (rs ++ rs').
Proof. intros a b rs rs' H. induction H; intros K; cbn [app]; eauto using lines_mean. Qed.
Lemma lines_mean_rev : forall a rs, lines_mean eq a rs -> lines_mean eq (rev a) (rev rs).
Proof.
  intros a rs H. induction H; cbn [rev].
  - constructor.
  - rewrite <- (app_nil_r (rev _)) at 1. rewrite <- (app_nil_r (rev rs)). rewrite app_nil_r at 1. apply lines_mean_app; auto. eauto using lines_mean.
  - apply lines_mean_app; eauto using lines_mean.
Qed.
Lemma new_first_reliable : forall db0, NoDup db0 -> reliable (db_table db0) (new_first db0).
Proof.
  intros db0 N log W. destruct (db_reliable db0 N log W) as [lines [rs [LD [LM [ND [PG IN]]]]]].
  exists (rev lines), (rev rs). split; [unfold new_first; rewrite LD; reflexivity|]. split; [apply lines_mean_rev, LM|]. split; [apply NoDup_rev, ND|]. split.
  - intros kr I. apply in_rev in I. auto.
  - intros s q x G SC. rewrite <- in_rev. apply IN; auto.
Qed.
Definition w_allow : rule := ["alice"; "data1"; "write"; "allow"].
Definition w_deny : rule := ["alice"; "data1"; "write"; "deny"].
Definition w_rules (r : rule) : Prop := In r [w_allow; w_deny].
Definition w_rows : list row := [("p", "p", w_allow)].
Definition w_plain : enforcer := linked_boot (deny_model Priority [w_allow] []).
Definition w_member : enforcer := set_watcher (Some 0) (set_adapter (Some (AUser (mkUA true false true (fun _ _ => None) (new_first w_rows) (fun _ => None) []))) w_plain).
Definition w_pair : cluster := mkCluster [] [w_member; w_member].
Lemma w_nodes : forall i e, S_Cluster.node w_pair i = Some e -> e = w_member.
Proof. intros [|[|[|i]]] e E; cbn in E; try discriminate; injection E as <-; reflexivity. Qed.
Lemma w_in_step : in_step w_rules (db_table w_rows) (new_first w_rows) w_pair.
Proof.
  assert (PV : forall v, smem "," v = false -> smem "010" v = false -> Trim v = v -> plain_value v).
  { intros v A B C. split; [apply smem_lacks; auto|]. split; [apply smem_lacks; auto|]. rewrite <- C. apply Trim_spec. }
  split.
  - intros i e N. apply w_nodes in N. subst. split.
    + constructor; try reflexivity.
      * eexists. split; [reflexivity|]. split; reflexivity.
      * discriminate.
      * intros sec pt [ -> | -> ] [a Q]; unfold get_ast in Q; cbn in Q;
          [destruct (String.eqb_spec pt "p") as [->|]|destruct (String.eqb_spec pt "g") as [->|]]; try discriminate; (split; [apply PV; reflexivity|reflexivity]).
      * intros sec pt. split; [revert sec pt; apply all_distinct_dec; repeat constructor; simpl; intuition discriminate|].
        apply all_rules_dec. unfold w_rules. cbn. repeat (apply Forall_cons || apply Forall_nil); simpl; tauto.
    + intros s q x [ -> | -> ]; unfold policy, stored, rules_in, get_ast, db_table, has_after; cbn [fold_left heard_by_storage w_pair].
      * destruct (String.eqb_spec q "p") as [->|N].
        -- cbn. split; [intros [<-|[]]; auto|intros [E|[]]; inversion E; auto].
        -- cbn. destruct (String.eqb_spec q "p"); [congruence|]. cbn. split; [intros []|intros [E|[]]; inversion E; congruence].
      * destruct (String.eqb_spec q "g") as [->|N].
        -- cbn. split; [intros []|intros [E|[]]; inversion E].
        -- cbn. destruct (String.eqb_spec q "g"); [congruence|]. cbn. split; [intros []|intros [E|[]]; inversion E].
  - intros i j e e' N N'. apply w_nodes in N, N'. subst. intros sec pt _. reflexivity.
Qed.
Lemma w_prepared : forall o, prepared o plain_names 2 team_rule f3 f4 Priority rbac_matcher rbac_reading 10 w_member.
Proof.
  intros o. constructor.
  - eapply managed_call with (c := KSetWatcher) (out := Ok tt); [|exact Logic.I|reflexivity|discriminate].
    eapply managed_call with (c := KSetAdapter _) (out := Ok tt); [| |reflexivity|discriminate]; [|intros log c; left; reflexivity].
    apply (managed_built o plain_names 2 team_rule (boot (deny_model Priority [w_allow] []))); try reflexivity.
    + eexists. split; reflexivity.
    + split; [repeat constructor; simpl; tauto|].
      intros pt a H. simpl in H. destruct (String.eqb pt "g") eqn:E; [|discriminate]. inversion H; subst. split; [reflexivity|constructor].
  - constructor; try reflexivity; try discriminate.
    + split; [|exact Logic.I]. prove_declares.
    + intros r I. vm_compute in I. cases_in I; reflexivity.
  - intros f [<-|[]]. eexists. reflexivity.
  - reflexivity.
Qed.
Lemma w_apart : forall r r', w_rules r -> w_rules r' -> Permutation r r' -> r = r'.
Proof.
  intros r r' [<-|[<-|[]]] [<-|[<-|[]]] P; auto; exfalso;
    [pose proof (Permutation_in "allow" P) as I|pose proof (Permutation_in "deny" P) as I]; cbn in I; intuition discriminate.
Qed.
Lemma w_plain_rules : forall r, w_rules r -> plain_rule r.
Proof.
  assert (PV : forall v, smem "," v = false -> smem "010" v = false -> Trim v = v -> plain_value v).
  { intros v A B C. split; [apply smem_lacks; auto|]. split; [apply smem_lacks; auto|]. rewrite <- C. apply Trim_spec. }
  intros r [<-|[<-|[]]]; (split; [discriminate|]); repeat (apply Forall_cons; [apply PV; reflexivity|]); apply Forall_nil.
Qed.
Theorem C97_priority_refuted : exists w w' h e0 e1,
  (forall r r', w_rules r -> w_rules r' -> Permutation r r' -> r = r') /\ (forall r, w_rules r -> plain_rule r) /\ reliable (db_table w_rows) (new_first w_rows) /\
  in_step w_rules (db_table w_rows) (new_first w_rows) w /\
  (forall i e, S_Cluster.node w i = Some e -> prepared mini plain_names 2 team_rule f3 f4 Priority rbac_matcher rbac_reading 10 e) /\
  Forall (fun a => orderly w_rules team_rule 4 (snd a)) h /\ works mini w h w' /\
  S_Cluster.node w' 0 = Some e0 /\ S_Cluster.node w' 1 = Some e1 /\
  snd (Enforce mini (reqs ["alice"; "data1"; "write"]) e0) = Ok true /\ snd (Enforce mini (reqs ["alice"; "data1"; "write"]) e1) = Ok false.
Proof.
  exists w_pair. assert (Q : match go mini w_pair [(0, KAddPolicy "p" w_deny)] with
    | Some w => match S_Cluster.node w 0, S_Cluster.node w 1 with Some e0, Some e1 =>
        Some (snd (Enforce mini (reqs ["alice"; "data1"; "write"]) e0), snd (Enforce mini (reqs ["alice"; "data1"; "write"]) e1)) | _, _ => None end | None => None end = Some (Ok true, Ok false)) by (vm_compute; reflexivity).
  destruct (go mini w_pair [(0, KAddPolicy "p" w_deny)]) as [w|] eqn:G; [|discriminate].
  destruct (S_Cluster.node w 0) as [e0|] eqn:N0; [|discriminate]. destruct (S_Cluster.node w 1) as [e1|] eqn:N1; [|discriminate].
  exists w, [(0, KAddPolicy "p" w_deny)], e0, e1. injection Q as Q0 Q1.
  split; [apply w_apart|]. split; [apply w_plain_rules|]. split; [apply new_first_reliable; repeat constructor; intros []|]. split; [apply w_in_step|]. split; [intros i e N; apply w_nodes in N; subst; apply w_prepared|].
  split; [|split; [apply go_works, G|auto]]. apply Forall_cons; [|apply Forall_nil]. split; [split; [|exact Logic.I]|split; [exact Logic.I|intros _; reflexivity]].
  cbn. auto.
Qed.
Print Assumptions C97_priority_refuted.
