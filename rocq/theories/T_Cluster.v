(** Property C93: enforcers that share a storage and hear of each other's changes. *)
From Coq Require Import Permutation.
From Verif Require Import Base P_Base M_Util M_RoleManager M_Effector M_Model M_Persist M_Eval M_Evaluator M_Enforcer M_Matcher
  S_Text S_Policy S_Persist S_History S_Notify S_Cluster P_Decide P_Store P_Api P_History P_Nodup P_Notify P_Text P_Persist P_Save P_Cluster E_Examples T_Policy T_Notify.

(** After any history of calls that returned, through any of them and in any order, all of
    them have the rules that the storage has.  (Updates and batch removals are excluded,
    see below.) *)
Theorem C93_in_step_partial : forall (rules : rule -> Prop) T0 load o w h w',
  (forall r r', rules r -> rules r' -> Permutation r r' -> r = r') -> (forall r, rules r -> plain_rule r) -> reliable T0 load ->
  in_step rules T0 load w -> Forall (fun a => cluster_call rules (snd a)) h -> works o w h w' -> in_step rules T0 load w'.
Proof. intros rules T0 load o w h w' AP PL RE I F W. eapply works_in_step; eauto. Qed.
Print Assumptions C93_in_step_partial.
(** So any two of them have the same rules. *)
Theorem C93_same_rules_partial : forall (rules : rule -> Prop) T0 load o w h w' i j e e',
  (forall r r', rules r -> rules r' -> Permutation r r' -> r = r') -> (forall r, rules r -> plain_rule r) -> reliable T0 load ->
  in_step rules T0 load w -> Forall (fun a => cluster_call rules (snd a)) h -> works o w h w' ->
  node w' i = Some e -> node w' j = Some e' ->
  forall sec pt r, sec = "p" \/ sec = "g" -> (In r (stored e sec pt) <-> In r (stored e' sec pt)).
Proof.
  intros rules T0 load o w h w' i j e e' AP PL RE I F W N N' sec pt r G.
  destruct (C93_in_step_partial rules T0 load o w h w' AP PL RE I F W) as [U _].
  destruct (U i e N) as [_ S]. destruct (U j e' N') as [_ S']. transitivity (has_after T0 (heard_by_storage w') sec pt r); [apply S|symmetry; apply S']; auto.
Qed.
Print Assumptions C93_same_rules_partial.
(** An enforcer that joins later, whatever rules it had, has them once it has loaded. *)
Theorem C93_joins : forall (rules : rule -> Prop) T0 load log e x,
  (forall r, rules r -> plain_rule r) -> reliable T0 load ->
  up_to_date rules T0 load log e -> takes_part rules load x -> told x = log -> same_types e x ->
  up_to_date rules T0 load log (fst (LoadPolicy x)).
Proof. intros rules T0 load log e x PL RE U P TL ST. apply (loads rules T0 load PL RE log e x); auto. Qed.
Print Assumptions C93_joins.

(** ** A storage that does as it is told *)
Definition row := (string * string * rule)%type.
Definition row_eqb (a b : row) : bool :=
  String.eqb (fst (fst a)) (fst (fst b)) && String.eqb (snd (fst a)) (snd (fst b)) && rule_eqb (snd a) (snd b).
Lemma row_eqb_spec : forall a b, row_eqb a b = true <-> a = b.
Proof.
  intros [[s q] x] [[s' q'] x']. unfold row_eqb. cbn [fst snd]. rewrite !andb_true_iff, !String.eqb_eq, rule_eqb_true. split; [intros [[-> ->] ->]; auto|intros E; inversion E; auto].
Qed.
Definition has_row (db : list row) (a : row) : bool := existsb (row_eqb a) db.
Fixpoint fits_filter (i : nat) (vals : list string) (r : rule) : bool :=
  match vals with
  | [] => true
  | v :: vs => (String.eqb v "" || match nth_error r i with Some x => String.eqb x v | None => false end) && fits_filter (S i) vs r
  end.
Definition insert (db : list row) (a : row) : list row := if has_row db a then db else db ++ [a].
Definition db_do (db : list row) (c : acall) : list row :=
  match c with
  | CAdd sec pt r => insert db (sec, pt, r)
  | CRemove sec pt r => List.filter (fun a => negb (row_eqb a (sec, pt, r))) db
  | CRemoveFiltered sec pt i vals => List.filter (fun a => negb (String.eqb (fst (fst a)) sec && String.eqb (snd (fst a)) pt && fits_filter i vals (snd a))) db
  | CAddMany sec pt rs => fold_left (fun d r => insert d (sec, pt, r)) rs db
  | CRemoveMany sec pt rs => List.filter (fun a => negb (existsb (fun r => row_eqb a (sec, pt, r)) rs)) db
  end.
Definition is_policy (a : row) : bool :=
  (String.eqb (fst (fst a)) "p" || String.eqb (fst (fst a)) "g") && String.eqb (section_of (snd (fst a))) (fst (fst a)).
Definition entry (a : row) : string * rule := (snd (fst a), snd a).
Definition db_load (db0 : list row) (log : list acall) : list string * option exn :=
  (map (fun a => line_of (entry a)) (List.filter is_policy (fold_left db_do log db0)), None).
Definition db_table (db : list row) : table := fun s q x => In (s, q, x) db.

Lemma has_row_spec : forall db a, has_row db a = true <-> In a db.
Proof.
  intros db a. unfold has_row. rewrite existsb_exists. split.
  - intros [b [I E]]. apply row_eqb_spec in E. subst. exact I.
  - intros I. exists a. split; auto. apply row_eqb_spec. reflexivity.
Qed.
Lemma insert_in : forall db a b, In b (insert db a) <-> In b db \/ b = a.
Proof.
  intros db a b. unfold insert. destruct (has_row db a) eqn:H.
  - apply has_row_spec in H. split; auto. intros [I| -> ]; auto.
  - rewrite in_app_iff. cbn. intuition.
Qed.
Lemma insert_nodup : forall db a, NoDup db -> NoDup (insert db a).
Proof.
  intros db a N. unfold insert. destruct (has_row db a) eqn:H; auto. apply NoDup_Add with (a := a) (l := db); [|split; auto].
  - rewrite <- (app_nil_r db) at 1. apply Add_app.
  - intros I. apply has_row_spec in I. congruence.
Qed.
Lemma fits_spec : forall vals i r, fits_filter i vals r = true <-> qualifies i vals r.
Proof.
  induction vals as [|v vs IH]; intros i r; cbn [fits_filter].
  - split; auto. intros _ [|j] v E; discriminate.
  - rewrite andb_true_iff, orb_true_iff, IH. unfold qualifies. split.
    + intros [H Q] [|j] x E NE; cbn in E.
      * injection E as <-. rewrite Nat.add_0_r. destruct H as [H|H]; [apply String.eqb_eq in H; congruence|]. destruct (nth_error r i); [|discriminate]. apply String.eqb_eq in H. congruence.
      * rewrite <- Nat.add_succ_comm. apply (Q j x); auto.
    + intros Q. split.
      * destruct (String.eqb_spec v ""); auto. right. pose proof (Q 0 v eq_refl n) as X. rewrite Nat.add_0_r in X. rewrite X. apply eqb_refl_s.
      * intros j x E NE. rewrite Nat.add_succ_comm. apply (Q (S j) x); auto.
Qed.
Lemma insert_many : forall sec pt rs db b, In b (fold_left (fun d r => insert d (sec, pt, r)) rs db) <-> In b db \/ exists r, In r rs /\ b = (sec, pt, r).
Proof.
  intros sec pt rs. induction rs as [|r rs IH]; intros db b; cbn [fold_left].
  - split; auto. intros [I|[r [[] _]]]; auto.
  - rewrite IH, insert_in. split.
    + intros [[I| -> ]|[x [I E]]]; auto; right; [exists r|exists x]; cbn; auto.
    + intros [I|[x [[ -> |I] E]]]; eauto.
Qed.
Lemma db_obeys : forall c db T, (forall s q x, T s q x <-> db_table db s q x) -> forall s q x, obeyed T c s q x <-> db_table (db_do db c) s q x.
Proof.
  intros c db T H s q x. unfold db_table in *. destruct c as [sec pt r|sec pt r|sec pt i vals|sec pt rs|sec pt rs]; cbn [obeyed db_do].
  - rewrite insert_in, H. split; (intros [A|A]; [auto|right]); [destruct A as [-> [-> ->]]; auto|inversion A; auto].
  - rewrite filter_In, negb_true_iff, H. split; intros [A B]; split; auto.
    + destruct (row_eqb _ _) eqn:E; auto. apply row_eqb_spec in E. inversion E; subst. destruct B; auto.
    + intros [-> [-> ->]]. assert (X : row_eqb (sec, pt, r) (sec, pt, r) = true) by (apply row_eqb_spec; auto). congruence.
  - rewrite filter_In, negb_true_iff, H. cbn [fst snd]. split; intros [A B]; split; auto.
    + destruct (String.eqb_spec s sec), (String.eqb_spec q pt), (fits_filter i vals x) eqn:E; auto. apply fits_spec in E. destruct B; auto.
    + intros [-> [-> Q]]. apply fits_spec in Q. rewrite !eqb_refl_s, Q in B. discriminate.
  - rewrite insert_many, H. split; (intros [A|A]; [auto|right]).
    + destruct A as [-> [-> A]]. eauto.
    + destruct A as [r [A E]]. inversion E; subst. auto.
  - rewrite filter_In, negb_true_iff, H. split; intros [A B]; split; auto.
    + destruct (existsb _ _) eqn:E; auto. apply existsb_exists in E. destruct E as [r [I E]]. apply row_eqb_spec in E. inversion E; subst. destruct B; auto.
    + intros [-> [-> I]]. assert (X : existsb (fun r => row_eqb (sec, pt, x) (sec, pt, r)) rs = true); [|congruence]. apply existsb_exists. exists x. split; auto. apply row_eqb_spec. auto.
Qed.
Lemma db_nodup : forall c db, NoDup db -> NoDup (db_do db c).
Proof.
  intros c db N. destruct c as [sec pt r|sec pt r|sec pt i vals|sec pt rs|sec pt rs]; cbn [db_do]; try (apply NoDup_filter; auto; fail).
  - apply insert_nodup, N.
  - revert db N. induction rs as [|r rs IH]; intros db N; auto. cbn [fold_left]. apply IH, insert_nodup, N.
Qed.
Lemma db_after : forall log db T, (forall s q x, T s q x <-> db_table db s q x) -> forall s q x, has_after T log s q x <-> db_table (fold_left db_do log db) s q x.
Proof. unfold has_after. induction log as [|c log IH]; intros db T H; cbn [fold_left]; auto. apply IH. apply db_obeys, H. Qed.
Lemma db_stays_nodup : forall log db, NoDup db -> NoDup (fold_left db_do log db).
Proof. induction log as [|c log IH]; intros db N; auto. apply IH, db_nodup, N. Qed.
Lemma is_policy_spec : forall s q x, is_policy (s, q, x) = true <-> (s = "p" \/ s = "g") /\ section_of q = s.
Proof. intros. unfold is_policy. cbn [fst snd]. rewrite andb_true_iff, orb_true_iff, !String.eqb_eq. tauto. Qed.

(** Such a storage is reliable. *)
Lemma db_reliable : forall db0, NoDup db0 -> reliable (db_table db0) (db_load db0).
Proof.
  intros db0 N log W. set (db := fold_left db_do log db0).
  assert (AF : forall s q x, has_after (db_table db0) log s q x <-> In (s, q, x) db) by (intros; apply db_after; intros; reflexivity).
  assert (ND : NoDup db) by (apply db_stays_nodup, N).
  exists (map (fun a => line_of (entry a)) (List.filter is_policy db)), (map entry (List.filter is_policy db)).
  split; [reflexivity|]. split; [|split; [|split]].
  - assert (F : forall a, In a (List.filter is_policy db) -> plain_entry (entry a)).
    { intros [[s q] x] I. apply filter_In in I. destruct I as [I P]. apply is_policy_spec in P. destruct P as [G SC].
      destruct (W s q x G) as [[PT _] PR]; [apply AF, I|]. split; [exact PT|]. split; [exact PR|]. cbn [entry fst snd]. destruct q as [|c q]; [exfalso; cbn in SC; destruct G; congruence|].
      exists c, q. split; auto. cbn in SC. destruct G as [-> | ->]; inversion SC; discriminate. }
    induction (List.filter is_policy db) as [|a l IH]; cbn [map]; [constructor|]. eapply lines_rule; [reflexivity| |apply IH; intros; apply F; right; auto].
    apply line_means_parse. symmetry. apply parse_line, F. left. reflexivity.
  - clear - ND. induction db as [|[[s q] x] db IH]; [constructor|]. inversion ND; subst. cbn [List.filter]. destruct (is_policy (s, q, x)) eqn:P; auto. cbn [map]. constructor; auto.
    intros I. apply in_map_iff in I. destruct I as [[[s' q'] x'] [E I]]. apply filter_In in I. destruct I as [I P']. apply is_policy_spec in P, P'. unfold entry in E. cbn in E. inversion E; subst.
    destruct P as [_ P], P' as [_ P']. rewrite P in P'. subst s'. contradiction.
  - intros kr I. apply in_map_iff in I. destruct I as [[[s q] x] [<- I]]. apply filter_In in I. destruct I as [_ P]. apply is_policy_spec in P. cbn [entry fst snd]. destruct P as [G ->]. exact G.
  - intros s q x G SC. rewrite AF, in_map_iff. split.
    + intros [[[s' q'] x'] [E I]]. unfold entry in E. cbn in E. inversion E; subst. apply filter_In in I. destruct I as [I P]. apply is_policy_spec in P. destruct P as [_ P]. rewrite P in *. exact I.
    + intros I. exists (s, q, x). split; auto. apply filter_In. split; auto. apply is_policy_spec. auto.
Qed.

(** ** Three enforcers *)
Fixpoint go (o : oracle) (w : cluster) (h : list (nat * call)) : option cluster :=
  match h with
  | [] => Some w
  | (i, c) :: h' => match node w i with
                    | Some e => match snd (run o c e) with Ok tt => go o (cluster_step o w (i, c)) h' | _ => None end
                    | None => None
                    end
  end.
Lemma go_works : forall o h w w', go o w h = Some w' -> works o w h w'.
Proof.
  induction h as [|[i c] h IH]; intros w w' G; cbn [go] in G; [injection G as <-; constructor|].
  destruct (node w i) as [e|] eqn:N; [|discriminate]. destruct (snd (run o c e)) as [[]|t|u] eqn:R; try discriminate. eapply works_step; eauto.
Qed.
Definition rows0 : list row := [("p", "p", r_alice); ("p", "p", r_bob); ("g", "g", ["alice"; "admin"])].
Definition member : enforcer := set_watcher (Some 0) (set_adapter (Some (AUser (mkUA true false true (fun _ _ => None) (db_load rows0) (fun _ => None) []))) ex).
Definition three : cluster := mkCluster [] [member; member; member].
Definition talk : list (nat * call) :=
  [(0, KAddPolicy "p" r_carol); (1, KAddGroupings "g" [["bob"; "admin"]; ["carol"; "admin"]]); (2, KDeleteUser "alice");
   (0, KEnforce "" (map DStr r_bob)); (1, KRemovePolicy "p" r_bob)].
(** A policy with these rules. *)
Definition has_just (e : enforcer) (ps gs : list rule) : bool :=
  let same l l' := forallb (fun r => existsb (rule_eqb r) l') l && forallb (fun r => existsb (rule_eqb r) l) l' in
  same (stored e "p" "p") ps && same (stored e "g" "g") gs.

Lemma rows0_nodup : NoDup rows0.
Proof. unfold rows0. repeat constructor; cbn; intuition discriminate. Qed.
Lemma ex_plain : forall r, ex_rules r -> plain_rule r.
Proof.
  assert (PV : forall v, smem "," v = false -> smem "010" v = false -> Trim v = v -> plain_value v).
  { intros v A B C. split; [apply smem_lacks; auto|]. split; [apply smem_lacks; auto|]. rewrite <- C. apply Trim_spec. }
  unfold ex_rules. intros r I. cbn in I. repeat (destruct I as [<-|I]; [split; [discriminate|]; repeat (apply Forall_cons; [apply PV; reflexivity|]); apply Forall_nil|]). destruct I.
Qed.
Lemma member_part : takes_part ex_rules (db_load rows0) member.
Proof.
  assert (PV : forall v, smem "," v = false -> smem "010" v = false -> Trim v = v -> plain_value v).
  { intros v A B C. split; [apply smem_lacks; auto|]. split; [apply smem_lacks; auto|]. rewrite <- C. apply Trim_spec. }
  constructor; try reflexivity.
  - eexists. split; [reflexivity|]. split; reflexivity.
  - discriminate.
  - intros sec pt [ -> | -> ] [a Q]; unfold get_ast in Q; cbn in Q;
      [destruct (String.eqb_spec pt "p") as [->|]|destruct (String.eqb_spec pt "g") as [->|]]; try discriminate; (split; [apply PV; reflexivity|reflexivity]).
  - intros sec pt. split; [revert sec pt; apply all_distinct_dec; repeat constructor; simpl; intuition discriminate|].
    apply all_rules_dec. unfold ex_rules. cbn. repeat (apply Forall_cons || apply Forall_nil); simpl; tauto.
Qed.
Lemma member_up : up_to_date ex_rules (db_table rows0) (db_load rows0) [] member.
Proof.
  split; [apply member_part|]. intros s q x [ -> | -> ]; unfold policy, stored, rules_in, get_ast, db_table, has_after; cbn [fold_left].
  - destruct (String.eqb_spec q "p") as [->|N].
    + cbn. split; [intros [<-|[<-|[]]]; auto|intros [E|[E|[E|[]]]]; inversion E; auto].
    + cbn. destruct (String.eqb_spec q "p"); [congruence|]. cbn. split; [intros []|intros [E|[E|[E|[]]]]; inversion E; congruence].
  - destruct (String.eqb_spec q "g") as [->|N].
    + cbn. split; [intros [<-|[]]; auto|intros [E|[E|[E|[]]]]; inversion E; auto].
    + cbn. destruct (String.eqb_spec q "g"); [congruence|]. cbn. split; [intros []|intros [E|[E|[E|[]]]]; inversion E; congruence].
Qed.
Lemma three_nodes : forall i e, node three i = Some e -> e = member.
Proof. intros [|[|[|[|i]]]] e E; cbn in E; try discriminate; injection E as <-; reflexivity. Qed.
Lemma three_in_step : in_step ex_rules (db_table rows0) (db_load rows0) three.
Proof.
  split.
  - intros i e N. apply three_nodes in N. subst. exact member_up.
  - intros i j e e' N N'. apply three_nodes in N, N'. subst. intros sec pt _. reflexivity.
Qed.
Example C93_case : (forall r r', ex_rules r -> ex_rules r' -> Permutation r r' -> r = r') /\ (forall r, ex_rules r -> plain_rule r) /\
  reliable (db_table rows0) (db_load rows0) /\ in_step ex_rules (db_table rows0) (db_load rows0) three /\
  Forall (fun a => cluster_call ex_rules (snd a)) talk /\
  exists w, works mini three talk w /\ (forall i, i < 3 -> exists e, node w i = Some e /\ has_just e [r_carol] [["bob"; "admin"]; ["carol"; "admin"]] = true).
Proof.
  split; [apply C41_case|]. split; [exact ex_plain|]. split; [apply db_reliable, rows0_nodup|]. split; [apply three_in_step|]. split.
  - unfold talk, ex_rules. repeat (apply Forall_cons; [split; [cbn [snd forwarded]; try (simpl; auto 10; fail)|exact Logic.I]|]); [|apply Forall_nil].
    split; [discriminate|]. split; [repeat constructor; simpl; intuition discriminate|]. repeat (apply Forall_cons; [simpl; auto 10|]). apply Forall_nil.
  - assert (X : match go mini three talk with Some w => forallb (fun i => match node w i with Some e => has_just e [r_carol] [["bob"; "admin"]; ["carol"; "admin"]] | None => false end) [0; 1; 2] | None => false end = true)
      by (vm_compute; reflexivity).
    destruct (go mini three talk) as [w|] eqn:G; [|discriminate]. exists w. split; [apply go_works, G|]. rewrite forallb_forall in X.
    intros i L. assert (I : In i [0; 1; 2]) by (cbn; lia). specialize (X i I). destruct (node w i) as [e|]; [|discriminate]. eauto.
Qed.
Example C93_joins_case : exists x, takes_part ex_rules (db_load rows0) x /\ told x = [] /\ same_types member x /\ stored x "p" "p" = [r_carol] /\ has_just (fst (LoadPolicy x)) [r_alice; r_bob] [["alice"; "admin"]] = true.
Proof.
  exists (set_adapter (e_adapter member) (set_watcher (Some 0) (linked_boot (rbac_model [r_carol] [])))). split; [|split; [reflexivity|split; [|split; reflexivity]]].
  - destruct member_part as [A S N W T R]. constructor; try exact A; try reflexivity; try discriminate.
    + intros sec pt G D. apply T; auto. destruct D as [a Q]. destruct G as [ -> | -> ]; unfold declared, get_ast in *; cbn in *; [destruct (String.eqb pt "p")|destruct (String.eqb pt "g")]; try discriminate; eauto.
    + intros sec pt. split; [revert sec pt; apply all_distinct_dec; repeat constructor; simpl; intuition discriminate|].
    apply all_rules_dec. unfold ex_rules. cbn. repeat (apply Forall_cons || apply Forall_nil); simpl; tauto.
  - intros sec pt [ -> | -> ]; unfold declared, get_ast; cbn; [destruct (String.eqb pt "p")|destruct (String.eqb pt "g")]; split; intros [a Q]; try discriminate; eauto.
Qed.

(** False for updates: the storage is not told of them, the others are, and load the rules
    the update has replaced. *)
Theorem C93_update_refuted : exists w w' e0 e1, in_step ex_rules (db_table rows0) (db_load rows0) w /\
  works mini w [(0, KUpdatePolicy "p" r_alice r_carol)] w' /\ node w' 0 = Some e0 /\ node w' 1 = Some e1 /\
  In r_carol (stored e0 "p" "p") /\ ~ In r_alice (stored e0 "p" "p") /\ ~ In r_carol (stored e1 "p" "p") /\ In r_alice (stored e1 "p" "p").
Proof.
  exists three. assert (X : match go mini three [(0, KUpdatePolicy "p" r_alice r_carol)] with
    | Some w => match node w 0, node w 1 with Some e0, Some e1 =>
        Some (stored e0 "p" "p", stored e1 "p" "p") | _, _ => None end | None => None end = Some ([r_bob; r_carol], [r_alice; r_bob])) by (vm_compute; reflexivity).
  destruct (go mini three [(0, KUpdatePolicy "p" r_alice r_carol)]) as [w|] eqn:G; [|discriminate]. destruct (node w 0) as [e0|] eqn:N0; [|discriminate]. destruct (node w 1) as [e1|] eqn:N1; [|discriminate].
  exists w, e0, e1. split; [apply three_in_step|]. split; [apply go_works, G|]. split; [exact N0|]. split; [exact N1|]. injection X as X0 X1. rewrite X0, X1.
  split; [cbn; auto|]. split; [cbn; intuition discriminate|]. split; [cbn; intuition discriminate|cbn; auto].
Qed.
(** ... and the next change made by another one takes the update back where it was made. *)
Theorem C93_update_lost_refuted : exists w w' e0, in_step ex_rules (db_table rows0) (db_load rows0) w /\
  works mini w [(0, KUpdatePolicy "p" r_alice r_carol); (1, KAddGrouping "g" ["bob"; "admin"])] w' /\ node w' 0 = Some e0 /\
  In r_alice (stored e0 "p" "p") /\ ~ In r_carol (stored e0 "p" "p").
Proof.
  exists three. assert (X : match go mini three [(0, KUpdatePolicy "p" r_alice r_carol); (1, KAddGrouping "g" ["bob"; "admin"])] with
    | Some w => match node w 0 with Some e0 => Some (stored e0 "p" "p") | _ => None end | None => None end = Some [r_alice; r_bob]) by (vm_compute; reflexivity).
  destruct (go mini three _) as [w|] eqn:G; [|discriminate]. destruct (node w 0) as [e0|] eqn:N0; [|discriminate].
  exists w, e0. split; [apply three_in_step|]. split; [apply go_works, G|]. split; [exact N0|]. injection X as X0. rewrite X0.
  split; [cbn; auto|cbn; intuition discriminate].
Qed.
(** False for batch removals: the rules given are added where the call is made (C18) and
    removed in the storage. *)
Theorem C93_remove_many_refuted : exists w w' e0 e1, in_step ex_rules (db_table rows0) (db_load rows0) w /\
  works mini w [(0, KRemovePolicies "p" [r_carol])] w' /\ node w' 0 = Some e0 /\ node w' 1 = Some e1 /\
  In r_carol (stored e0 "p" "p") /\ ~ In r_carol (stored e1 "p" "p").
Proof.
  exists three. assert (X : match go mini three [(0, KRemovePolicies "p" [r_carol])] with
    | Some w => match node w 0, node w 1 with Some e0, Some e1 =>
        Some (existsb (rule_eqb r_carol) (stored e0 "p" "p"), existsb (rule_eqb r_carol) (stored e1 "p" "p")) | _, _ => None end | None => None end = Some (true, false)) by (vm_compute; reflexivity).
  destruct (go mini three _) as [w|] eqn:G; [|discriminate]. destruct (node w 0) as [e0|] eqn:N0; [|discriminate]. destruct (node w 1) as [e1|] eqn:N1; [|discriminate].
  exists w, e0, e1. split; [apply three_in_step|]. split; [apply go_works, G|]. split; [exact N0|]. split; [exact N1|]. injection X as X0 X1.
  split.
  - apply existsb_exists in X0. destruct X0 as [r [I E]]. apply rule_eqb_true in E. subst. exact I.
  - intros I. assert (Y : existsb (rule_eqb r_carol) (stored e1 "p" "p") = true); [|congruence]. apply existsb_exists. exists r_carol. split; auto.
Qed.
(** False for the file adapter: it is not told of changes, so another enforcer that is told
    to load gets the old rules. *)
Theorem C93_file_refuted : exists e x e', e_adapter e = Some (AFile false "policy.csv") /\ e_auto_save e = true /\
  AddNamedPolicy "p" r_carol e = (e', Ok true) /\ heard e' = S (heard e) /\
  e_adapter x = Some (AFile false "policy.csv") /\ ~ In r_carol (stored (fst (LoadPolicy (set_fs (e_fs e') x))) "p" "p") /\ snd (LoadPolicy (set_fs (e_fs e') x)) = Ok tt.
Proof.
  set (e := set_watcher (Some 0) (fst (SavePolicy (set_adapter (Some (AFile false "policy.csv")) ex)))).
  exists e, e. eexists. split; [reflexivity|]. split; [reflexivity|]. split; [vm_compute; reflexivity|]. split; [reflexivity|]. split; [reflexivity|]. split; [vm_compute; intuition discriminate|vm_compute; reflexivity].
Qed.
Print Assumptions C93_update_refuted.
Print Assumptions C93_update_lost_refuted.
Print Assumptions C93_remove_many_refuted.
Print Assumptions C93_file_refuted.
