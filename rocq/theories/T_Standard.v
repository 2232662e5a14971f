(** Properties C69-C72: which requests the example models allow. *)
From Coq Require Import Permutation.
From Verif Require Import Base P_Base M_Util M_RoleManager M_Effector M_Model M_Persist M_Eval M_Evaluator M_Enforcer M_Matcher
  S_Effect S_Enforce S_Policy S_History S_Roles S_Sync S_Rbac S_Standard P_Enforce P_Decide P_Store P_Api P_History P_Roles P_Sync P_Ready P_Standard E_Examples
  T_Enforce T_Policy T_Rbac T_Users.
Local Arguments spell : simpl never.

(** ** The expression language of M_Matcher.v reads the texts so *)
Definition term_vars (t : term) : list string := match t with TmVar x => [x] | TmStr _ => [] end.
Fixpoint exp_vars (m : mexp) : list string :=
  match m with
  | MBool _ => []
  | MEq a b | MNe a b => term_vars a ++ term_vars b
  | MAnd a b | MOr a b => exp_vars a ++ exp_vars b
  | MNot a => exp_vars a
  | MCall _ args => flat_map term_vars args
  end.
Definition term_of (val : string -> string) (t : term) : string := match t with TmVar x => val x | TmStr s => s end.
Fixpoint exp_calls (m : mexp) (val : string -> string) : list (string * list string) :=
  match m with
  | MAnd a b | MOr a b => exp_calls a val ++ exp_calls b val
  | MNot a => exp_calls a val
  | MCall f args => [(f, map (term_of val) args)]
  | _ => []
  end.
Fixpoint exp_funs (m : mexp) : list (string * nat) :=
  match m with
  | MAnd a b | MOr a b => exp_funs a ++ exp_funs b
  | MNot a => exp_funs a
  | MCall f args => [(f, List.length args)]
  | _ => []
  end.
Fixpoint exp_sem (m : mexp) (val : string -> string) (R : string -> list string -> Prop) : Prop :=
  match m with
  | MBool b => b = true
  | MEq a b => term_of val a = term_of val b
  | MNe a b => term_of val a <> term_of val b
  | MAnd a b => exp_sem a val R /\ exp_sem b val R
  | MOr a b => exp_sem a val R \/ exp_sem b val R
  | MNot a => ~ exp_sem a val R
  | MCall f args => R f (map (term_of val) args)
  end.
Lemma term_ok_in : forall vars l t, (forall x, In x l -> vars x = true) -> (forall x, In x (term_vars t) -> In x l) -> term_ok vars t = true.
Proof. intros vars l [x|s] V I; simpl in *; auto. Qed.
Lemma exp_compiles : forall vars funs n l fs m, (forall x, In x l -> vars x = true) -> (forall f, In f fs -> funs f = Some n) ->
  (forall x, In x (exp_vars m) -> In x l) -> (forall f k, In (f, k) (exp_funs m) -> In f fs /\ k = n) -> mexp_ok vars funs m = true.
Proof.
  intros vars funs n l fs m V F. induction m; simpl; intros I C; auto.
  - rewrite !(term_ok_in vars l); auto; intros; apply I, in_or_app; auto.
  - rewrite !(term_ok_in vars l); auto; intros; apply I, in_or_app; auto.
  - rewrite IHm1, IHm2; auto; intros; try (apply I, in_or_app; auto); apply C, in_or_app; auto.
  - rewrite IHm1, IHm2; auto; intros; try (apply I, in_or_app; auto); apply C, in_or_app; auto.
  - destruct (C f (List.length args)) as [Fi <-]; auto. rewrite (F f Fi), Nat.eqb_refl, Bool.andb_true_r. apply forallb_forall.
    intros t T. apply (term_ok_in vars l); auto. intros x X. apply I. apply in_flat_map. eauto.
Qed.
Lemma term_value : forall v val l t, (forall x, In x l -> v x = Some (val x)) -> (forall x, In x (term_vars t) -> In x l) -> term_val v t = term_of val t.
Proof. intros v val l [x|s] V I; simpl in *; auto. rewrite V; auto. Qed.
Lemma exp_value : forall v g val l m, (forall x, In x l -> v x = Some (val x)) -> (forall x, In x (exp_vars m) -> In x l) ->
  (forall f args, In (f, args) (exp_calls m val) -> exists b, g f args = Some (Ok b)) ->
  exists b, mexp_val v g m = Ok b /\ (b = true <-> exp_sem m val (fun f args => g f args = Some (Ok true))).
Proof.
  intros v g val l m V. induction m; simpl; intros I C.
  - exists b. tauto.
  - eexists. split; [reflexivity|]. rewrite !(term_value v val l); auto; try (intros; apply I, in_or_app; auto). apply String.eqb_eq.
  - eexists. split; [reflexivity|]. rewrite !(term_value v val l); auto; try (intros; apply I, in_or_app; auto).
    rewrite Bool.negb_true_iff. apply String.eqb_neq.
  - destruct IHm1 as [x [E1 B1]]; [intros; apply I, in_or_app; auto|intros; apply C, in_or_app; auto|].
    destruct IHm2 as [y [E2 B2]]; [intros; apply I, in_or_app; auto|intros; apply C, in_or_app; auto|].
    rewrite E1, E2. exists (x && y). split; [destruct x; reflexivity|]. rewrite Bool.andb_true_iff. tauto.
  - destruct IHm1 as [x [E1 B1]]; [intros; apply I, in_or_app; auto|intros; apply C, in_or_app; auto|].
    destruct IHm2 as [y [E2 B2]]; [intros; apply I, in_or_app; auto|intros; apply C, in_or_app; auto|].
    rewrite E1, E2. exists (x || y). split; [destruct x; reflexivity|]. rewrite Bool.orb_true_iff. tauto.
  - destruct IHm as [x [E1 B1]]; auto. rewrite E1. exists (negb x). split; [reflexivity|]. rewrite <- B1. destruct x; simpl; intuition congruence.
  - destruct (C f (map (term_of val) args)) as [b E]; auto.
    replace (map (term_val v) args) with (map (term_of val) args).
    2:{ apply map_ext_in. intros t T. symmetry. apply (term_value v val l); auto. intros x X. apply I. apply in_flat_map. eauto. }
    rewrite E. exists b. split; auto. split; congruence.
Qed.
Lemma exp_local : forall val R R' m, (forall f args, In (f, args) (exp_calls m val) -> (R f args <-> R' f args)) -> (exp_sem m val R <-> exp_sem m val R').
Proof.
  induction m; simpl; intros H; try tauto.
  - rewrite IHm1, IHm2; [tauto| |]; intros; apply H, in_or_app; auto.
  - rewrite IHm1, IHm2; [tauto| |]; intros; apply H, in_or_app; auto.
  - apply H. auto.
Qed.
Lemma mini_reads : forall n t m d, parse_matcher t = Some m -> (forall x, In x (exp_vars m) -> In x (rd_vars d)) ->
  (forall f k, In (f, k) (exp_funs m) -> In f (rd_funs d) /\ k = n) ->
  (forall val f args, In (f, args) (exp_calls m val) -> In (f, args) (rd_calls d val)) ->
  (forall val R, rd_sem d val R <-> exp_sem m val R) -> reads mini n t d.
Proof.
  intros n t m d P V F C S. constructor.
  - intros vars funs Hv Hf. unfold mini. cbn [o_compiles]. rewrite P. eapply exp_compiles; eauto.
  - intros v g val Hv Hc _. unfold mini. cbn [o_value]. rewrite P.
    destruct (exp_value v g val (rd_vars d) m Hv V) as [b [E B]]; auto. exists b. split; auto. rewrite S. exact B.
  - intros val R R' H. rewrite !S. intros Q. apply (proj1 (exp_local val R R' m (fun f args I => H f args (C val f args I)))). exact Q.
Qed.
Ltac by_cases := simpl; intros; repeat match goal with H : _ \/ _ |- _ => destruct H | H : False |- _ => destruct H end; subst; simpl; tauto.
Ltac by_pairs := simpl; intros; repeat match goal with H : _ \/ _ |- _ => destruct H | H : False |- _ => destruct H end;
  match goal with H : _ = _ |- _ => inversion H; subst; simpl; tauto end.
Lemma mini_acl : forall n, reads mini n basic_matcher acl_reading.
Proof. intros. eapply mini_reads; [vm_compute; reflexivity|by_cases|by_cases|by_cases|]. intros. simpl. tauto. Qed.
Lemma mini_rbac : reads mini 2 rbac_matcher rbac_reading.
Proof. eapply mini_reads; [vm_compute; reflexivity|by_cases|by_pairs|by_pairs|]. intros. simpl. tauto. Qed.
Lemma mini_domain : reads mini 3 domain_text domain_reading.
Proof. eapply mini_reads; [vm_compute; reflexivity|by_cases|by_pairs|by_pairs|]. intros. simpl. tauto. Qed.
Lemma mini_resource : reads mini 2 resource_text resource_reading.
Proof. eapply mini_reads; [vm_compute; reflexivity|by_cases|by_pairs|by_pairs|]. intros. simpl. tauto. Qed.

(** ** C69: roles within domains *)
Definition fd := ["sub"; "dom"; "obj"; "act"].
Lemma domain_sem : forall sub dom obj act s d o' a R,
  rd_sem domain_reading (value_of fd [sub; dom; obj; act] fd [s; d; o'; a]) R <->
  R "g" [sub; s; dom] /\ dom = d /\ obj = o' /\ act = a.
Proof. intros. reflexivity. Qed.
Lemma four : forall r : rule, List.length r = 4 -> exists a b c d, r = [a; b; c; d].
Proof. intros [|a [|b [|c [|d [|]]]]] H; try discriminate. eauto. Qed.
Lemma three : forall r : rule, List.length r = 3 -> exists a b c, r = [a; b; c].
Proof. intros [|a [|b [|c [|]]]] H; try discriminate. eauto. Qed.

(** With the model of rbac_with_domains_model.conf, and through every history of calls in
    order, a request is allowed exactly if some rule of the domain grants the object and the
    action to a subject that is the requester or is reached from them by grouping rules of
    that domain.  [names] are the names in use. *)
Theorem C69_domain_decision : forall o names rules cs e0 e sub dom obj act,
  oracle_ext o -> reads o 3 domain_text domain_reading ->
  tidy names 3 rules -> managed o names 3 rules e0 ->
  standard o false fd fd (effect_text AllowOverride) domain_text e0 -> declared e0 "g" "g" ->
  Forall (safe_call rules) cs -> Forall (shaped_call 4) cs -> reaches o e0 cs e ->
  names (Some dom, sub) -> (forall s r, In (s :: r) (stored e "p" "p") -> names (Some dom, s)) ->
  (stored e "p" "p" <> [] \/ names (Some dom, "") /\ [dom; obj; act] <> [""; ""; ""]) ->
  exists b, snd (Enforce o (map DStr [sub; dom; obj; act]) e) = Ok b /\
    (b = true <-> exists s, In [s; dom; obj; act] (stored e "p" "p") /\ within (assigned e) (Some dom) (level_of e) sub s).
Proof.
  intros o names rules cs e0 e sub dom obj act X RD T M0 S0 G0 F1 F2 RE Nsub Np NE.
  assert (VARS : forall x, In x (rd_vars domain_reading) -> In x (r_names fd ++ p_names fd)) by by_cases.
  assert (DA0 : defines_all e0 domain_reading). { intros f [<-|[]]. exact G0. }
  destruct (std_reaches o names 3 rules false fd fd AllowOverride domain_text domain_reading X) with (cs := cs) (e := e0) (e' := e)
    as [M [S DA]]; auto; try discriminate.
  pose proof (std_candidates o fd fd AllowOverride domain_text e [sub; dom; obj; act] S) as SC.
  assert (C : forall r, In r (stored e "p" "p") -> calls_ok names domain_reading (value_of fd [sub; dom; obj; act] fd r)).
  { intros r I. destruct (four r) as [s [d [o' [a ->]]]]. { apply (st_fields _ _ _ _ _ _ _ S). auto. }
    split; [exact Logic.I|]. intros f args [Q|[]]. inversion Q; subst. split; [left; reflexivity|]. split; [exact Nsub|]. exact (Np _ _ I). }
  destruct (std_decision o names 3 rules false fd fd AllowOverride domain_text domain_reading X) with (e := e) (req := [sub; dom; obj; act])
    as [b [E B]]; auto; try discriminate; try (rewrite SC; auto).
  { intros f _. exact M. }
  { destruct NE as [NE|[N0 NE]]; auto. right. split.
    - split; [exact Logic.I|]. intros f args [Q|[]]. inversion Q; subst. split; [left; reflexivity|]. split; [exact Nsub|exact N0].
    - intros Q. apply NE. destruct (proj1 (domain_sem sub dom obj act "" "" "" "" (linked e)) Q) as [_ [-> [-> ->]]]. reflexivity. }
  exists b. split; auto. rewrite B, SC. unfold granted. split.
  - intros [r [I [Q _]]]. destruct (four r) as [s [d [o' [a ->]]]]. { apply (st_fields _ _ _ _ _ _ _ S). auto. }
    destruct (proj1 (domain_sem sub dom obj act s d o' a (linked e)) Q) as [L [-> [-> ->]]]. eauto.
  - intros [s [I L]]. exists [s; dom; obj; act]. repeat split; auto.
Qed.
Print Assumptions C69_domain_decision.
(** What other domains hold does not matter: enforcers that agree on the domain decide alike. *)
Theorem C69_other_domains_do_not_matter : forall o names rules e1 e2 sub dom obj act,
  oracle_ext o -> reads o 3 domain_text domain_reading -> tidy names 3 rules ->
  (forall e, In e [e1; e2] -> managed o names 3 rules e /\ standard o false fd fd (effect_text AllowOverride) domain_text e /\
     declared e "g" "g" /\ names (Some dom, "") /\ forall s r, In (s :: r) (stored e "p" "p") -> names (Some dom, s)) ->
  names (Some dom, sub) -> [dom; obj; act] <> [""; ""; ""] -> level_of e1 = level_of e2 ->
  (forall s o' a, In [s; dom; o'; a] (stored e1 "p" "p") <-> In [s; dom; o'; a] (stored e2 "p" "p")) ->
  (forall a b, assigned e1 (Some dom, a, b) <-> assigned e2 (Some dom, a, b)) ->
  exists b, snd (Enforce o (map DStr [sub; dom; obj; act]) e1) = Ok b /\ snd (Enforce o (map DStr [sub; dom; obj; act]) e2) = Ok b.
Proof.
  intros o names rules e1 e2 sub dom obj act X RD T H N NE L P G.
  assert (D : forall e, In e [e1; e2] -> exists b, snd (Enforce o (map DStr [sub; dom; obj; act]) e) = Ok b /\
    (b = true <-> exists s, In [s; dom; obj; act] (stored e "p" "p") /\ within (assigned e) (Some dom) (level_of e) sub s)).
  { intros e I. destruct (H e I) as [M [S [Gd [N0 Np]]]]. eapply (C69_domain_decision o names rules [] e e); eauto. constructor. }
  destruct (D e1) as [b1 [E1 B1]]; [simpl; auto|]. destruct (D e2) as [b2 [E2 B2]]; [simpl; auto|].
  assert (b1 = b2); [|subst; eauto].
  assert (K : b1 = true <-> b2 = true); [|destruct b1, b2; intuition congruence].
  rewrite B1, B2, L. split; intros [s [I W]]; exists s; (split; [apply P; auto|]); revert W; apply within_ext; intros; rewrite G; tauto.
Qed.
Print Assumptions C69_other_domains_do_not_matter.

(** A case: two domains in which alice has different roles. *)
Definition two_doms (x : node) : Prop := exists d, fst x = Some d /\ String.length d = 2.
Definition dom_rules : list rule :=
  [["alice"; "admin"; "d1"]; ["admin"; "root"; "d1"]; ["alice"; "user"; "d2"]; ["bob"; "admin"; "d2"]].
Definition dom_rule (r : rule) : Prop := In r dom_rules.
Definition dom_ps : list rule :=
  [["admin"; "d1"; "data1"; "read"]; ["root"; "d1"; "data1"; "write"]; ["admin"; "d2"; "data2"; "read"]; ["user"; "d2"; "data2"; "list"]].
Definition dorg : enforcer := linked_boot (domain_model dom_ps [["alice"; "admin"; "d1"]; ["alice"; "user"; "d2"]; ["bob"; "admin"; "d2"]]).
Lemma two_doms_apart : forall x y, two_doms x -> two_doms y -> spell x = spell y -> x = y.
Proof.
  assert (K : forall d d' s s', String.length d = String.length d' -> (d ++ s)%string = (d' ++ s')%string -> d = d' /\ s = s').
  { induction d; destruct d'; simpl; intros s s' L E; try discriminate; auto. inversion E; subst. inversion L as [L'].
    destruct (IHd d' s s' L') as [-> ->]; auto. }
  intros [[d|] s] [[d'|] s'] [u [U1 U2]] [v [V1 V2]] E; simpl in *; try discriminate. inversion U1; inversion V1; subst.
  unfold spell in E. destruct (K u v ("::" ++ s)%string ("::" ++ s')%string) as [-> Q]; [congruence|exact E|].
  change (String ":" (String ":" s) = String ":" (String ":" s')) in Q. inversion Q. reflexivity.
Qed.
Lemma dom_tidy : tidy two_doms 3 dom_rule.
Proof.
  constructor; auto.
  - apply two_doms_apart.
  - intros r H. unfold dom_rule, dom_rules in H.
    cases_in H; (split; [reflexivity|]); do 3 eexists; (split; [reflexivity|]); split; eexists; split; reflexivity.
  - intros r r' H H' P. unfold dom_rule, dom_rules in *.
    assert (K : forall x, In x r <-> In x r') by (intros; split; apply Permutation_in; auto using Permutation_sym).
    cases_in H; cases_in H'; try reflexivity; exfalso;
      first [destruct (proj1 (K "alice")) as [|[|[|[]]]]; simpl; auto; discriminate
            |destruct (proj2 (K "alice")) as [|[|[|[]]]]; simpl; auto; discriminate
            |destruct (proj1 (K "d1")) as [|[|[|[]]]]; simpl; auto; discriminate
            |destruct (proj2 (K "d1")) as [|[|[|[]]]]; simpl; auto; discriminate].
Qed.
Lemma dorg_managed : forall o, managed o two_doms 3 dom_rule dorg.
Proof.
  intros o. apply (managed_built o two_doms 3 dom_rule
    (boot (domain_model dom_ps [["alice"; "admin"; "d1"]; ["alice"; "user"; "d2"]; ["bob"; "admin"; "d2"]]))); try reflexivity.
  - eexists. split; reflexivity.
  - split.
    + repeat constructor; simpl; tauto.
    + intros pt a H. simpl in H. destruct (String.eqb pt "g") eqn:E; [|discriminate]. inversion H; subst. split; [reflexivity|].
      simpl. unfold dom_rule, dom_rules. repeat constructor; simpl; tauto.
Qed.
Lemma dorg_standard : forall o, standard o false fd fd (effect_text AllowOverride) domain_text dorg.
Proof.
  intros o. constructor; try reflexivity; try discriminate.
  - split; [|exact I]. prove_declares.
  - intros r I. vm_compute in I. cases_in I; reflexivity.
Qed.
Definition dorg_history : list call :=
  [KAddGrouping "g" ["admin"; "root"; "d1"]; KEnforce "" (reqs ["bob"; "d2"; "data2"; "read"]); KAddPolicy "p" ["bob"; "d2"; "data3"; "read"];
   KRemoveGrouping "g" ["bob"; "admin"; "d2"]].
Example C69_case : exists e, reaches mini dorg dorg_history e /\ Forall (safe_call dom_rule) dorg_history /\ Forall (shaped_call 4) dorg_history /\
  reads mini 3 domain_text domain_reading /\ tidy two_doms 3 dom_rule /\ managed mini two_doms 3 dom_rule dorg /\
  standard mini false fd fd (effect_text AllowOverride) domain_text dorg /\ declared dorg "g" "g" /\
  snd (Enforce mini (reqs ["alice"; "d1"; "data1"; "write"]) dorg) = Ok false /\ snd (Enforce mini (reqs ["alice"; "d1"; "data1"; "write"]) e) = Ok true /\
  snd (Enforce mini (reqs ["alice"; "d2"; "data2"; "read"]) e) = Ok false /\ snd (Enforce mini (reqs ["alice"; "d2"; "data2"; "list"]) e) = Ok true /\
  snd (Enforce mini (reqs ["bob"; "d2"; "data2"; "read"]) dorg) = Ok true /\ snd (Enforce mini (reqs ["bob"; "d2"; "data2"; "read"]) e) = Ok false.
Proof.
  eexists. split.
  { unfold dorg_history. repeat (eapply reach_step; [vm_compute; reflexivity|discriminate|]). apply reach_nil. }
  split. { unfold dorg_history. repeat (apply Forall_cons; [simpl; unfold dom_rule, dom_rules; simpl; tauto|]). apply Forall_nil. }
  split. { unfold dorg_history. repeat (apply Forall_cons; [simpl; auto|]); [|apply Forall_nil].
    split; [reflexivity|]. exists ["bob"; "d2"; "data2"; "read"]. reflexivity. }
  split; [apply mini_domain|]. split; [apply dom_tidy|]. split; [apply dorg_managed|]. split; [apply dorg_standard|].
  split; [eexists; reflexivity|]. repeat split; vm_compute; reflexivity.
Qed.

(** ** C70: access control lists *)
Lemma roleless_reaches : forall o rules hashed rf pf eft mat cs e e', oracle_ext o -> mat <> "" -> HasEval mat = false ->
  Forall (safe_call rules) cs -> Forall (shaped_call (List.length pf)) cs -> reaches o e cs e' ->
  roleless e -> standard o hashed rf pf eft mat e -> standard o hashed rf pf eft mat e' /\ roleless e'.
Proof.
  intros o rules hashed rf pf eft mat cs e e' X NM NE F1 F2 RE. induction RE; auto. intros N S. inversion F1; inversion F2; subst.
  replace e1 with (fst (run o c e)) in * by (rewrite H; reflexivity).
  destruct (roleless_run o rules hashed rf pf eft mat c e) as [S' N']; auto.
Qed.
Lemma acl_sem : forall sub obj act s o' a R,
  rd_sem acl_reading (value_of f3 [sub; obj; act] f3 [s; o'; a]) R <-> sub = s /\ obj = o' /\ act = a.
Proof. intros. reflexivity. Qed.
Lemma no_names_tidy : tidy (fun _ => False) 2 (fun _ => False).
Proof. constructor; auto; intros; tauto. Qed.

(** With the model of basic_model.conf, whose rules the library keeps in a hash set (and in
    a vector after a filtered removal), a request is allowed exactly if it is a stored rule;
    it stays so through every history of calls.  The values must not be all empty and hold no
    NUL characters. *)
Theorem C70_acl_decision_partial : forall o rules cs e0 e sub obj act,
  oracle_ext o -> reads o 2 basic_matcher acl_reading ->
  standard o true f3 f3 (effect_text AllowOverride) basic_matcher e0 -> roleless e0 ->
  Forall (safe_call rules) cs -> Forall (shaped_call 3) cs -> reaches o e0 cs e ->
  map c_str [sub; obj; act] = [sub; obj; act] -> [sub; obj; act] <> [""; ""; ""] ->
  exists b, snd (Enforce o (map DStr [sub; obj; act]) e) = Ok b /\ (b = true <-> In [sub; obj; act] (stored e "p" "p")).
Proof.
  intros o rules cs e0 e sub obj act X RD S0 N0 F1 F2 RE CS NB.
  destruct (roleless_reaches o rules true f3 f3 (effect_text AllowOverride) basic_matcher cs e0 e) as [S N]; auto; try discriminate.
  assert (VARS : forall x, In x (rd_vars acl_reading) -> In x (r_names f3 ++ p_names f3)) by by_cases.
  destruct (std_decision o (fun _ => False) 2 (fun _ => False) true f3 f3 AllowOverride basic_matcher acl_reading X) with (e := e) (req := [sub; obj; act])
    as [b [E B]]; auto; try discriminate.
  { apply no_names_tidy. }
  { intros f []. }
  { intros f []. }
  { intros r _. split; [exact Logic.I|]. intros f args []. }
  { right. split; [split; [exact Logic.I|intros f args []]|]. intros Q. apply NB. destruct (proj1 (acl_sem sub obj act "" "" "" (linked e)) Q) as [-> [-> ->]]. reflexivity. }
  exists b. split; auto. rewrite B. unfold granted. split.
  - intros [r [I [Q _]]]. apply candidate_stored in I. destruct (three r) as [s [o' [a ->]]]. { apply (st_fields _ _ _ _ _ _ _ S). auto. }
    destruct (proj1 (acl_sem sub obj act s o' a (linked e)) Q) as [-> [-> ->]]. auto.
  - intros I. exists [sub; obj; act]. split; [|repeat split]. unfold candidates. rewrite CS. change (p_rules (e_model e)) with (stored e "p" "p").
    destruct (p_indexed (e_model e)); auto.
    replace (existsb (rule_eqb [sub; obj; act]) (stored e "p" "p")) with true; [left; reflexivity|].
    symmetry. apply existsb_exists. exists [sub; obj; act]. split; auto. apply rule_eqb_refl.
Qed.
Print Assumptions C70_acl_decision_partial.
Definition acl_rules : list rule := [["alice"; "data1"; "read"]; ["bob"; "data2"; "write"]].
Definition acl : enforcer := boot (basic_hash_model acl_rules).
Lemma acl_standard : forall o, standard o true f3 f3 (effect_text AllowOverride) basic_matcher acl.
Proof.
  intros o. constructor; try reflexivity.
  - apply basic_hash_ready.
  - intros r I. vm_compute in I. cases_in I; reflexivity.
Qed.
Lemma acl_roleless : roleless acl.
Proof. intros f [a A]. unfold get_ast in A. simpl in A. discriminate. Qed.
Definition acl_history : list call :=
  [KAddPolicy "p" ["carol"; "data3"; "read"]; KEnforce "" (reqs ["alice"; "data1"; "read"]); KRemoveFiltered "p" 0 ["bob"];
   KAddPolicies "p" [["dave"; "data1"; "read"]; ["dave"; "data1"; "write"]]; KUpdatePolicy "p" ["alice"; "data1"; "read"] ["alice"; "data1"; "write"]].
Example C70_case : exists e, reaches mini acl acl_history e /\ Forall (safe_call (fun _ => False)) acl_history /\ Forall (shaped_call 3) acl_history /\
  reads mini 2 basic_matcher acl_reading /\ standard mini true f3 f3 (effect_text AllowOverride) basic_matcher acl /\ roleless acl /\
  p_indexed (e_model acl) = true /\ p_indexed (e_model e) = false /\
  stored e "p" "p" = [["carol"; "data3"; "read"]; ["dave"; "data1"; "read"]; ["dave"; "data1"; "write"]; ["alice"; "data1"; "write"]] /\
  snd (Enforce mini (reqs ["alice"; "data1"; "read"]) acl) = Ok true /\ snd (Enforce mini (reqs ["alice"; "data1"; "read"]) e) = Ok false /\
  snd (Enforce mini (reqs ["dave"; "data1"; "write"]) e) = Ok true.
Proof.
  eexists. split.
  { unfold acl_history. repeat (eapply reach_step; [vm_compute; reflexivity|discriminate|]). apply reach_nil. }
  split. { unfold acl_history. repeat (apply Forall_cons; [simpl; tauto|]). apply Forall_nil. }
  split. { unfold acl_history. repeat (apply Forall_cons; [simpl; auto|]); [|apply Forall_nil].
    split; [reflexivity|]. exists ["alice"; "data1"; "read"]. reflexivity. }
  split; [apply mini_acl|]. split; [apply acl_standard|]. split; [apply acl_roleless|]. repeat split; vm_compute; reflexivity.
Qed.
(** The exceptions are real: three empty values are allowed although they are no rule, and
    two requests that differ after a NUL character only are not told apart by the index. *)
Theorem C70_blank_request_refuted : exists e, standard mini true f3 f3 (effect_text AllowOverride) basic_matcher e /\ roleless e /\
  ~ In [""; ""; ""] (stored e "p" "p") /\ snd (Enforce mini (reqs [""; ""; ""]) e) = Ok true.
Proof.
  exists acl. split; [apply acl_standard|]. split; [apply acl_roleless|]. split; [|vm_compute; reflexivity].
  intros I. vm_compute in I. intuition discriminate.
Qed.
Definition nul_alice : string := ("ali" ++ String "000" "ce")%string.
Theorem C70_nul_rule_refuted : exists e, standard mini true f3 f3 (effect_text AllowOverride) basic_matcher e /\ roleless e /\
  In [nul_alice; "data1"; "read"] (stored e "p" "p") /\ snd (Enforce mini (reqs [nul_alice; "data1"; "read"]) e) = Ok false.
Proof.
  exists (boot (basic_hash_model [[nul_alice; "data1"; "read"]])). split; [|split; [|split]].
  - constructor; try reflexivity.
    + apply basic_hash_ready.
    + intros r I. vm_compute in I. cases_in I; reflexivity.
  - intros f [a A]. unfold get_ast in A. simpl in A. discriminate.
  - left. reflexivity.
  - vm_compute. reflexivity.
Qed.
Print Assumptions C70_blank_request_refuted.
Print Assumptions C70_nul_rule_refuted.

(** ** C71: roles with allow and deny rules *)
Lemma deny_sem : forall sub obj act s o' a f R,
  rd_sem rbac_reading (value_of f3 [sub; obj; act] f4 [s; o'; a; f]) R <-> R "g" [sub; s] /\ obj = o' /\ act = a.
Proof. intros. reflexivity. Qed.
Lemma deny_effect : forall s o' a f, effect_of f4 [s; o'; a; f] = if String.eqb f "allow" then Allow else if String.eqb f "deny" then Deny else Indeterminate.
Proof. reflexivity. Qed.

(** Some rule with the effect [f] concerns the object and the action, for a role of the subject. *)
Definition rule_says (e : enforcer) (sub obj act f : string) : Prop :=
  exists s, In [s; obj; act; f] (stored e "p" "p") /\ within (assigned e) None (level_of e) sub s.
Lemma deny_decision : forall pe o names rules cs e0 e sub obj act,
  oracle_ext o -> reads o 2 rbac_matcher rbac_reading ->
  tidy names 2 rules -> managed o names 2 rules e0 ->
  standard o false f3 f4 (effect_text pe) rbac_matcher e0 -> declared e0 "g" "g" ->
  Forall (safe_call rules) cs -> Forall (shaped_call 4) cs -> reaches o e0 cs e ->
  names (None, sub) -> (forall s r, In (s :: r) (stored e "p" "p") -> names (None, s)) ->
  (stored e "p" "p" <> [] \/ names (None, "") /\ [obj; act] <> [""; ""]) ->
  (forall r, In r (stored e "p" "p") -> List.length r = 4) /\
  exists b, snd (Enforce o (map DStr [sub; obj; act]) e) = Ok b /\
    (b = true <-> granted pe (fun r => rd_sem rbac_reading (value_of f3 [sub; obj; act] f4 r) (linked e)) (effect_of f4) (stored e "p" "p")).
Proof.
  intros pe o names rules cs e0 e sub obj act X RD T M0 S0 G0 F1 F2 RE Nsub Np NE.
  assert (VARS : forall x, In x (rd_vars rbac_reading) -> In x (r_names f3 ++ p_names f4)) by by_cases.
  assert (DA0 : defines_all e0 rbac_reading). { intros f [<-|[]]. exact G0. }
  destruct (std_reaches o names 2 rules false f3 f4 pe rbac_matcher rbac_reading X) with (cs := cs) (e := e0) (e' := e)
    as [M [S DA]]; auto; try discriminate.
  split; [apply (st_fields _ _ _ _ _ _ _ S)|].
  pose proof (std_candidates o f3 f4 pe rbac_matcher e [sub; obj; act] S) as SC.
  assert (C : forall r, In r (stored e "p" "p") -> calls_ok names rbac_reading (value_of f3 [sub; obj; act] f4 r)).
  { intros r I. destruct (four r) as [s [o' [a [f' ->]]]]. { apply (st_fields _ _ _ _ _ _ _ S). auto. }
    split; [exact Logic.I|]. intros f args [Q|[]]. inversion Q; subst. split; [left; reflexivity|]. split; [exact Nsub|]. exact (Np _ _ I). }
  rewrite <- SC.
  apply (std_decision o names 2 rules false f3 f4 pe rbac_matcher rbac_reading X); auto; try discriminate; try (rewrite SC; auto).
  { intros f _. exact M. }
  destruct NE as [NE|[N0 NE]]; auto. right. split.
  - split; [exact Logic.I|]. intros f args [Q|[]]. inversion Q; subst. split; [left; reflexivity|]. split; [exact Nsub|exact N0].
  - intros Q. apply NE. destruct (proj1 (deny_sem sub obj act "" "" "" "" (linked e)) Q) as [_ [-> ->]]. reflexivity.
Qed.
Lemma says_rule : forall e sub obj act f x, (forall r, In r (stored e "p" "p") -> List.length r = 4) ->
  (f = "allow" /\ x = Allow \/ f = "deny" /\ x = Deny) ->
  ((exists r, In r (stored e "p" "p") /\ rd_sem rbac_reading (value_of f3 [sub; obj; act] f4 r) (linked e) /\ effect_of f4 r = x) <->
   rule_says e sub obj act f).
Proof.
  intros e sub obj act f x L FX. split.
  - intros [r [I [Q F]]]. destruct (four r (L r I)) as [s [o' [a [f' ->]]]].
    destruct (proj1 (deny_sem sub obj act s o' a f' (linked e)) Q) as [W [-> ->]]. exists s. split; [|exact W].
    rewrite deny_effect in F. replace f with f'; auto.
    destruct (String.eqb_spec f' "allow"); [|destruct (String.eqb_spec f' "deny")]; destruct FX as [[-> ->]|[-> ->]]; try discriminate; auto.
  - intros [s [I W]]. exists [s; obj; act; f]. split; auto. split; [apply deny_sem; auto|]. rewrite deny_effect.
    destruct FX as [[-> ->]|[-> ->]]; reflexivity.
Qed.

(** rbac_with_deny_model.conf: some rule allows it and no rule denies it. *)
Theorem C71_deny_decision : forall o names rules cs e0 e sub obj act,
  oracle_ext o -> reads o 2 rbac_matcher rbac_reading ->
  tidy names 2 rules -> managed o names 2 rules e0 ->
  standard o false f3 f4 (effect_text AllowAndDeny) rbac_matcher e0 -> declared e0 "g" "g" ->
  Forall (safe_call rules) cs -> Forall (shaped_call 4) cs -> reaches o e0 cs e ->
  names (None, sub) -> (forall s r, In (s :: r) (stored e "p" "p") -> names (None, s)) ->
  (stored e "p" "p" <> [] \/ names (None, "") /\ [obj; act] <> [""; ""]) ->
  exists b, snd (Enforce o (map DStr [sub; obj; act]) e) = Ok b /\
    (b = true <-> rule_says e sub obj act "allow" /\ ~ rule_says e sub obj act "deny").
Proof.
  intros o names rules cs e0 e sub obj act X RD T M0 S0 G0 F1 F2 RE N1 N2 N3.
  destruct (deny_decision AllowAndDeny o names rules cs e0 e sub obj act) as [L [b [E B]]]; auto.
  exists b. split; auto. rewrite B. unfold granted.
  rewrite (says_rule e sub obj act "allow" Allow L), (says_rule e sub obj act "deny" Deny L); auto. tauto.
Qed.
(** rbac_with_not_deny_model.conf: no rule denies it. *)
Theorem C71_not_deny_decision : forall o names rules cs e0 e sub obj act,
  oracle_ext o -> reads o 2 rbac_matcher rbac_reading ->
  tidy names 2 rules -> managed o names 2 rules e0 ->
  standard o false f3 f4 (effect_text DenyOverride) rbac_matcher e0 -> declared e0 "g" "g" ->
  Forall (safe_call rules) cs -> Forall (shaped_call 4) cs -> reaches o e0 cs e ->
  names (None, sub) -> (forall s r, In (s :: r) (stored e "p" "p") -> names (None, s)) ->
  (stored e "p" "p" <> [] \/ names (None, "") /\ [obj; act] <> [""; ""]) ->
  exists b, snd (Enforce o (map DStr [sub; obj; act]) e) = Ok b /\ (b = true <-> ~ rule_says e sub obj act "deny").
Proof.
  intros o names rules cs e0 e sub obj act X RD T M0 S0 G0 F1 F2 RE N1 N2 N3.
  destruct (deny_decision DenyOverride o names rules cs e0 e sub obj act) as [L [b [E B]]]; auto.
  exists b. split; auto. rewrite B. unfold granted. rewrite (says_rule e sub obj act "deny" Deny L); auto. tauto.
Qed.
(** priority_model.conf: the first rule for the request that says allow or deny says allow. *)
Theorem C71_priority_decision : forall o names rules cs e0 e sub obj act,
  oracle_ext o -> reads o 2 rbac_matcher rbac_reading ->
  tidy names 2 rules -> managed o names 2 rules e0 ->
  standard o false f3 f4 (effect_text Priority) rbac_matcher e0 -> declared e0 "g" "g" ->
  Forall (safe_call rules) cs -> Forall (shaped_call 4) cs -> reaches o e0 cs e ->
  names (None, sub) -> (forall s r, In (s :: r) (stored e "p" "p") -> names (None, s)) ->
  (stored e "p" "p" <> [] \/ names (None, "") /\ [obj; act] <> [""; ""]) ->
  exists b, snd (Enforce o (map DStr [sub; obj; act]) e) = Ok b /\
    (b = true <-> exists pre s post, stored e "p" "p" = pre ++ [s; obj; act; "allow"] :: post /\
       within (assigned e) None (level_of e) sub s /\
       forall s' f, In [s'; obj; act; f] pre -> within (assigned e) None (level_of e) sub s' -> f <> "allow" /\ f <> "deny").
Proof.
  intros o names rules cs e0 e sub obj act X RD T M0 S0 G0 F1 F2 RE N1 N2 N3.
  destruct (deny_decision Priority o names rules cs e0 e sub obj act) as [L [b [E B]]]; auto.
  exists b. split; auto. rewrite B. unfold granted. split.
  - intros [pre [r [post [EQ [Q [F P]]]]]]. destruct (four r) as [s [o' [a [f' ->]]]]. { apply L. rewrite EQ. apply in_elt. }
    destruct (proj1 (deny_sem sub obj act s o' a f' (linked e)) Q) as [W [-> ->]]. rewrite deny_effect in F.
    destruct (String.eqb_spec f' "allow") as [Ef|Nf]; [rewrite Ef in *; clear Ef|destruct (String.eqb f' "deny"); discriminate].
    exists pre, s, post. split; auto. split; auto. intros s' f I W'. specialize (P [s'; o'; a; f] I).
    rewrite deny_effect in P. assert (K : rd_sem rbac_reading (value_of f3 [sub; o'; a] f4 [s'; o'; a; f]) (linked e)) by (apply deny_sem; auto).
    specialize (P K). destruct (String.eqb_spec f "allow"); [discriminate|]. destruct (String.eqb_spec f "deny"); [discriminate|]. auto.
  - intros [pre [s [post [EQ [W P]]]]]. exists pre, [s; obj; act; "allow"], post. split; auto. split; [apply deny_sem; auto|]. split; auto.
    intros r I Q. destruct (four r) as [s' [o' [a [f' ->]]]]. { apply L. rewrite EQ. apply in_or_app. auto. }
    destruct (proj1 (deny_sem sub obj act s' o' a f' (linked e)) Q) as [W' [-> ->]]. rewrite deny_effect.
    destruct (P s' f' I W') as [A D]. apply String.eqb_neq in A, D. rewrite A, D. reflexivity.
Qed.
Print Assumptions C71_deny_decision.
Print Assumptions C71_not_deny_decision.
Print Assumptions C71_priority_decision.

Definition deny_model (pe : policy_effect) (ps gs : list rule) : model :=
  [("r", [("r", ast "r" "sub, obj, act" r3 (Vec []))]);
   ("p", [("p", ast "p" "sub, obj, act, eft" p4 (Vec ps))]);
   ("g", [("g", ast "g" "_, _" [] (Vec gs))]);
   ("e", [("e", ast "e" (effect_text pe) [] (Vec []))]);
   ("m", [("m", ast "m" rbac_matcher [] (Vec []))])].
Definition deny_ps : list rule :=
  [["admin"; "data1"; "read"; "allow"]; ["alice"; "data1"; "write"; "deny"]; ["root"; "data1"; "write"; "allow"]; ["bob"; "data2"; "write"; "allow"]].
Definition deny_org (pe : policy_effect) : enforcer := linked_boot (deny_model pe deny_ps org_gs).
Lemma deny_managed : forall pe o, managed o plain_names 2 org_rule (deny_org pe).
Proof.
  intros pe o. apply (managed_built o plain_names 2 org_rule (boot (deny_model pe deny_ps org_gs))); try reflexivity.
  - eexists. split; reflexivity.
  - split.
    + repeat constructor; simpl; tauto.
    + intros pt a H. simpl in H. destruct (String.eqb pt "g") eqn:E; [|discriminate]. inversion H; subst. split; [reflexivity|].
      simpl. unfold org_rule, org_rules. repeat constructor; simpl; tauto.
Qed.
Lemma deny_standard : forall pe o, standard o false f3 f4 (effect_text pe) rbac_matcher (deny_org pe).
Proof.
  intros pe o. constructor; try reflexivity; try discriminate.
  - split; [|exact I]. prove_declares.
  - intros r I. vm_compute in I. cases_in I; reflexivity.
Qed.
Definition deny_history : list call :=
  [KAddPolicy "p" ["staff"; "data2"; "read"; "allow"]; KEnforce "" (reqs ["alice"; "data1"; "write"]);
   KUpdatePolicy "p" ["alice"; "data1"; "write"; "deny"] ["bob"; "data1"; "write"; "deny"]; KRemoveGrouping "g" ["alice"; "admin"]; KAddGrouping "g" ["alice"; "admin"]].
Example C71_case : Forall (safe_call org_rule) deny_history /\ Forall (shaped_call 4) deny_history /\ reads mini 2 rbac_matcher rbac_reading /\
  forall pe, pe <> AllowOverride -> exists e, reaches mini (deny_org pe) deny_history e /\ managed mini plain_names 2 org_rule (deny_org pe) /\
     standard mini false f3 f4 (effect_text pe) rbac_matcher (deny_org pe) /\ declared (deny_org pe) "g" "g" /\
     snd (Enforce mini (reqs ["alice"; "data1"; "write"]) (deny_org pe)) = Ok false /\
     snd (Enforce mini (reqs ["alice"; "data1"; "write"]) e) = Ok true.
Proof.
  split. { unfold deny_history. repeat (apply Forall_cons; [simpl; unfold org_rule, org_rules; simpl; tauto|]). apply Forall_nil. }
  split. { unfold deny_history. repeat (apply Forall_cons; [simpl; auto|]); [|apply Forall_nil].
    split; [reflexivity|]. exists ["alice"; "data1"; "write"]. reflexivity. }
  split; [apply mini_rbac|]. intros pe NA.
  destruct pe; [congruence| | |]; (eexists; split;
    [unfold deny_history; repeat (eapply reach_step; [vm_compute; reflexivity|discriminate|]); apply reach_nil|
     split; [apply deny_managed|]; split; [apply deny_standard|]; split; [eexists; reflexivity|]; split; vm_compute; reflexivity]).
Qed.

(** ** C72: roles of subjects and of objects *)
Lemma resource_sem : forall sub obj act s o' a R,
  rd_sem resource_reading (value_of f3 [sub; obj; act] f3 [s; o'; a]) R <-> R "g" [sub; s] /\ R "g2" [obj; o'] /\ act = a.
Proof. intros. reflexivity. Qed.
(** With rbac_with_resource_roles_model.conf a request is allowed exactly if some rule
    grants the action on an object role of the object to a role of the subject.  Both kinds of
    links are taken from all grouping rules (the definitions share them, see C35). *)
Theorem C72_resource_decision : forall o names rules cs e0 e sub obj act,
  oracle_ext o -> reads o 2 resource_text resource_reading ->
  tidy names 2 rules -> managed o names 2 rules e0 ->
  standard o false f3 f3 (effect_text AllowOverride) resource_text e0 -> declared e0 "g" "g" -> declared e0 "g" "g2" ->
  Forall (safe_call rules) cs -> Forall (shaped_call 3) cs -> reaches o e0 cs e ->
  names (None, sub) -> names (None, obj) ->
  (forall s o' r, In (s :: o' :: r) (stored e "p" "p") -> names (None, s) /\ names (None, o')) ->
  (stored e "p" "p" <> [] \/ names (None, "") /\ act <> "") ->
  exists b, snd (Enforce o (map DStr [sub; obj; act]) e) = Ok b /\
    (b = true <-> exists s o', In [s; o'; act] (stored e "p" "p") /\
       within (assigned e) None (level_of e) sub s /\ within (assigned e) None (level_of e) obj o').
Proof.
  intros o names rules cs e0 e sub obj act X RD T M0 S0 G0 G2 F1 F2 RE Nsub Nobj Np NE.
  assert (VARS : forall x, In x (rd_vars resource_reading) -> In x (r_names f3 ++ p_names f3)) by by_cases.
  assert (DA0 : defines_all e0 resource_reading). { intros f [<-|[<-|[]]]; auto. }
  destruct (std_reaches o names 2 rules false f3 f3 AllowOverride resource_text resource_reading X) with (cs := cs) (e := e0) (e' := e)
    as [M [S DA]]; auto; try discriminate.
  pose proof (std_candidates o f3 f3 AllowOverride resource_text e [sub; obj; act] S) as SC.
  assert (C : forall s o' a, names (None, s) -> names (None, o') -> calls_ok names resource_reading (value_of f3 [sub; obj; act] f3 [s; o'; a])).
  { intros s o' a Ns No. split; [exact Logic.I|]. intros f args [Q|[Q|[]]]; inversion Q; subst; (split; [simpl; auto|]); split; auto. }
  destruct (std_decision o names 2 rules false f3 f3 AllowOverride resource_text resource_reading X) with (e := e) (req := [sub; obj; act])
    as [b [E B]]; auto; try discriminate.
  { intros f _. exact M. }
  { rewrite SC. intros r I. destruct (three r) as [s [o' [a ->]]]. { apply (st_fields _ _ _ _ _ _ _ S). auto. }
    destruct (Np _ _ _ I). apply C; auto. }
  { rewrite SC. destruct NE as [NE|[N0 NE]]; auto. right. split; [exact (C "" "" "" N0 N0)|].
    intros Q. apply NE. destruct (proj1 (resource_sem sub obj act "" "" "" (linked e)) Q) as [_ [_ ->]]. reflexivity. }
  exists b. split; auto. rewrite B, SC. unfold granted. split.
  - intros [r [I [Q _]]]. destruct (three r) as [s [o' [a ->]]]. { apply (st_fields _ _ _ _ _ _ _ S). auto. }
    destruct (proj1 (resource_sem sub obj act s o' a (linked e)) Q) as [L1 [L2 ->]]. exists s, o'. auto.
  - intros [s [o' [I [L1 L2]]]]. exists [s; o'; act]. repeat split; auto.
Qed.

(** When no name is used both for subjects and for objects, the links of g decide about
    subjects and those of g2 about objects. *)
Definition listed (e : enforcer) (pt : string) (l : link) : Prop := exists r, In r (stored e "g" pt) /\ link_of r = Some l.
Theorem C72_separate_names : forall e (subjects objects : string -> Prop) n x y,
  (forall z, subjects z -> objects z -> False) ->
  (forall pt a b, listed e pt (None, a, b) -> (pt = "g" /\ subjects a /\ subjects b) \/ (pt = "g2" /\ objects a /\ objects b)) ->
  (subjects x -> (within (assigned e) None n x y <-> within (listed e "g") None n x y)) /\
  (objects x -> (within (assigned e) None n x y <-> within (listed e "g2") None n x y)).
Proof.
  intros e subjects objects n x y D L.
  assert (UP : forall pt, within (listed e pt) None n x y -> within (assigned e) None n x y).
  { intros pt W. induction W; [constructor|]. eapply within_next; eauto. destruct H as [r [I E]]. exists pt, r. auto. }
  split; intros P; (split; [|apply UP]); intros W; induction W; try constructor; destruct H as [pt [r [I E]]];
    assert (K : listed e pt (None, a, b)) by (exists r; auto); destruct (L pt a b K) as [[-> [A B]]|[-> [A B]]]; try (destruct (D a); auto; fail);
    (eapply within_next; [exact K|]); apply IHW; auto.
Qed.
Theorem C72_separate_decision : forall o names rules cs e0 e sub obj act (subjects objects : string -> Prop),
  oracle_ext o -> reads o 2 resource_text resource_reading ->
  tidy names 2 rules -> managed o names 2 rules e0 ->
  standard o false f3 f3 (effect_text AllowOverride) resource_text e0 -> declared e0 "g" "g" -> declared e0 "g" "g2" ->
  Forall (safe_call rules) cs -> Forall (shaped_call 3) cs -> reaches o e0 cs e ->
  names (None, sub) -> names (None, obj) ->
  (forall s o' r, In (s :: o' :: r) (stored e "p" "p") -> names (None, s) /\ names (None, o')) ->
  (stored e "p" "p" <> [] \/ names (None, "") /\ act <> "") ->
  (forall z, subjects z -> objects z -> False) ->
  (forall pt a b, listed e pt (None, a, b) -> (pt = "g" /\ subjects a /\ subjects b) \/ (pt = "g2" /\ objects a /\ objects b)) ->
  subjects sub -> objects obj ->
  exists b, snd (Enforce o (map DStr [sub; obj; act]) e) = Ok b /\
    (b = true <-> exists s o', In [s; o'; act] (stored e "p" "p") /\
       within (listed e "g") None (level_of e) sub s /\ within (listed e "g2") None (level_of e) obj o').
Proof.
  intros o names rules cs e0 e sub obj act subjects objects X RD T M0 S0 G0 G2 F1 F2 RE Nsub Nobj Np NE D L Ps Po.
  destruct (C72_resource_decision o names rules cs e0 e sub obj act) as [b [E B]]; auto. exists b. split; auto. rewrite B.
  split; intros [s [o' [I [W1 W2]]]]; exists s, o'; (split; [exact I|]);
    split; first [apply (proj1 (C72_separate_names e subjects objects (level_of e) sub s D L)); auto
                 |apply (proj2 (C72_separate_names e subjects objects (level_of e) obj o' D L)); auto].
Qed.
Print Assumptions C72_resource_decision.
Print Assumptions C72_separate_names.
Print Assumptions C72_separate_decision.
(** Without that condition the claim about g and g2 is false: a link between objects makes a
    subject of the same name a member. *)
Definition resource_model (ps gs gs2 : list rule) : model :=
  [("r", [("r", ast "r" "sub, obj, act" r3 (Vec []))]);
   ("p", [("p", ast "p" "sub, obj, act" p3 (Vec ps))]);
   ("g", [("g", ast "g" "_, _" [] (Vec gs)); ("g2", ast "g2" "_, _" [] (Vec gs2))]);
   ("e", [("e", ast "e" (effect_text AllowOverride) [] (Vec []))]);
   ("m", [("m", ast "m" resource_text [] (Vec []))])].
Definition res_ps : list rule := [["alice"; "data1"; "read"]; ["group_admin"; "data_group"; "write"]].
Definition res_all : list rule := [["alice"; "group_admin"]; ["data1"; "data_group"]; ["data2"; "data_group"]; ["bob"; "group_admin"]].
Definition res_org : enforcer := linked_boot (resource_model res_ps [["alice"; "group_admin"]] [["data1"; "data_group"]; ["data2"; "data_group"]]).
Lemma res_tidy : tidy plain_names 2 (fun r => In r res_all).
Proof.
  constructor; auto.
  - intros [[dx|] x] [[dy|] y] Hx Hy E; unfold plain_names in *; simpl in *; try discriminate. unfold spell in E. congruence.
  - intros r H. unfold res_all in H. cases_in H; (split; [reflexivity|]); do 3 eexists; (split; [reflexivity|]); split; reflexivity.
  - intros r r' H H' P. unfold res_all in *. cases_in H; cases_in H'; try reflexivity; not_perm P.
Qed.
Lemma res_managed : forall o gs gs2, incl gs res_all -> incl gs2 res_all ->
  snd (e_BuildRoleLinks (boot (resource_model res_ps gs gs2))) = Ok tt ->
  managed o plain_names 2 (fun r => In r res_all) (linked_boot (resource_model res_ps gs gs2)).
Proof.
  intros o gs gs2 I1 I2 K. apply (managed_built o plain_names 2 _ (boot (resource_model res_ps gs gs2))); try reflexivity.
  - eexists. split; reflexivity.
  - split.
    + repeat constructor; simpl; intuition discriminate.
    + intros pt a H. simpl in H. destruct (String.eqb pt "g") eqn:E; [|destruct (String.eqb pt "g2"); [|discriminate]];
        inversion H; subst; (split; [reflexivity|]); simpl; apply Forall_forall; auto.
  - unfold linked_boot. rewrite <- K. apply surjective_pairing.
Qed.
Lemma res_standard : forall o, standard o false f3 f3 (effect_text AllowOverride) resource_text res_org.
Proof.
  intros o. constructor; try reflexivity; try discriminate.
  - split; [|exact I]. prove_declares.
  - intros r I. vm_compute in I. cases_in I; reflexivity.
Qed.
Definition res_history : list call :=
  [KAddGrouping "g" ["bob"; "group_admin"]; KEnforce "" (reqs ["bob"; "data2"; "write"]); KRemoveGrouping "g2" ["data1"; "data_group"]].
Definition res_subject (x : string) : Prop := In x ["alice"; "bob"; "group_admin"].
Definition res_object (x : string) : Prop := In x ["data1"; "data2"; "data_group"].
Example C72_case : exists e, reaches mini res_org res_history e /\ Forall (safe_call (fun r => In r res_all)) res_history /\
  Forall (shaped_call 3) res_history /\ reads mini 2 resource_text resource_reading /\ tidy plain_names 2 (fun r => In r res_all) /\
  managed mini plain_names 2 (fun r => In r res_all) res_org /\ standard mini false f3 f3 (effect_text AllowOverride) resource_text res_org /\
  declared res_org "g" "g" /\ declared res_org "g" "g2" /\
  (forall z, res_subject z -> res_object z -> False) /\
  (forall pt a b, listed e pt (None, a, b) -> (pt = "g" /\ res_subject a /\ res_subject b) \/ (pt = "g2" /\ res_object a /\ res_object b)) /\
  snd (Enforce mini (reqs ["bob"; "data2"; "write"]) res_org) = Ok false /\ snd (Enforce mini (reqs ["bob"; "data2"; "write"]) e) = Ok true /\
  snd (Enforce mini (reqs ["alice"; "data1"; "write"]) res_org) = Ok true /\ snd (Enforce mini (reqs ["alice"; "data1"; "write"]) e) = Ok false.
Proof.
  eexists. split.
  { unfold res_history. repeat (eapply reach_step; [vm_compute; reflexivity|discriminate|]). apply reach_nil. }
  split. { unfold res_history. repeat (apply Forall_cons; [simpl; tauto|]). apply Forall_nil. }
  split. { unfold res_history. repeat (apply Forall_cons; [simpl; auto|]); [|apply Forall_nil].
    split; [reflexivity|]. exists ["bob"; "data2"; "write"]. reflexivity. }
  split; [apply mini_resource|]. split; [apply res_tidy|].
  split. { apply res_managed; [intros x I; simpl in *; tauto|intros x I; simpl in *; tauto|vm_compute; reflexivity]. }
  split; [apply res_standard|]. split; [eexists; reflexivity|]. split; [eexists; reflexivity|].
  split. { intros z A B. unfold res_subject, res_object in *. cases_in A; cases_in B; discriminate. }
  split.
  { intros pt a b [r [I E]]. unfold stored, rules_in, get_ast, sec_of in I. cbn [e_model aget String.eqb Ascii.eqb Bool.eqb] in I.
    destruct (String.eqb_spec pt "g") as [->|N1].
    - left. split; auto. cases_in I; inversion E; subst; unfold res_subject; simpl; tauto.
    - destruct (String.eqb_spec pt "g2") as [->|N2]; [|destruct I].
      right. split; auto. cases_in I; inversion E; subst; unfold res_object; simpl; tauto. }
  repeat split; vm_compute; reflexivity.
Qed.
Theorem C72_shared_names_refuted : exists e, managed mini plain_names 2 (fun r => In r res_all) e /\
  ~ (exists s, within (listed e "g") None (level_of e) "bob" s /\ In [s; "data_group"; "write"] (stored e "p" "p")) /\
  snd (Enforce mini (reqs ["bob"; "data_group"; "write"]) e) = Ok true.
Proof.
  exists (linked_boot (resource_model res_ps [] [["bob"; "group_admin"]])). split; [|split].
  - apply res_managed; [intros x []|intros x I; simpl in *; tauto|vm_compute; reflexivity].
  - intros [s [W I]]. assert (K : s = "bob"). { inversion W as [|m0 a0 b0 c0 Lk _]; subst; auto. destruct Lk as [r [[] _]]. }
    subst. vm_compute in I. intuition discriminate.
  - vm_compute. reflexivity.
Qed.
Print Assumptions C72_shared_names_refuted.
