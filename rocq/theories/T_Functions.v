(** Properties C75 and C76: regular expressions, and the example models whose matchers call
    the built-in functions. *)
From Coq Require Import NArith.
From Verif Require P_Ip.
From Verif Require Import Base P_Base M_BuiltIn M_Ip M_Regex M_Functions S_Text S_BuiltIn S_Regex S_Ip P_Text P_BuiltIn P_Regex T_BuiltIn T_Ip
  M_Util M_RoleManager M_Effector M_Model M_Persist M_Eval M_Evaluator M_Enforcer M_Matcher
  S_Effect S_Enforce S_Policy S_History S_Roles S_Sync S_Rbac S_Standard S_Functions
  P_Enforce P_Decide P_Store P_Api P_History P_Roles P_Sync P_Ready P_Standard E_Examples T_Enforce T_Policy T_Rbac T_Users T_Standard P_Functions.
Close Scope N_scope.
Local Arguments spell : simpl never.

(** ** C75: regexMatch *)

(** For every regular expression of the grammar in S_Regex.v the function answers whether
    the whole key is among the keys the expression describes. *)
Theorem C75_regex_partial : forall om pattern L key, expression pattern L ->
  exists b, regexMatch om key pattern = Ok b /\ (b = true <-> L key).
Proof.
  intros om pattern L key H. destruct (read_regex_spec pattern L H) as [r [E G]].
  exists (accepts r key). unfold regexMatch, regex_member. rewrite E. split; [reflexivity|apply G].
Qed.
(** Other texts are left to the library. *)
Theorem C75_other_texts : forall om pattern key, (forall L, ~ expression pattern L) ->
  regexMatch om key pattern = bind (om key pattern) (fun g => Ok (match g with Some _ => true | None => false end)).
Proof.
  intros om pattern key H. unfold regexMatch, regex_member. destruct (read_regex pattern) as [r|] eqn:E; [|reflexivity].
  destruct (read_regex_sound pattern r E) as [L A]. destruct (H L A).
Qed.
(** An expression describes one set of keys only. *)
Theorem C75_one_meaning : forall pattern L M, expression pattern L -> expression pattern M -> forall key, L key <-> M key.
Proof.
  intros pattern L M A B key. destruct (read_regex_spec pattern L A) as [r [E G]]. destruct (read_regex_spec pattern M B) as [q [E' G']].
  assert (r = q) by congruence. subst q. rewrite <- (G key), <- (G' key). reflexivity.
Qed.
(** A text without special characters describes itself. *)
Lemma plain_sequence : forall s, plain_text s -> exists L, sequence s L /\ forall k, L k <-> k = s.
Proof.
  induction s as [|c s IH]; intros P. { exists nothing_else. split; [constructor|]. intros k. reflexivity. }
  destruct P as [Pc Ps]. destruct (IH Ps) as [L [S E]]. exists (followed (one_char (fun x => x = c)) L). split.
  - change (String c s) with (String c "" ++ s)%string. apply seq_more; auto. apply part_once, single_char, Pc.
  - intros k. unfold followed, one_char. split.
    + intros [a [b [-> [[x [-> ->]] Q]]]]. apply E in Q. subst b. reflexivity.
    + intros ->. exists (String c ""), s. repeat split; [eauto|]. apply E. reflexivity.
Qed.
Theorem C75_plain_text : forall om pattern key, plain_text pattern ->
  exists b, regexMatch om key pattern = Ok b /\ (b = true <-> key = pattern).
Proof.
  intros om pattern key P. destruct (plain_sequence pattern P) as [L [S E]].
  destruct (C75_regex_partial om pattern L key (alternatives_expression _ _ (alt_last _ _ S))) as [b [R B]]. exists b. split; auto. rewrite B. apply E.
Qed.
(** Texts separated by bars, each possibly in parentheses as in examples/keymatch_policy.csv,
    describe these texts. *)
Definition wrapped (s : string) : string := ("(" ++ s ++ ")")%string.
Lemma wrapped_sequence : forall s, plain_text s -> exists L, sequence (wrapped s) L /\ forall k, L k <-> k = s.
Proof.
  intros s P. destruct (plain_sequence s P) as [L [S E]]. exists (followed L nothing_else). split.
  - rewrite <- (app_nil_r_s (wrapped s)). apply seq_more; [|constructor]. apply part_once, single_group, alt_last, S.
  - intros k. unfold followed, nothing_else. split.
    + intros [a [b [-> [A ->]]]]. rewrite app_nil_r_s. apply E, A.
    + intros ->. exists s, "". rewrite app_nil_r_s. repeat split. apply E. reflexivity.
Qed.
Theorem C75_choice : forall om l key, l <> [] -> Forall plain_text l ->
  exists b, regexMatch om key (glue "|" (map wrapped l)) = Ok b /\ (b = true <-> In key l).
Proof.
  intros om l key NE F.
  assert (K : exists L, alternatives (glue "|" (map wrapped l)) L /\ forall k, L k <-> In k l).
  { induction l as [|x l IH]; [congruence|]. inversion F as [|x' l' Px Pl]; subst. destruct (wrapped_sequence x Px) as [L [S E]].
    destruct l as [|y l].
    - exists L. split; [apply alt_last; exact S|]. intros k. rewrite E. simpl. intuition.
    - destruct IH as [M [A Q]]; [discriminate|auto|]. exists (either L M). split.
      + exact (alt_more (wrapped x) L (glue "|" (map wrapped (y :: l))) M S A).
      + intros k. unfold either. rewrite E, Q. simpl. intuition. }
  destruct K as [L [A Q]]. destruct (C75_regex_partial om _ L key (alternatives_expression _ _ A)) as [b [R B]]. exists b. split; auto. rewrite B. apply Q.
Qed.
Print Assumptions C75_regex_partial.
Print Assumptions C75_other_texts.
Print Assumptions C75_one_meaning.
Print Assumptions C75_plain_text.
Print Assumptions C75_choice.

Definition no_other : string -> string -> res (option (list string)) := fun _ _ => UB Unmodelled.
Lemma plain_of : forall s, forallb (fun c => negb (special c)) (list_ascii_of_string s) = true -> plain_text s.
Proof.
  induction s as [|c s IH]; simpl; intros H; [exact I|]. apply Bool.andb_true_iff in H. destruct H as [H1 H2]. split; [|exact (IH H2)].
  intros M. apply meaning_special in M. rewrite M in H1. discriminate.
Qed.
Example C75_case : (exists L, expression "[a-z_]+(/(v1|v2)/\d*)?" L) /\ plain_text "GET" /\ glue "|" (map wrapped ["GET"; "POST"]) = "(GET)|(POST)" /\
  (forall L, ~ expression "(a)\1" L) /\ (exists L, expression "^/[\w.-]{1,3}/\D{2}$|^x{3,}?" L) /\
  map (fun k => regexMatch no_other k "[a-z_]+(/(v1|v2)/\d*)?") ["my_app/v2/17"; "my_app/v2/"; "my_app"; "my_app/v3/1"] = [Ok true; Ok true; Ok true; Ok false] /\
  map (fun k => regexMatch no_other k "(GET)|(POST)") ["GET"; "POST"; "PUT"; "GETPOST"] = [Ok true; Ok true; Ok false; Ok false] /\
  map (fun k => regexMatch no_other k "^/[\w.-]{1,3}/\D{2}$|^x{3,}?") ["/a-/xy"; "/a.b-/xy"; "/a/x1"; "xx"; "xxx"; "xxxx"] = [Ok true; Ok false; Ok false; Ok false; Ok true; Ok true].
Proof.
  split. { eapply read_regex_sound. vm_compute. reflexivity. } split; [apply plain_of; reflexivity|]. split; [reflexivity|]. split; [|split; [eapply read_regex_sound; vm_compute; reflexivity|split; [|split]; vm_compute; reflexivity]].
  intros L A. destruct (read_regex_spec _ L A) as [r [E _]]. vm_compute in E. discriminate.
Qed.
Example C75_classes_case : (exists L, expression "[[:alpha:]_][^\D]*[\W\d]?" L) /\ (forall L, ~ expression "[[:letters:]]" L) /\
  map (fun k => regexMatch no_other k "[[:alpha:]_][^\D]*[\W\d]?") ["a12-"; "_7"; "7a"; "a12b"] = [Ok true; Ok true; Ok false; Ok false] /\
  map (fun k => regexMatch no_other k "[[:punct:][:cntrl:]]\n") [String "," (String "010" ""); String "010" (String "010" ""); "a,"] = [Ok true; Ok true; Ok false].
Proof.
  split. { eapply read_regex_sound. vm_compute. reflexivity. } split; [|split; vm_compute; reflexivity].
  intros L A. destruct (read_regex_spec _ L A) as [r [E _]]. vm_compute in E. discriminate.
Qed.

(** ** C76: models with patterns *)
Lemma covers_keymatch : forall om sg k p, called om sg "keyMatch" [k; p] <-> key_covers p k.
Proof.
  intros om sg k p. unfold called. change (builtin_call om sg "keyMatch" [k; p]) with (Some (@Ok bool (KeyMatch k p))).
  assert (E : Some (Ok (KeyMatch k p)) = Some (Ok true) <-> KeyMatch k p = true) by (split; congruence). rewrite E. unfold key_covers.
  destruct (star_cases "*" p) as [N|[a [b F]]].
  - rewrite (C53_no_star k p N). split; [auto|]. intros [[_ H]|[a [b [r [F _]]]]]; auto. elim N. exists a, b. apply F.
  - rewrite (C53_star k p a b F). split.
    + intros [r ->]. right. eauto.
    + intros [[N _]|[a' [b' [r [F' ->]]]]]. { elim N. exists a, b. apply F. }
      assert (L : String.length a = String.length a').
      { destruct F as [E1 M1], F' as [E2 M2]. apply Nat.le_antisymm; eauto. }
      destruct F as [E1 _], F' as [E2 _]. rewrite E1 in E2. exists r. f_equal.
      rewrite <- (stake_app a' ("*" ++ b')), <- E2, <- L. apply stake_app.
Qed.
Lemma regex_called : forall om sg k p, called om sg "regexMatch" [k; p] <-> regexMatch om k p = Ok true.
Proof. intros. unfold called. change (builtin_call om sg "regexMatch" [k; p]) with (Some (regexMatch om k p)). split; congruence. Qed.
Lemma key2_called : forall om sg k p, called om sg "keyMatch2" [k; p] <-> KeyMatch2 om k p = Ok true.
Proof. intros. unfold called. change (builtin_call om sg "keyMatch2" [k; p]) with (Some (KeyMatch2 om k p)). split; congruence. Qed.
Lemma ip_called : forall om sg k p, called om sg "ipMatch" [k; p] <-> IPMatch sg k p = Ok true.
Proof. intros. unfold called. change (builtin_call om sg "ipMatch" [k; p]) with (Some (IPMatch sg k p)). split; congruence. Qed.

Lemma pattern_sem : forall f sub obj act s p a R,
  rd_sem (pattern_reading f) (value_of f3 [sub; obj; act] f3 [s; p; a]) R <-> sub = s /\ R f [obj; p] /\ R "regexMatch" [act; a].
Proof. intros. reflexivity. Qed.
Lemma effect_three : forall s p a, effect_of f3 [s; p; a] = Allow.
Proof. reflexivity. Qed.
Lemma blank_regex : forall om k, regexMatch om k "" = Ok true <-> k = "".
Proof. intros. destruct (C75_plain_text om "" k I) as [b [E B]]. rewrite E, <- B. split; congruence. Qed.

Lemma regex_of : forall om pattern key, is_regex pattern -> exists b, regexMatch om key pattern = Ok b /\ (b = true <-> describes pattern key).
Proof.
  intros om pattern key [L A]. destruct (C75_regex_partial om pattern L key A) as [b [E B]]. exists b. split; auto. rewrite B. split.
  - intros K. exists L. auto.
  - intros [M [A' K]]. destruct (C75_regex_partial om pattern M key A') as [b' [E' B']]. apply B. apply B' in K. congruence.
Qed.
(** keymatch_model.conf, through every history: a request is allowed exactly if some rule of
    the subject has a key pattern that covers the object and a regular expression that
    describes the action. *)
Theorem C76_keymatch_decision : forall om sg o rules cs e0 e sub obj act,
  let lib := with_builtins om sg o in
  oracle_ext o -> reads o 2 keymatch_text (pattern_reading "keyMatch") ->
  standard lib false f3 f3 (effect_text AllowOverride) keymatch_text e0 -> roleless e0 ->
  Forall (safe_call rules) cs -> Forall (shaped_call 3) cs -> reaches lib e0 cs e ->
  (forall s p a, In [s; p; a] (stored e "p" "p") -> is_regex a) ->
  (stored e "p" "p" <> [] \/ [sub; obj; act] <> [""; ""; ""]) ->
  exists b, snd (Enforce lib (map DStr [sub; obj; act]) e) = Ok b /\
    (b = true <-> exists p a, In [sub; p; a] (stored e "p" "p") /\ key_covers p obj /\ describes a act).
Proof.
  intros om sg o rules cs e0 e sub obj act lib X RD S0 N0 F1 F2 RE AL NE.
  assert (AN : forall s p a, (exists b, regexMatch om act a = Ok b) -> answers om sg (pattern_reading "keyMatch") (value_of f3 [sub; obj; act] f3 [s; p; a])).
  { intros s p a [b E] f args [Q|[Q|[]]] _; inversion Q; subst; clear Q.
    - exists (KeyMatch obj p). reflexivity.
    - exists b. change (builtin_call om sg "regexMatch" _) with (Some (regexMatch om act a)). rewrite E. reflexivity. }
  assert (L3 : forall r, In r (stored e "p" "p") -> List.length r = 3).
  { apply (st_fields lib false f3 f3 (effect_text AllowOverride) keymatch_text e).
    apply (roleless_reaches lib rules false f3 f3 (effect_text AllowOverride) keymatch_text cs e0 e (builtins_ext om sg o X)); auto; discriminate. }
  destruct (builtin_decision om sg o f3 f3 keymatch_text (pattern_reading "keyMatch")) with (rules := rules) (cs := cs) (e0 := e0) (e := e) (req := [sub; obj; act])
    as [_ [b [E B]]]; auto; try discriminate.
  - by_cases.
  - intros f [<-|[<-|[]]]; reflexivity.
  - intros v f args [Q|[Q|[]]]; inversion Q; simpl; auto.
  - intros v. exact I.
  - intros r Ir. destruct (three r (L3 r Ir)) as [s [p [a ->]]]. apply AN.
    destruct (regex_of om a act (AL s p a Ir)) as [b [E _]]. eauto.
  - destruct NE as [NE|NE]; auto. right. split.
    + apply (AN "" "" ""). destruct (C75_plain_text om "" act I) as [b [E _]]. eauto.
    + intros Q. apply NE. destruct (proj1 (pattern_sem "keyMatch" sub obj act "" "" "" _) Q) as [-> [Qo Qa]].
      apply covers_keymatch in Qo. apply regex_called, blank_regex in Qa. subst act.
      destruct Qo as [[_ ->]|[a [b [r [[F _] _]]]]]; [reflexivity|]. destruct a; discriminate.
  - exists b. split; [exact E|]. rewrite B. split.
    + intros [r [Ir [Q _]]]. destruct (three r (L3 r Ir)) as [s [p [a ->]]].
      destruct (proj1 (pattern_sem "keyMatch" sub obj act s p a _) Q) as [-> [Qo Qa]]. exists p, a. split; auto.
      split; [apply (covers_keymatch om sg); auto|]. apply regex_called in Qa. destruct (regex_of om a act (AL _ _ _ Ir)) as [x [Ex Bx]].
      apply Bx. congruence.
    + intros [p [a [Ir [Qo Qa]]]]. exists [sub; p; a]. split; auto. split; [|reflexivity]. apply pattern_sem. split; auto.
      split; [apply covers_keymatch; auto|]. apply regex_called. destruct (regex_of om a act (AL _ _ _ Ir)) as [x [Ex Bx]].
      rewrite Ex. f_equal. apply Bx. auto.
Qed.
Print Assumptions C76_keymatch_decision.

(** keymatch2_model.conf: the patterns have placeholders, written with colons. *)
Theorem C76_keymatch2_decision : forall om sg o rules cs e0 e sub obj act,
  let lib := with_builtins om sg o in
  oracle_ext o -> reads o 2 keymatch2_text (pattern_reading "keyMatch2") ->
  standard lib false f3 f3 (effect_text AllowOverride) keymatch2_text e0 -> roleless e0 ->
  Forall (safe_call rules) cs -> Forall (shaped_call 3) cs -> reaches lib e0 cs e ->
  (forall s p a, In [s; p; a] (stored e "p" "p") -> (exists ps, colon_pattern ps /\ p = with_colons ps) /\ is_regex a) ->
  (stored e "p" "p" <> [] \/ [sub; obj; act] <> [""; ""; ""]) ->
  exists b, snd (Enforce lib (map DStr [sub; obj; act]) e) = Ok b /\
    (b = true <-> exists ps a, colon_pattern ps /\ In [sub; with_colons ps; a] (stored e "p" "p") /\ (exists v, S_BuiltIn.fits ps obj v) /\ describes a act).
Proof.
  intros om sg o rules cs e0 e sub obj act lib X RD S0 N0 F1 F2 RE AL NE.
  assert (AN : forall s ps a, colon_pattern ps -> (exists b, regexMatch om act a = Ok b) ->
    answers om sg (pattern_reading "keyMatch2") (value_of f3 [sub; obj; act] f3 [s; with_colons ps; a])).
  { intros s ps a C [b E] f args [Q|[Q|[]]] _; inversion Q; subst; clear Q.
    - destruct (C55_keymatch2_partial om ps obj C) as [b' [E' _]]. exists b'.
      change (builtin_call om sg "keyMatch2" _) with (Some (KeyMatch2 om obj (with_colons ps))). rewrite E'. reflexivity.
    - exists b. change (builtin_call om sg "regexMatch" _) with (Some (regexMatch om act a)). rewrite E. reflexivity. }
  assert (L3 : forall r, In r (stored e "p" "p") -> List.length r = 3).
  { apply (st_fields lib false f3 f3 (effect_text AllowOverride) keymatch2_text e).
    apply (roleless_reaches lib rules false f3 f3 (effect_text AllowOverride) keymatch2_text cs e0 e (builtins_ext om sg o X)); auto; discriminate. }
  destruct (builtin_decision om sg o f3 f3 keymatch2_text (pattern_reading "keyMatch2")) with (rules := rules) (cs := cs) (e0 := e0) (e := e) (req := [sub; obj; act])
    as [_ [b [E B]]]; auto; try discriminate.
  - by_cases.
  - intros f [<-|[<-|[]]]; reflexivity.
  - intros v f args [Q|[Q|[]]]; inversion Q; simpl; auto.
  - intros v. exact I.
  - intros r Ir. destruct (three r (L3 r Ir)) as [s [p [a ->]]]. destruct (AL s p a Ir) as [[ps [C ->]] A]. apply AN; auto.
    destruct (regex_of om a act A) as [b [E _]]. eauto.
  - destruct NE as [NE|NE]; auto. right. split.
    + apply (AN "" [] "" colon_nil). destruct (C75_plain_text om "" act I) as [b [E _]]. eauto.
    + intros Q. apply NE. destruct (proj1 (pattern_sem "keyMatch2" sub obj act "" "" "" _) Q) as [-> [Qo Qa]].
      apply key2_called in Qo. apply regex_called, blank_regex in Qa. subst act.
      destruct (C55_keymatch2_partial om [] obj colon_nil) as [b [E B]]. change (with_colons []) with "" in E.
      assert (b = true) by congruence. destruct (proj1 B H) as [v F]. inversion F. reflexivity.
  - exists b. split; [exact E|]. rewrite B. split.
    + intros [r [Ir [Q _]]]. destruct (three r (L3 r Ir)) as [s [p [a ->]]]. destruct (AL s p a Ir) as [[ps [C ->]] A].
      destruct (proj1 (pattern_sem "keyMatch2" sub obj act s (with_colons ps) a _) Q) as [-> [Qo Qa]]. exists ps, a. split; auto. split; auto.
      apply key2_called in Qo. apply regex_called in Qa. destruct (C55_keymatch2_partial om ps obj C) as [y [Ey By]].
      destruct (regex_of om a act A) as [x [Ex Bx]]. split; [apply By|apply Bx]; congruence.
    + intros [ps [a [C [Ir [Qo Qa]]]]]. destruct (AL _ _ _ Ir) as [_ A]. exists [sub; with_colons ps; a]. split; auto. split; [|reflexivity]. apply pattern_sem.
      destruct (C55_keymatch2_partial om ps obj C) as [y [Ey By]]. destruct (regex_of om a act A) as [x [Ex Bx]].
      split; auto. split; [apply key2_called; rewrite Ey; f_equal; apply By; auto|]. apply regex_called. rewrite Ex. f_equal. apply Bx. auto.
Qed.
Print Assumptions C76_keymatch2_decision.

(** ipmatch_model.conf: the subjects of the rules are IPv4 networks; a request of an IPv4
    address is allowed exactly if some rule for the object and the action has a network that
    contains the address. *)
Lemma ip_sem : forall sub obj act s p a R,
  rd_sem ipmatch_reading (value_of f3 [sub; obj; act] f3 [s; p; a]) R <-> R "ipMatch" [sub; s] /\ obj = p /\ act = a.
Proof. intros. reflexivity. Qed.
Theorem C76_ipmatch_decision_partial : forall om sg o rules cs e0 e sub addr obj act,
  let lib := with_builtins om sg o in
  oracle_ext o -> reads o 2 ipmatch_text ipmatch_reading ->
  standard lib false f3 f3 (effect_text AllowOverride) ipmatch_text e0 -> roleless e0 ->
  Forall (safe_call rules) cs -> Forall (shaped_call 3) cs -> reaches lib e0 cs e ->
  (forall s r, In (s :: r) (stored e "p" "p") -> exists b n, v4_net s b n) -> ipv4_text sub addr ->
  stored e "p" "p" <> [] ->
  exists b, snd (Enforce lib (map DStr [sub; obj; act]) e) = Ok b /\
    (b = true <-> exists s net n, In [s; obj; act] (stored e "p" "p") /\ v4_net s net n /\ in_v4 addr net n).
Proof.
  intros om sg o rules cs e0 e sub addr obj act lib X RD S0 N0 F1 F2 RE AL AD NE.
  assert (L3 : forall r, In r (stored e "p" "p") -> List.length r = 3).
  { apply (st_fields lib false f3 f3 (effect_text AllowOverride) ipmatch_text e).
    apply (roleless_reaches lib rules false f3 f3 (effect_text AllowOverride) ipmatch_text cs e0 e (builtins_ext om sg o X)); auto; discriminate. }
  destruct (builtin_decision om sg o f3 f3 ipmatch_text ipmatch_reading) with (rules := rules) (cs := cs) (e0 := e0) (e := e) (req := [sub; obj; act])
    as [_ [b [E B]]]; auto; try discriminate.
  - by_cases.
  - intros f [<-|[]]; reflexivity.
  - intros v f args [Q|[]]; inversion Q; simpl; auto.
  - intros v. exact I.
  - intros r Ir. destruct (three r (L3 r Ir)) as [s [p [a ->]]]. intros f args [Q|[]] _. inversion Q; subst; clear Q.
    destruct (AL _ _ Ir) as [net [n V]]. destruct (P_Ip.match_v4 sg sub addr s net n AD V) as [x [Ex _]]. exists x.
    change (builtin_call om sg "ipMatch" _) with (Some (IPMatch sg sub s)). rewrite Ex. reflexivity.
  - exists b. split; [exact E|]. rewrite B. split.
    + intros [r [Ir [Q _]]]. destruct (three r (L3 r Ir)) as [s [p [a ->]]].
      destruct (proj1 (ip_sem sub obj act s p a _) Q) as [Qi [-> ->]]. destruct (AL _ _ Ir) as [net [n V]]. exists s, net, n. split; auto. split; auto.
      apply ip_called in Qi. destruct (P_Ip.match_v4 sg sub addr s net n AD V) as [x [Ex Bx]]. apply Bx. congruence.
    + intros [s [net [n [Ir [V Q]]]]]. exists [s; obj; act]. split; auto. split; [|reflexivity]. apply ip_sem. split; auto.
      apply ip_called. destruct (P_Ip.match_v4 sg sub addr s net n AD V) as [x [Ex Bx]]. rewrite Ex. f_equal. apply Bx. exact Q.
Qed.
Print Assumptions C76_ipmatch_decision_partial.

(** The rules must be networks, and there must be some.  False for a rule about a single
    address: a request from any address throws, whatever the rest of the policy says; and an
    empty policy makes every request from an address throw. *)
Section IpErrors.
  Variables (om : string -> string -> res (option (list string))) (sg : bool) (o : oracle) (e : enforcer) (sub obj act : string).
  Notation lib := (with_builtins om sg o).
  Hypothesis X : oracle_ext o.
  Hypothesis RD : reads o 2 ipmatch_text ipmatch_reading.
  Hypothesis CF : calls_first o ipmatch_text "ipMatch" "r.sub" "p.sub".
  Hypothesis ST : standard lib false f3 f3 (effect_text AllowOverride) ipmatch_text e.
  Notation req := [sub; obj; act].
  Lemma ip_compiles : o_compiles lib ipmatch_text (known_vars f3 f3) (role_arity (e_model e)) = true.
  Proof.
    apply (rs_compiles _ _ _ _ (internal_reads om sg o ipmatch_text ipmatch_reading RD)).
    - intros x I. unfold known_vars. apply inb_true. revert x I. by_cases.
    - intros f I. cbn in I. destruct I.
  Qed.
  Lemma ip_value : forall s p a err, IPMatch sg sub s = Throw err ->
    o_value lib ipmatch_text (env f3 req f3 [s; p; a]) (role_fun (e_model e) (e_heap e)) = Throw err.
  Proof.
    intros s p a err E. cbn [with_builtins o_value]. apply (CF _ _ sub s err); try reflexivity.
    change (builtin_call om sg "ipMatch" [sub; s]) with (Some (IPMatch sg sub s)). rewrite E. reflexivity.
  Qed.
  Lemma ip_good : forall s p a addr net n, ipv4_text sub addr -> v4_net s net n ->
    exists b, verdict lib (e_model e) (e_heap e) f3 f3 ipmatch_text req [s; p; a] = Ok b /\
      (b = true <-> in_v4 addr net n /\ obj = p /\ act = a).
  Proof.
    intros s p a addr net n A V. unfold verdict, matcher_text, rule_expression. cbn [List.length Nat.eqb negb].
    replace (HasEval ipmatch_text) with false by reflexivity. cbn [bind]. rewrite ip_compiles.
    destruct (P_Ip.match_v4 sg sub addr s net n A V) as [x [Ex Bx]].
    destruct (rs_value _ _ _ _ (internal_reads om sg o ipmatch_text ipmatch_reading RD) (env f3 req f3 [s; p; a])
      (role_fun (e_model e) (e_heap e)) (value_of f3 req f3 [s; p; a])) as [b [E B]].
    - intros y I. apply env_known; auto. revert y I. by_cases.
    - intros f args I. cbn in I. destruct I.
    - split; [exact Logic.I|]. intros f args [Q|[]] _. inversion Q; subst; clear Q.
      exists x. change (builtin_call om sg "ipMatch" _) with (Some (IPMatch sg sub s)). rewrite Ex. reflexivity.
    - exists b. split; auto. rewrite B. cbn [rd_sem internal]. rewrite (ip_sem sub obj act s p a).
      change (built om sg "ipMatch") with true. cbv iota. rewrite ip_called, Ex. unfold in_v4. rewrite <- Bx.
      split; intros [Q R]; (split; [congruence|exact R]).
  Qed.
  Theorem C76_ip_empty_policy_refuted : is_address sub -> stored e "p" "p" = [] -> snd (Enforce lib (map DStr req) e) = Throw ParserError.
  Proof.
    intros A NE. unfold Enforce. pose proof (std_candidates lib f3 f3 AllowOverride ipmatch_text e req ST) as SC.
    destruct (enforce_spec lib e f3 f3 (effect_text AllowOverride) ipmatch_text "" req (builtins_ext om sg o X) (st_ready _ _ _ _ _ _ _ ST) eq_refl) as [ev [EQ _]].
    { apply plain_texts; auto; discriminate. }
    rewrite snd_EnforceWithMatcher, EQ. unfold enforce_outcome. rewrite (st_on _ _ _ _ _ _ _ ST), SC, NE. cbn [negb snd].
    unfold empty_outcome. change (chosen "" ipmatch_text) with ipmatch_text. replace (HasEval ipmatch_text) with false by reflexivity.
    rewrite ip_compiles. change (map (fun _ : string => "") f3) with [""; ""; ""]. rewrite (ip_value "" "" "" ParserError); [reflexivity|].
    destruct (C59_total sg sub "") as (_ & H & _). apply (H A). intros N. apply (P_Ip.net_slash _ N). intros [x [y Q]]. destruct x; discriminate.
  Qed.
  Theorem C76_ip_plain_rule_refuted : forall addr pre s p a post, ipv4_text sub addr -> is_address s ->
    stored e "p" "p" = pre ++ [s; p; a] :: post ->
    (forall s' r, In (s' :: r) pre -> exists net n, v4_net s' net n) ->
    (forall s' net n, In [s'; obj; act] pre -> v4_net s' net n -> ~ in_v4 addr net n) ->
    snd (Enforce lib (map DStr req) e) = Throw ParserError.
  Proof.
    intros addr pre s p a post A B SP AL NO. unfold Enforce. pose proof (std_candidates lib f3 f3 AllowOverride ipmatch_text e req ST) as SC.
    assert (L3 : forall r, In r pre -> List.length r = 3).
    { intros r I. apply (st_fields _ _ _ _ _ _ _ ST). rewrite SP. apply in_or_app. auto. }
    assert (VB : verdict lib (e_model e) (e_heap e) f3 f3 ipmatch_text req [s; p; a] = Throw ParserError).
    { unfold verdict, matcher_text, rule_expression. cbn [List.length Nat.eqb negb].
      replace (HasEval ipmatch_text) with false by reflexivity. cbn [bind]. rewrite ip_compiles.
      apply ip_value. apply C59_plain_refuted; auto. left. eauto. }
    rewrite snd_EnforceWithMatcher.
    destruct (decision_bad lib e f3 f3 ipmatch_text "" req AllowOverride pre [s; p; a] post (builtins_ext om sg o X)
      (st_ready _ _ _ _ _ _ _ ST) (st_on _ _ _ _ _ _ _ ST) eq_refl) as [[r [I [S [x E]]]]|[N [E _]]].
    - apply plain_texts; auto; discriminate.
    - rewrite SC. exact SP.
    - intros r I. destruct (three r (L3 r I)) as [s' [p' [a' ->]]]. destruct (AL _ _ I) as [net [n V]].
      destruct (ip_good s' p' a' addr net n A V) as [b [Hb _]]. eauto.
    - intros b. change (chosen "" ipmatch_text) with ipmatch_text. rewrite VB. discriminate.
    - exfalso. apply settles_decisive in S. destruct S as [D _]. rewrite decisive_outc in D. destruct D as [D _].
      destruct (three r (L3 r I)) as [s' [p' [a' ->]]]. destruct (AL _ _ I) as [net [n V]].
      destruct (ip_good s' p' a' addr net n A V) as [b [Hb Bb]]. unfold matches in D. change (chosen "" ipmatch_text) with ipmatch_text in D.
      assert (b = true) by congruence. destruct (proj1 Bb H) as [Q [-> ->]]. eapply NO; eauto.
    - rewrite (E _ VB). reflexivity.
  Qed.
End IpErrors.
Print Assumptions C76_ip_empty_policy_refuted.
Print Assumptions C76_ip_plain_rule_refuted.

(** rbac_with_pattern_model.conf (with role managers that match no patterns): a rule counts
    when the subject has its subject as a role, the object has its object as a role, and its
    action, a regular expression, describes the action asked for. *)
Lemma rbac_pattern_sem : forall om sg sub obj act s p a R,
  rd_sem (internal om sg rbac_pattern_reading) (value_of f3 [sub; obj; act] f3 [s; p; a]) R <->
  R "g" [sub; s] /\ R "g2" [obj; p] /\ called om sg "regexMatch" [act; a].
Proof. intros. reflexivity. Qed.
Theorem C76_rbac_pattern_decision_partial : forall om sg o names rules cs e0 e sub obj act,
  let lib := with_builtins om sg o in
  oracle_ext o -> reads o 2 rbac_pattern_text rbac_pattern_reading ->
  tidy names 2 rules -> managed lib names 2 rules e0 ->
  standard lib false f3 f3 (effect_text AllowOverride) rbac_pattern_text e0 -> declared e0 "g" "g" -> declared e0 "g" "g2" ->
  Forall (safe_call rules) cs -> Forall (shaped_call 3) cs -> reaches lib e0 cs e ->
  names (None, sub) -> names (None, obj) ->
  (forall s p a, In [s; p; a] (stored e "p" "p") -> names (None, s) /\ names (None, p) /\ is_regex a) ->
  (stored e "p" "p" <> [] \/ names (None, "") /\ act <> "") ->
  exists b, snd (Enforce lib (map DStr [sub; obj; act]) e) = Ok b /\
    (b = true <-> exists s p a, In [s; p; a] (stored e "p" "p") /\
       within (assigned e) None (level_of e) sub s /\ within (assigned e) None (level_of e) obj p /\ describes a act).
Proof.
  intros om sg o names rules cs e0 e sub obj act lib X RD T M0 S0 G0 G2 F1 F2 RE Nsub Nobj Np NE.
  pose proof (builtins_ext om sg o X) as X'. pose proof (internal_reads om sg o _ _ RD) as RD'.
  set (d := internal om sg rbac_pattern_reading) in *.
  assert (VARS : forall x, In x (rd_vars d) -> In x (r_names f3 ++ p_names f3)) by by_cases.
  assert (DA0 : defines_all e0 d). { intros f [<-|[<-|[]]]; auto. }
  destruct (std_reaches lib names 2 rules false f3 f3 AllowOverride rbac_pattern_text d X') with (cs := cs) (e := e0) (e' := e)
    as [M [S DA]]; auto; try discriminate.
  pose proof (std_candidates lib f3 f3 AllowOverride rbac_pattern_text e [sub; obj; act] S) as SC.
  assert (C : forall s p a, names (None, s) -> names (None, p) -> (exists b, regexMatch om act a = Ok b) ->
    calls_ok names d (value_of f3 [sub; obj; act] f3 [s; p; a])).
  { intros s p a Ns No [b E]. split; [split; [exact Logic.I|]|].
    - intros f args [Q|[Q|[Q|[]]]] B; inversion Q; subst; try discriminate.
      exists b. change (builtin_call om sg "regexMatch" _) with (Some (regexMatch om act a)). rewrite E. reflexivity.
    - intros f args [Q|[Q|[]]]; inversion Q; subst; (split; [simpl; auto|]); split; auto. }
  destruct (std_decision lib names 2 rules false f3 f3 AllowOverride rbac_pattern_text d X') with (e := e) (req := [sub; obj; act])
    as [b [E B]]; auto; try discriminate.
  { intros f _. exact M. }
  { rewrite SC. intros r I. destruct (three r) as [s [p [a ->]]]. { apply (st_fields _ _ _ _ _ _ _ S). auto. }
    destruct (Np _ _ _ I) as [N1 [N2 A]]. apply C; auto. destruct (regex_of om a act A) as [x [Ex _]]. eauto. }
  { rewrite SC. destruct NE as [NE|[N0 NE]]; auto. right. split.
    - apply (C "" "" ""); auto. destruct (C75_plain_text om "" act I) as [x [Ex _]]. eauto.
    - intros Q. apply NE. destruct (proj1 (rbac_pattern_sem om sg sub obj act "" "" "" (linked e)) Q) as [_ [_ K]].
      apply regex_called, blank_regex in K. exact K. }
  exists b. split; auto. rewrite B, SC. unfold granted. split.
  - intros [r [I [Q _]]]. destruct (three r) as [s [p [a ->]]]. { apply (st_fields _ _ _ _ _ _ _ S). auto. }
    destruct (proj1 (rbac_pattern_sem om sg sub obj act s p a (linked e)) Q) as [L1 [L2 K]]. exists s, p, a. split; auto. split; auto. split; auto.
    apply regex_called in K. destruct (Np _ _ _ I) as [_ [_ A]]. destruct (regex_of om a act A) as [x [Ex Bx]]. apply Bx. congruence.
  - intros [s [p [a [I [L1 [L2 K]]]]]]. exists [s; p; a]. split; auto. split; [|reflexivity].
    apply (rbac_pattern_sem om sg sub obj act s p a (linked e)). split; auto. split; auto. apply regex_called.
    destruct (Np _ _ _ I) as [_ [_ A]]. destruct (regex_of om a act A) as [x [Ex Bx]]. rewrite Ex. f_equal. apply Bx. auto.
Qed.
Print Assumptions C76_rbac_pattern_decision_partial.

(** The hypotheses are met: the models and rules of the examples with a small library
    ([mini] of M_Matcher.v). *)
Definition pattern_model (text : string) (ps : list rule) : model :=
  [("r", [("r", ast "r" "sub, obj, act" r3 (Vec []))]);
   ("p", [("p", ast "p" "sub, obj, act" p3 (Vec ps))]);
   ("e", [("e", ast "e" (effect_text AllowOverride) [] (Vec []))]);
   ("m", [("m", ast "m" text [] (Vec []))])].
Notation small := (with_builtins no_other true mini).
Lemma mini_pattern : reads mini 2 keymatch_text (pattern_reading "keyMatch") /\ reads mini 2 keymatch2_text (pattern_reading "keyMatch2") /\
  reads mini 2 ipmatch_text ipmatch_reading /\ reads mini 2 rbac_pattern_text rbac_pattern_reading.
Proof.
  split; [|split; [|split]]; (eapply mini_reads; [vm_compute; reflexivity|by_cases|by_pairs|by_pairs|]); intros; simpl; tauto.
Qed.
Lemma mini_first : calls_first mini ipmatch_text "ipMatch" "r.sub" "p.sub".
Proof.
  intros v g a b err A B G. unfold mini. cbn [o_value].
  replace (parse_matcher ipmatch_text) with (Some (MAnd (MCall "ipMatch" [TmVar "r.sub"; TmVar "p.sub"])
    (MAnd (MEq (TmVar "r.obj") (TmVar "p.obj")) (MEq (TmVar "r.act") (TmVar "p.act"))))) by (vm_compute; reflexivity).
  cbn. rewrite A, B. cbn. rewrite G. reflexivity.
Qed.
Lemma pattern_standard : forall o text ps, (forall r, In r ps -> List.length r = 3) -> text <> "" -> HasEval text = false ->
  standard o false f3 f3 (effect_text AllowOverride) text (boot (pattern_model text ps)).
Proof.
  intros o text ps H N1 N2. constructor; try reflexivity; try discriminate.
  - split; [|exact I]. prove_declares.
  - exact H.
Qed.
Definition key_rules : list rule :=
  [["alice"; "/alice_data/*"; "GET"]; ["alice"; "/alice_data/resource1"; "POST"]; ["bob"; "/alice_data/resource2"; "GET"];
   ["bob"; "/bob_data/*"; "POST"]; ["cathy"; "/cathy_data"; "(GET)|(POST)"]].
Definition key_history : list call := [KAddPolicy "p" ["dave"; "/dave_data/*"; "[GP][A-Z]+"]; KRemovePolicy "p" ["alice"; "/alice_data/*"; "GET"]].
Lemma pattern_roleless : forall text ps, roleless (boot (pattern_model text ps)).
Proof. intros text ps f [a A]. unfold get_ast in A. simpl in A. discriminate. Qed.
Ltac regexes := eapply read_regex_sound; vm_compute; reflexivity.
Example C76_keymatch_case : let e0 := boot (pattern_model keymatch_text key_rules) in
  exists e, reaches small e0 key_history e /\ Forall (safe_call (fun _ => False)) key_history /\ Forall (shaped_call 3) key_history /\
  oracle_ext mini /\ reads mini 2 keymatch_text (pattern_reading "keyMatch") /\
  standard small false f3 f3 (effect_text AllowOverride) keymatch_text e0 /\ roleless e0 /\
  (forall s p a, In [s; p; a] (stored e "p" "p") -> is_regex a) /\ stored e "p" "p" <> [] /\
  map (fun r => snd (Enforce small (reqs r) e0)) [["alice"; "/alice_data/x"; "GET"]; ["cathy"; "/cathy_data"; "POST"]; ["dave"; "/dave_data/1"; "PUT"]] = [Ok true; Ok true; Ok false] /\
  map (fun r => snd (Enforce small (reqs r) e)) [["alice"; "/alice_data/x"; "GET"]; ["cathy"; "/cathy_data"; "POST"]; ["dave"; "/dave_data/1"; "PUT"]] = [Ok false; Ok true; Ok true].
Proof.
  intros e0. eexists. split.
  { unfold key_history, e0. repeat (eapply reach_step; [vm_compute; reflexivity|discriminate|]). apply reach_nil. }
  split. { unfold key_history. repeat (apply Forall_cons; [simpl; tauto|]). apply Forall_nil. }
  split. { unfold key_history. repeat (apply Forall_cons; [simpl; auto|]). apply Forall_nil. }
  split; [apply mini_ext|]. split; [apply mini_pattern|].
  split. { apply pattern_standard; try discriminate; [|reflexivity]. intros r I. unfold key_rules in I. cases_in I; reflexivity. }
  split; [apply pattern_roleless|].
  split. { intros s p a I. vm_compute in I. repeat destruct I as [I|I]; try (inversion I; subst; regexes). }
  split; [discriminate|]. split; vm_compute; reflexivity.
Qed.
Definition key2_rules : list rule := [["alice"; "/alice_data/:resource"; "GET"]; ["alice"; "/alice_data2/:id/using/:resId"; "GET"]].
Ltac texts := repeat (split; [reflexivity|]); exact I.
Lemma lacks_of : forall c s, smem c s = false -> lacks c s.
Proof.
  intros c s H [a [b ->]]. induction a as [|x a IH]; simpl in H.
  - rewrite Ascii.eqb_refl in H. discriminate.
  - apply Bool.orb_false_iff in H. tauto.
Qed.
Lemma key2_patterns : colon_pattern [Text "/alice_data/"; Name "resource"] /\ colon_pattern [Text "/alice_data2/"; Name "id"; Text "/using/"; Name "resId"].
Proof.
  split; repeat first [apply colon_text; [texts|apply lacks_of; reflexivity|]
                      |apply colon_name; [discriminate|apply lacks_of; reflexivity|first [left; reflexivity|right; right; do 2 eexists; reflexivity]|]
                      |apply colon_nil].
Qed.
Example C76_keymatch2_case : let e := boot (pattern_model keymatch2_text key2_rules) in
  reads mini 2 keymatch2_text (pattern_reading "keyMatch2") /\
  standard small false f3 f3 (effect_text AllowOverride) keymatch2_text e /\ roleless e /\ reaches small e [] e /\
  (forall s p a, In [s; p; a] (stored e "p" "p") -> (exists ps, colon_pattern ps /\ p = with_colons ps) /\ is_regex a) /\ stored e "p" "p" <> [] /\
  map (fun r => snd (Enforce small (reqs r) e)) [["alice"; "/alice_data/hello"; "GET"]; ["alice"; "/alice_data/hello"; "POST"];
    ["alice"; "/alice_data2/myid/using/res_id"; "GET"]; ["alice"; "/alice_data2/myid"; "GET"]] = [Ok true; Ok false; Ok true; Ok false].
Proof.
  intros e. split; [apply mini_pattern|].
  split. { apply pattern_standard; try discriminate; [|reflexivity]. intros r I. unfold key2_rules in I. cases_in I; reflexivity. }
  split; [apply pattern_roleless|]. split; [constructor|].
  split. { intros s p a I. unfold e in I. change (In [s; p; a] key2_rules) in I. destruct key2_patterns as [P1 P2].
    destruct I as [I|[I|[]]]; inversion I; subst; (split; [first [eexists; split; [exact P1|reflexivity]|eexists; split; [exact P2|reflexivity]]|regexes]). }
  split; [discriminate|]. vm_compute; reflexivity.
Qed.
Definition ip_rules : list rule := [["192.168.2.0/24"; "data1"; "read"]; ["10.0.0.0/16"; "data2"; "write"]].
Lemma ip_networks : v4_net "192.168.2.0/24" [192%N; 168%N; 2%N; 0%N] 24 /\ v4_net "10.0.0.0/16" [10%N; 0%N; 0%N; 0%N] 16.
Proof.
  split; [apply (net_v4_of "192.168.2.0" "24")|apply (net_v4_of "10.0.0.0" "16")]; try (apply v4_of; vm_compute; reflexivity);
    try (apply decimal_of; [discriminate|reflexivity]); intros Q; discriminate.
Qed.
Example C76_ip_case : let e := boot (pattern_model ipmatch_text ip_rules) in
  reads mini 2 ipmatch_text ipmatch_reading /\ calls_first mini ipmatch_text "ipMatch" "r.sub" "p.sub" /\
  standard small false f3 f3 (effect_text AllowOverride) ipmatch_text e /\ roleless e /\ reaches small e [] e /\
  (forall s r, In (s :: r) (stored e "p" "p") -> exists b n, v4_net s b n) /\ ipv4_text "192.168.2.123" [192%N; 168%N; 2%N; 123%N] /\
  map (fun r => snd (Enforce small (reqs r) e)) [["192.168.2.123"; "data1"; "read"]; ["192.168.2.123"; "data2"; "write"]; ["192.168.0.123"; "data1"; "read"];
    ["10.0.255.1"; "data2"; "write"]; ["10.1.0.1"; "data2"; "write"]] = [Ok true; Ok false; Ok false; Ok true; Ok false] /\
  (** the errors *)
  snd (Enforce small (reqs ["192.168.2.123"; "data1"; "read"]) (boot (pattern_model ipmatch_text []))) = Throw ParserError /\
  snd (Enforce small (reqs ["192.168.2.123"; "data1"; "read"]) (boot (pattern_model ipmatch_text [["10.0.0.7"; "data1"; "read"]; ["192.168.2.0/24"; "data1"; "read"]]))) = Throw ParserError.
Proof.
  intros e. split; [apply mini_pattern|]. split; [apply mini_first|].
  split. { apply pattern_standard; try discriminate; [|reflexivity]. intros r I. unfold ip_rules in I. cases_in I; reflexivity. }
  split; [apply pattern_roleless|]. split; [constructor|].
  split. { intros s r I. unfold e in I. change (In (s :: r) ip_rules) in I. destruct ip_networks as [P1 P2]. destruct I as [I|[I|[]]]; inversion I; subst; eauto. }
  split; [apply v4_of; vm_compute; reflexivity|]. split; [vm_compute; reflexivity|]. split; vm_compute; reflexivity.
Qed.
Definition rbac_pattern_model : model :=
  [("r", [("r", ast "r" "sub, obj, act" r3 (Vec []))]);
   ("p", [("p", ast "p" "sub, obj, act" p3 (Vec [["alice"; "data1"; "GET"]; ["group_admin"; "data_group"; "(GET)|(POST)"]]))]);
   ("g", [("g", ast "g" "_, _" [] (Vec [["alice"; "group_admin"]])); ("g2", ast "g2" "_, _" [] (Vec [["data1"; "data_group"]; ["data2"; "data_group"]]))]);
   ("e", [("e", ast "e" (effect_text AllowOverride) [] (Vec []))]);
   ("m", [("m", ast "m" rbac_pattern_text [] (Vec []))])].
Example C76_rbac_pattern_case : let e := linked_boot rbac_pattern_model in
  reads mini 2 rbac_pattern_text rbac_pattern_reading /\ tidy plain_names 2 (fun r => In r res_all) /\
  managed small plain_names 2 (fun r => In r res_all) e /\
  standard small false f3 f3 (effect_text AllowOverride) rbac_pattern_text e /\ declared e "g" "g" /\ declared e "g" "g2" /\ reaches small e [] e /\
  (forall s p a, In [s; p; a] (stored e "p" "p") -> plain_names (None, s) /\ plain_names (None, p) /\ is_regex a) /\
  map (fun r => snd (Enforce small (reqs r) e)) [["alice"; "data2"; "POST"]; ["alice"; "data2"; "DELETE"]; ["bob"; "data2"; "POST"]; ["alice"; "data3"; "GET"]]
    = [Ok true; Ok false; Ok false; Ok false].
Proof.
  intros e. split; [apply mini_pattern|]. split; [apply res_tidy|].
  split.
  { apply (managed_built small plain_names 2 _ (boot rbac_pattern_model)); try reflexivity.
    - eexists. split; reflexivity.
    - split.
      + repeat constructor; simpl; intuition discriminate.
      + intros pt a H. simpl in H. destruct (String.eqb pt "g") eqn:E; [|destruct (String.eqb pt "g2"); [|discriminate]];
          inversion H; subst; (split; [reflexivity|]); simpl; apply Forall_forall; unfold res_all; simpl; tauto. }
  split.
  { constructor; try reflexivity; try discriminate.
    - split; [|exact I]. prove_declares.
    - intros r I. vm_compute in I. cases_in I; reflexivity. }
  split; [eexists; reflexivity|]. split; [eexists; reflexivity|]. split; [constructor|].
  split. { intros s p a I. vm_compute in I. destruct I as [I|[I|[]]]; inversion I; subst; (split; [reflexivity|]); (split; [reflexivity|]); regexes. }
  vm_compute. reflexivity.
Qed.

(** The documented functions are there under their names: once they have been loaded the
    evaluator knows each of them as the built-in function, whatever it knew before except
    the role functions of some model; the role functions loaded afterwards replace none. *)
Theorem C76_names : forall n, In n ["keyMatch"; "keyMatch2"; "keyMatch3"; "keyMatch4"; "regexMatch"; "ipMatch"; "keyGet"; "keyGet2"; "keyGet3"] ->
  forall ev m, aget n (ev_funs ev) = None \/ aget n (ev_funs ev) = Some FBuiltin ->
  aget n (ev_funs (load_g_functions m (LoadFunctions ev))) = Some FBuiltin.
Proof.
  intros n I ev m H. rewrite load_g_fold, LoadFunctions_fold, !funs_fold, aget_builtin.
  assert (B : inb n builtin_names = true).
  { simpl in I. repeat (destruct I as [<-|I]; [reflexivity|]). contradiction. }
  rewrite B. destruct H as [-> | ->]; reflexivity.
Qed.
(** And nothing else: a name that is neither one of them nor a role function of the model
    is unknown to the matchers. *)
Theorem C76_no_other_names : forall n m,
  ~ In n ["keyMatch"; "keyMatch2"; "keyMatch3"; "keyMatch4"; "regexMatch"; "ipMatch"; "keyGet"; "keyGet2"; "keyGet3"] ->
  ~ In n (map fst (sec_of m "g")) ->
  aget n (ev_funs (load_g_functions m (LoadFunctions new_evaluator))) = None.
Proof.
  intros n m N G. rewrite load_g_fold, LoadFunctions_fold, !funs_fold, aget_builtin, aget_g_list.
  destruct (inb n builtin_names) eqn:B; [apply inb_true in B; contradiction|].
  destruct (aget n (sec_of m "g")) eqn:A; [|reflexivity]. destruct G. clear - A.
  induction (sec_of m "g") as [|[k v] l IH]; [discriminate|]. simpl in *. destruct (String.eqb_spec n k); [left; auto|right; auto].
Qed.
Example C76_names_case : let ev := load_g_functions (rbac_model [] []) (LoadFunctions new_evaluator) in
  aget "keyMatch2" (ev_funs ev) = Some FBuiltin /\ aget "g" (ev_funs ev) <> None /\ aget "keyMatch5" (ev_funs ev) = None.
Proof. vm_compute. repeat split; discriminate. Qed.
Print Assumptions C76_names.
Print Assumptions C76_no_other_names.
