(** Property C109: names that differ in the case of their letters. *)
From Verif Require Import Base P_Base M_Util M_RoleManager M_Effector M_Model M_Persist M_Eval M_Evaluator M_Enforcer M_Matcher M_OwnEvaluator M_Case
  S_Effect S_Enforce S_Policy S_History S_Roles S_Sync S_Rbac S_Standard S_OwnEvaluator S_Case P_Effect P_Enforce P_Decide P_OwnEvaluator P_Case E_Examples
  T_Users T_OwnEvaluator.

(** When no two of the names in use differ in case only, every sequence of requests, to
    enforcers in any states, is answered as if names were compared exactly, the names in
    expressions being read in the spelling of the model. *)
Theorem C109_same_partial : forall o fl rf pf funs qs ev,
  oracle_ext o -> no_case_twins (field_names rf pf) -> no_case_twins funs -> incl builtin_names funs ->
  (forall e m q, In (e, (m, q)) qs -> uses_names rf pf funs e q) -> knows_only (field_names rf pf) funs ev ->
  enforce_all (exprtk_ci o fl) qs ev = enforce_all (exprtk (respelt (field_names rf pf) funs o) fl) qs ev.
Proof. intros o fl rf pf funs qs ev X AV AF B W K. apply (agree_all o fl rf pf funs X AV AF B qs ev W K). Qed.

(** In particular the enforcement of the other properties is that of the library. *)
Theorem C109_enforce_partial : forall o fl rf pf funs e matcher params r,
  oracle_ext o -> no_case_twins (field_names rf pf) -> no_case_twins funs -> incl builtin_names funs ->
  uses_names rf pf funs e (InOrder params) -> knows_only (field_names rf pf) funs (own_evaluator e) ->
  get_ast (e_model e) "r" "r" = Ok r -> List.length params = List.length (a_tokens r) ->
  EnforceExWithMatcher (respelt (field_names rf pf) funs o) matcher (map plain params) e =
  (let (ev, out) := EnforceExWithMatcher_ev (exprtk_ci o fl) e matcher params (own_evaluator e) in (set_ev (Some ev) e, out)) /\
  knows_only (field_names rf pf) funs (fst (EnforceExWithMatcher_ev (exprtk_ci o fl) e matcher params (own_evaluator e))).
Proof.
  intros o fl rf pf funs e matcher params r X AV AF B W K GR L.
  rewrite (proj1 (proj2 (C102_default (respelt (field_names rf pf) funs o) fl e)) matcher params r GR L).
  destruct (agree_once o fl rf pf funs X AV AF B e matcher (InOrder params) W (own_evaluator e) (own_evaluator e) (conj eq_refl K)) as [[E K'] A].
  unfold enforce_once in *. cbn [fst snd] in *.
  destruct (EnforceExWithMatcher_ev (exprtk_ci o fl) e matcher params (own_evaluator e)) as [s1 a1].
  destruct (EnforceExWithMatcher_ev (exprtk _ fl) e matcher params (own_evaluator e)) as [s2 a2]. cbn [fst snd] in *. subst. auto.
Qed.

(** What the other properties ask of the library holds of it with these spellings. *)
Theorem C109_library : forall o vars funs, oracle_ext o ->
  oracle_ext (respelt vars funs o) /\
  (forall n text d, no_case_twins vars -> no_case_twins funs -> incl (rd_vars d) vars -> incl (rd_funs d) funs ->
     (forall val f args, In (f, args) (rd_calls d val) -> In f funs) ->
     reads o n text d -> reads (respelt vars funs o) n text d) /\
  (no_case_twins vars -> no_case_twins funs -> incl ["r.sub"; "r.obj"; "r.act"; "p.sub"; "p.obj"; "p.act"] vars -> In "g" funs ->
     reads_rbac o -> reads_rbac (respelt vars funs o)).
Proof.
  intros o vars funs [X1 X2]. split; [|split].
  - split; intros; cbn [respelt o_compiles o_value]; [apply X1|apply X2]; auto.
  - intros n text d AV AF IV IF IC [R1 R2 R3]. split; cbn [respelt o_compiles o_value].
    + intros v f V F. apply R1.
      * intros x I. rewrite (spelling_in vars x AV (IV x I)). auto.
      * intros x I. rewrite (spelling_in funs x AF (IF x I)). auto.
    + intros v g val V G OK. destruct (R2 (fun x => v (spelling vars x)) (fun x => g (spelling funs x)) val) as [b [E B]]; auto.
      * intros x I. rewrite (spelling_in vars x AV (IV x I)). auto.
      * intros f args I. rewrite (spelling_in funs f AF (IC val f args I)). auto.
      * exists b. split; auto. rewrite B. split; apply R3; intros f args I; rewrite (spelling_in funs f AF (IC val f args I)); tauto.
    + exact R3.
  - intros AV AF IV IG [R1 R2]. split; cbn [respelt o_compiles o_value].
    + intros v f V F. apply R1.
      * intros x I. rewrite (spelling_in vars x AV (IV x I)). auto.
      * rewrite (spelling_in funs "g" AF IG). exact F.
    + intros v g rs ro ra ps po pa b V1 V2 V3 V4 V5 V6 G. apply R2 with (ps := ps) (rs := rs); try (rewrite (spelling_in vars _ AV); [assumption|apply IV; simpl; tauto]).
      rewrite (spelling_in funs "g" AF IG). exact G.
Qed.

(** So the decisions of the RBAC model are those of the library as it is, whatever letters its
    expressions are written in. *)
Theorem C109_rbac : forall o fl names rules e sub obj act,
  let funs := "g" :: builtin_names in
  let o' := respelt (field_names f3 f3) funs o in
  oracle_ext o -> reads_rbac o -> tidy names 2 rules -> managed o' names 2 rules e -> standard_rbac o' e ->
  (forall n a, In (n, a) (sec_of (e_model e) "g") -> n = "g") -> knows_only (field_names f3 f3) funs (own_evaluator e) ->
  names (None, sub) -> (forall s r, In (s :: r) (stored e "p" "p") -> names (None, s)) ->
  (stored e "p" "p" <> [] \/ names (None, "") /\ (obj <> "" \/ act <> "")) ->
  exists b why, snd (EnforceExWithMatcher_ev (exprtk_ci o fl) e "" (map OStr [sub; obj; act]) (own_evaluator e)) = Ok (b, why) /\
    (b = true <-> exists s, In [s; obj; act] (stored e "p" "p") /\ within (assigned e) None (level_of e) sub s).
Proof.
  intros o fl names rules e sub obj act funs o' X RB T M S G K N1 N2 N3.
  assert (AV : no_case_twins (field_names f3 f3)) by (apply no_twins_by; vm_compute; reflexivity).
  assert (AF : no_case_twins funs) by (apply no_twins_by; vm_compute; reflexivity).
  destruct (C109_library o (field_names f3 f3) funs X) as [X' [_ RB']].
  assert (RB'' : reads_rbac o'). { apply RB'; auto. - intros x I. vm_compute. vm_compute in I. tauto. - left. auto. }
  destruct (C36_rbac_decision o' names rules e sub obj act X' RB'' T M S N1 N2 N3) as [b [E B]].
  destruct (sr_ready _ _ S) as [D _]. destruct (d_r _ _ _ _ _ D) as [ra [GR TR]]. destruct (d_p _ _ _ _ _ D) as [pa [GP TP]].
  assert (W : uses_names f3 f3 funs e (InOrder (map OStr [sub; obj; act]))).
  { split; [|split; [|split]]; auto.
    - intros a GA. rewrite GR in GA. inversion GA; subst. exists f3. split; auto. intros x; auto.
    - intros a GA. rewrite GP in GA. inversion GA; subst. exists f3. split; auto. intros x; auto.
    - intros n a I. left. symmetry. apply (G n a I). }
  assert (BI : incl builtin_names funs) by (intros x I; right; exact I).
  assert (LE : List.length (map OStr [sub; obj; act]) = List.length (a_tokens ra)) by (rewrite TR; reflexivity).
  destruct (C109_enforce_partial o fl f3 f3 funs e "" (map OStr [sub; obj; act]) ra X AV AF BI W K GR LE) as [Q _].
  unfold Enforce, EnforceWithMatcher, mbind in E. change (map DStr [sub; obj; act]) with (map plain (map OStr [sub; obj; act])) in E.
  fold o' in Q. rewrite Q in E. destruct (EnforceExWithMatcher_ev (exprtk_ci o fl) e "" (map OStr [sub; obj; act]) (own_evaluator e)) as [ev [[c why]|t|u]]; try discriminate.
  cbn [fst snd] in *. inversion E; subst. exists b, why. auto.
Qed.
(** Cases: the organisation of C36 meets the hypotheses, and a matcher in other letters means
    the same. *)
Definition loud : string := "G(R.SUB, P.Sub) && r.Obj == p.oBJ && R.ACT == p.act".
Example C109_rbac_case : let o' := respelt (field_names f3 f3) ("g" :: builtin_names) mini in
  oracle_ext mini /\ reads_rbac mini /\ tidy T_Rbac.plain_names 2 T_Rbac.org_rule /\ managed o' T_Rbac.plain_names 2 T_Rbac.org_rule T_Rbac.org /\ standard_rbac o' T_Rbac.org /\
  (forall n a, In (n, a) (sec_of (e_model T_Rbac.org) "g") -> n = "g") /\
  knows_only (field_names f3 f3) ("g" :: builtin_names) (own_evaluator T_Rbac.org) /\
  map (fun q => snd (EnforceExWithMatcher_ev (exprtk_ci mini (fun _ => false)) T_Rbac.org loud (map OStr q) new_evaluator))
    [["alice"; "data1"; "read"]; ["alice"; "data2"; "write"]; ["carol"; "data1"; "read"]] =
  map (fun q => snd (EnforceEx mini (map DStr q) T_Rbac.org)) [["alice"; "data1"; "read"]; ["alice"; "data2"; "write"]; ["carol"; "data1"; "read"]].
Proof.
  cbv zeta. split; [apply mini_ext|]. split; [apply mini_reads_rbac|]. split; [apply T_Rbac.org_tidy|]. split; [apply T_Rbac.org_managed|].
  split; [apply org_standard|]. split; [|split].
  - intros n a I. vm_compute in I. destruct I as [E|[]]. inversion E. reflexivity.
  - split; intros x v [].
  - vm_compute. reflexivity.
Qed.

(** When the rules are in a vector, the letters of the names in a request do not matter: two
    sequences of requests that differ in them only get the same answers. *)
Theorem C109_any_case : forall o fl qs1 qs2 ev, oracle_ext o ->
  Forall2 (fun a b => fst a = fst b /\ fst (snd a) = fst (snd b) /\ request_alike (snd (snd a)) (snd (snd b)) /\
                      p_indexed (e_model (fst a)) = false) qs1 qs2 ->
  snd (enforce_all (exprtk_ci o fl) qs1 ev) = snd (enforce_all (exprtk_ci o fl) qs2 ev).
Proof.
  intros o fl qs1 qs2 ev X F. assert (Q : forall s1 s2, alike s1 s2 -> snd (enforce_all (exprtk_ci o fl) qs1 s1) = snd (enforce_all (exprtk_ci o fl) qs2 s2)).
  2:{ apply Q, alike_refl. }
  induction F as [|[e [m q]] [e' [m' q']] l1 l2 [E1 [E2 [E3 NI]]] F IH]; intros s1 s2 A; auto. cbn [fst snd] in *. subst e' m'. cbn [enforce_all].
  destruct (alike_once o fl fl X e m q q' NI E3 s1 s2 A) as [A' E]. specialize (IH _ _ A').
  destruct (enforce_once _ e (m, q) s1) as [t1 a1], (enforce_once _ e (m, q') s2) as [t2 a2]. cbn [fst snd] in *. subst a2.
  destruct (enforce_all _ l1 t1), (enforce_all _ l2 t2). cbn [snd] in *. congruence.
Qed.
Example C109_any_case_case :
  let qs1 := [(T_Rbac.org, ("", ByName [("sub", OStr "alice"); ("obj", OStr "data1"); ("act", OStr "read")]))] in
  let qs2 := [(T_Rbac.org, ("", ByName [("SUB", OStr "alice"); ("Obj", OStr "data1"); ("aCt", OStr "read")]))] in
  Forall2 (fun a b => fst a = fst b /\ fst (snd a) = fst (snd b) /\ request_alike (snd (snd a)) (snd (snd b)) /\
                      p_indexed (e_model (fst a)) = false) qs1 qs2 /\
  exists why, snd (enforce_all (exprtk_ci mini (fun _ => false)) qs2 new_evaluator) = [Ok (true, why)].
Proof.
  cbv zeta. split.
  - constructor; [|constructor]. split; [reflexivity|]. split; [reflexivity|]. split; [|reflexivity]. cbn [snd request_alike].
    repeat (constructor; [split; [apply same_name_iff; vm_compute; reflexivity|reflexivity]|]). constructor.
  - eexists. vm_compute. reflexivity.
Qed.

(** Of two request fields that differ in case only, the value of the first is lost: whatever it
    is, the answer is the same. *)
Theorem C109_lost_value_refuted : forall o fl e matcher ev ra a f b g c ps v v' qs w rs,
  get_ast (e_model e) "r" "r" = Ok ra -> a_tokens ra = map (fun f => ("r_" ++ f)%string) (a ++ f :: b ++ g :: c) ->
  (forall x, In x (a ++ f :: b ++ g :: c) -> valid_symbol ("r." ++ x) = true) ->
  same_but_case f g -> List.length ps = List.length a -> List.length qs = List.length b ->
  EnforceExWithMatcher_ev (exprtk_ci o fl) e matcher (ps ++ OStr v :: qs ++ OStr w :: rs) ev =
  EnforceExWithMatcher_ev (exprtk_ci o fl) e matcher (ps ++ OStr v' :: qs ++ OStr w :: rs) ev.
Proof.
  intros o fl e matcher ev ra a f b g c ps v v' qs w rs GR TR VS S L1 L2. rewrite !(in_order o fl e matcher _ ev ra _ GR TR).
  replace (List.length (ps ++ OStr v' :: qs ++ OStr w :: rs)) with (List.length (ps ++ OStr v :: qs ++ OStr w :: rs))
    by (rewrite !app_length; cbn [List.length]; rewrite !app_length; reflexivity).
  destruct (negb _); auto. unfold vbind.
  assert (CO : forall z, combine (a ++ f :: b ++ g :: c) (ps ++ OStr z :: qs ++ OStr w :: rs) = combine a ps ++ (f, OStr z) :: combine b qs ++ (g, OStr w) :: combine c rs).
  { intros z. assert (CA : forall (x : list string) (y : list odata) x' y', List.length y = List.length x -> combine (x ++ x') (y ++ y') = combine x y ++ combine x' y').
    { induction x as [|x0 x IH]; intros [|y0 y] x' y' E; try discriminate; auto. cbn [combine app]. f_equal. apply IH. inversion E. auto. }
    rewrite CA by auto. cbn [combine]. rewrite CA by auto. reflexivity. }
  assert (VP : forall z x u, In (x, OStr u) (combine (a ++ f :: b ++ g :: c) (ps ++ OStr z :: qs ++ OStr w :: rs)) -> valid_symbol ("r." ++ x) = true).
  { intros z x u I. apply in_combine_l in I. auto. }
  rewrite !pushed_map by (intros x u I; eapply VP; exact I). rewrite !CO. rewrite (overwritten _ f v v' _ g w _ (ev_vars ev) S). reflexivity.
Qed.
(** So a request is allowed that no rule is about. *)
Definition twin_model : model :=
  [("r", [("r", ast "r" "sub, Obj, obj" ["r_sub"; "r_Obj"; "r_obj"] (Vec []))]);
   ("p", [("p", ast "p" "sub, Obj, obj" ["p_sub"; "p_Obj"; "p_obj"] (Vec [["alice"; "data1"; "data2"]]))]);
   ("g", [("g", ast "g" "_, _" [] (Vec []))]);
   ("e", [("e", ast "e" (effect_text AllowOverride) [] (Vec []))]);
   ("m", [("m", ast "m" "g(r.sub, p.sub) && r.Obj == p.Obj && r.obj == p.obj" [] (Vec []))])].
Theorem C109_wrongly_allowed_refuted : exists e why,
  stored e "p" "p" = [["alice"; "data1"; "data2"]] /\
  snd (Enforce mini (map DStr ["alice"; "data9"; "data2"]) e) = Ok false /\
  snd (EnforceExWithMatcher_ev (exprtk_ci mini (fun _ => false)) e "" (map OStr ["alice"; "data9"; "data2"]) new_evaluator) = Ok (true, why).
Proof. exists (linked_boot twin_model). eexists. split; [|split]; vm_compute; reflexivity. Qed.

(** With the hash index, a model with two such fields answers no request at all. *)
Theorem C109_twins_index_refuted : forall o fl e matcher ev rf pf eft mat f g vals,
  outline (e_model e) rf pf eft mat -> e_enabled e = true -> p_indexed (e_model e) = true ->
  In f rf -> In g rf -> same_but_case f g -> f <> g ->
  (forall x, In x rf -> valid_symbol ("r." ++ x) = true) -> List.length vals = List.length rf -> one_spelling ev ->
  exists ev', EnforceExWithMatcher_ev (exprtk_ci o fl) e matcher (map OStr vals) ev = (ev', Throw StdLogicError) /\ one_spelling ev'.
Proof.
  intros o fl e matcher ev rf pf eft mat f g vals OL EN IX IF IG S NE VS L O. pose proof (l_r _ _ _ _ _ OL) as [ra [GR TR]].
  rewrite (in_order o fl e matcher _ ev ra _ GR TR), map_length, L, Nat.eqb_refl. cbn [negb]. unfold vbind.
  rewrite pushed_map by (intros x u I; apply VS; eapply in_combine_l, I).
  set (ev1 := with_vars (sets (combine rf (map OStr vals)) (ev_vars ev)) ev). assert (O1 : one_spelling ev1) by (apply one_sets, O).
  assert (IV : exists v, In (f, OStr v) (combine rf (map OStr vals))).
  { clear - IF L. revert vals L. induction rf as [|x rf IH]; intros [|y vals] L; try discriminate; [destruct IF|]. destruct IF as [E|I].
    - subst. exists y. left. auto.
    - destruct (IH I vals) as [v J]; [inversion L; auto|]. exists v. right. exact J. }
  destruct IV as [v IV]. destruct (one_of_two _ ev f g v O IV S NE) as [M|M]; fold ev1 in M.
  - destruct (misled_enforce o fl e matcher rf pf eft mat f ev1 OL EN IX IF M) as [ev' [E V]]. exists ev'. rewrite E. split; auto.
    unfold one_spelling in *. rewrite V. exact O1.
  - destruct (misled_enforce o fl e matcher rf pf eft mat g ev1 OL EN IX IG M) as [ev' [E V]]. exists ev'. rewrite E. split; auto.
    unfold one_spelling in *. rewrite V. exact O1.
Qed.

(** With the hash index, one request that names a field in other letters is refused with a
    standard exception, and so is every request after it, of either form, however it is
    spelled, whatever the rules have become. *)
Theorem C109_poisoned_refuted : forall o fl f qs ev, misled f ev ->
  (forall e m q, In (e, (m, q)) qs -> e_enabled e = true /\ p_indexed (e_model e) = true /\
     exists rf pf eft mat, outline (e_model e) rf pf eft mat /\ In f rf /\
       match q with
       | InOrder ps => List.length ps = List.length rf /\ forall x, In x rf -> valid_symbol ("r." ++ x) = true
       | ByName ps => forall x v, In (x, OStr v) ps -> valid_symbol ("r." ++ x) = true
       end) ->
  Forall (fun a => a = Throw StdLogicError) (snd (enforce_all (exprtk_ci o fl) qs ev)).
Proof.
  intros o fl f qs. induction qs as [|[e [m q]] qs IH]; intros ev M H; [constructor|]. cbn [enforce_all].
  destruct (H e m q (or_introl eq_refl)) as [EN [IX [rf [pf [eft [mat [OL [IF Q]]]]]]]].
  assert (ST : exists ev', enforce_once (exprtk_ci o fl) e (m, q) ev = (ev', Throw StdLogicError) /\ misled f ev').
  { unfold enforce_once. cbn [fst snd]. destruct q as [ps|ps].
    - destruct Q as [L VS]. pose proof (l_r _ _ _ _ _ OL) as [ra [GR TR]]. 
      rewrite (in_order o fl e m _ ev ra _ GR TR), L, Nat.eqb_refl. cbn [negb]. unfold vbind.
      rewrite pushed_map by (intros x u I; apply VS; eapply in_combine_l, I).
      pose proof (misled_sets f (combine rf ps) ev M) as M1.
      destruct (misled_enforce o fl e m rf pf eft mat f _ OL EN IX IF M1) as [ev' [E V]]. rewrite E. exists ev'. split; auto.
      apply (misled_vars f _ _ (eq_sym V) M1).
    - unfold EnforceExWithMatcherMap_ev. unfold vbind at 1. cbn [exprtk_ci]. unfold vbind. rewrite pushed_map by (intros x u I; apply (Q x u I)).
      pose proof (misled_sets f ps ev M) as M1.
      destruct (misled_enforce o fl e m rf pf eft mat f _ OL EN IX IF M1) as [ev' [E V]]. rewrite E. exists ev'. split; auto.
      apply (misled_vars f _ _ (eq_sym V) M1). }
  destruct ST as [ev' [E M']]. rewrite E. specialize (IH ev' M').
  assert (H' : Forall (fun a => a = Throw StdLogicError) (snd (enforce_all (exprtk_ci o fl) qs ev'))).
  { apply IH. intros e' m' q' I. apply (H e' m' q'). right. exact I. }
  destruct (enforce_all (exprtk_ci o fl) qs ev') as [s l]. cbn [snd] in *. constructor; auto.
Qed.
(** A request in other letters is what makes it so. *)
Theorem C109_first_refuted : forall o fl e matcher rf pf eft mat f g v ps,
  outline (e_model e) rf pf eft mat -> e_enabled e = true -> p_indexed (e_model e) = true ->
  In f rf -> In (g, OStr v) ps -> same_but_case g f -> (forall w, ~ In (f, OStr w) ps) ->
  (forall x w, In (x, OStr w) ps -> valid_symbol ("r." ++ x) = true) ->
  exists ev', enforce_once (exprtk_ci o fl) e (matcher, ByName ps) new_evaluator = (ev', Throw StdLogicError) /\ misled f ev'.
Proof.
  intros o fl e matcher rf pf eft mat f g v ps OL EN IX IF IG S N VS. unfold enforce_once. cbn [fst snd].
  unfold EnforceExWithMatcherMap_ev. unfold vbind at 1. cbn [exprtk_ci]. unfold vbind. rewrite pushed_map by (intros x u I; apply (VS x u I)).
  assert (M1 : misled f (with_vars (sets ps (ev_vars new_evaluator)) new_evaluator)).
  { assert (O : one_spelling new_evaluator) by (split; intros k w; cbn; tauto). destruct (one_sets ps _ O) as [D _]. split; [exact D|]. cbn [with_vars ev_vars] in *.
    split.
    - destruct (sets_there ps [] g v IG) as [k [w [I T]]]. exists k, w. split; auto. apply sbc_trans with ("r." ++ g)%string; auto. apply same_prefix, S.
    - clear - N. assert (Q : forall l t w, In (("r." ++ f)%string, w) (sets l t) -> (exists w', In (("r." ++ f)%string, w') t) \/ exists w', In (f, OStr w') l).
      { induction l as [|[n [x|x]] l IH]; intros t w I; cbn [sets] in I; [left; eauto| |].
        - apply IH in I. destruct I as [[w' I]|[w' I]]; [|right; exists w'; right; exact I]. apply set_keys in I.
          destruct I as [[w'' I]|[E _]]; [left; eauto|]. right. exists x. left. inversion E. reflexivity.
        - apply IH in I. destruct I as [I|[w' I]]; [left; auto|right; exists w'; right; exact I]. }
      intros w I. apply Q in I. destruct I as [[w' []]|[w' I]]. apply (N w' I). }
  destruct (misled_enforce o fl e matcher rf pf eft mat f _ OL EN IX IF M1) as [ev' [E V]]. rewrite E. exists ev'. split; auto.
  apply (misled_vars f _ _ (eq_sym V) M1).
Qed.
(** A case: the model of C14 with its index; the third request is the one the only rule is about. *)
Definition indexed_one : enforcer := boot (basic_hash_model [["alice"; "data1"; "read"]]).
Definition proper : list odata := map OStr ["alice"; "data1"; "read"].
Definition shouted : list (string * odata) := [("Sub", OStr "alice"); ("obj", OStr "data1"); ("act", OStr "read")].
Example C109_poisoned_case :
  outline (e_model indexed_one) f3 f3 (effect_text AllowOverride) basic_matcher /\ e_enabled indexed_one = true /\ p_indexed (e_model indexed_one) = true /\
  snd (enforce_all (exprtk_ci mini (fun _ => false)) [(indexed_one, ("", InOrder proper))] new_evaluator) = [Ok (true, ["alice"; "data1"; "read"])] /\
  snd (enforce_all (exprtk_ci mini (fun _ => false)) [(indexed_one, ("", ByName shouted)); (indexed_one, ("", InOrder proper));
      (indexed_one, ("", ByName [("sub", OStr "alice"); ("obj", OStr "data1"); ("act", OStr "read")]))] new_evaluator) =
    [Throw StdLogicError; Throw StdLogicError; Throw StdLogicError].
Proof.
  split; [|split; [|split; [|split]]]; try (vm_compute; reflexivity).
  destruct (basic_hash_declares [["alice"; "data1"; "read"]]) as [R P E M _ NP _ _ _]. split; auto.
Qed.

Print Assumptions C109_same_partial.
Print Assumptions C109_enforce_partial.
Print Assumptions C109_library.
Print Assumptions C109_rbac.
Print Assumptions C109_any_case.
Print Assumptions C109_lost_value_refuted.
Print Assumptions C109_wrongly_allowed_refuted.
Print Assumptions C109_twins_index_refuted.
Print Assumptions C109_poisoned_refuted.
Print Assumptions C109_first_refuted.
