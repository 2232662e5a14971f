(** Property C77: the decisions of further example models. *)
From Verif Require Import Base P_Base M_Util M_RoleManager M_Effector M_Model M_Persist M_Eval M_Evaluator M_Enforcer M_Matcher
  S_Effect S_Enforce S_Policy S_History S_Roles S_Sync S_Rbac S_Standard S_Models
  P_Enforce P_Decide P_Store P_Api P_History P_Roles P_Sync P_Ready P_Standard E_Examples T_Enforce T_Policy T_Rbac T_Users T_Standard.

(** ** Models without roles, with or without rules *)
Lemma quiet_decision : forall o hashed rf pf text d e req,
  oracle_ext o -> reads o 2 text d -> text <> "" -> HasEval text = false ->
  (forall x, In x (rd_vars d) -> In x (r_names rf ++ p_names pf)) ->
  rd_funs d = [] -> (forall v, rd_calls d v = []) -> (forall v, rd_ok d v) ->
  standard o hashed rf pf (effect_text AllowOverride) text e -> List.length req = List.length rf ->
  exists b, snd (Enforce o (map DStr req) e) = Ok b /\
    (b = true <-> (exists r, In r (candidates (e_model e) req) /\ rd_sem d (value_of rf req pf r) (linked e) /\ effect_of pf r = Allow) \/
       (candidates (e_model e) req = [] /\ rd_sem d (value_of rf req pf (blank pf)) (linked e))).
Proof.
  intros o hashed rf pf text d e req X RD TX NE VARS NF NC OK S L.
  assert (K : forall v, calls_ok (fun _ => False) d v). { intros v. split; auto. rewrite NC. intros f args []. }
  assert (KE : kept o (fun _ => False) 2 (fun _ => False) d e). { intros f I. rewrite NF in I. destruct I. }
  assert (DA : defines_all e d). { intros f I. rewrite NF in I. destruct I. }
  destruct (list_eq_dec (list_eq_dec String.string_dec) (candidates (e_model e) req) []) as [ST|ST].
  - destruct (std_value o (fun _ => False) 2 (fun _ => False) rf pf text d RD VARS no_names_tidy e req (blank pf) KE DA L) as [b [E B]]; auto.
    { unfold blank. rewrite map_length. auto. }
    unfold Enforce. destruct (enforce_spec o e rf pf (effect_text AllowOverride) text "" req X (st_ready _ _ _ _ _ _ _ S) L) as [ev [EQ _]].
    { apply plain_texts; auto. }
    rewrite snd_EnforceWithMatcher, EQ. unfold enforce_outcome. rewrite (st_on _ _ _ _ _ _ _ S), ST. cbn [negb snd].
    unfold empty_outcome. change (chosen "" text) with text. rewrite NE.
    rewrite (std_compiles o (fun _ => False) 2 (fun _ => False) rf pf text d RD VARS no_names_tidy e KE DA). unfold blank in E. rewrite E. cbn [bind].
    exists b. split; [destruct b; reflexivity|]. rewrite B. split; [auto|]. intros [[r [[] _]]|[_ Q]]. exact Q.
  - destruct (std_decision o (fun _ => False) 2 (fun _ => False) hashed rf pf AllowOverride text d X RD TX NE VARS) with (e := e) (req := req)
      as [b [E B]]; auto; try apply no_names_tidy.
    exists b. split; auto. rewrite B. unfold granted. split; [auto|]. intros [Q|[Q _]]; auto. elim (ST Q).
Qed.

(** ** Equal fields *)
Lemma prefixed_inj : forall p a b, (p ++ a)%string = (p ++ b)%string -> a = b.
Proof. induction p; simpl; intros; [auto|inversion H; auto]. Qed.
Lemma prefixed_NoDup : forall p fs, NoDup fs -> NoDup (map (fun f => (p ++ f)%string) fs).
Proof.
  intros p fs N. induction N; simpl; constructor; auto. intros I. apply in_map_iff in I. destruct I as [y [E J]].
  apply prefixed_inj in E. subst. contradiction.
Qed.
Lemma aget_prefixed : forall p fs (l : list string) g, aget (p ++ g)%string (combine (map (fun f => (p ++ f)%string) fs) l) = aget g (combine fs l).
Proof.
  intros p. induction fs as [|f fs IH]; intros l g; [reflexivity|]. destruct l as [|x l]; [reflexivity|]. simpl.
  rewrite IH. destruct (String.eqb_spec g f) as [->|N]; [rewrite String.eqb_refl; reflexivity|].
  destruct (String.eqb_spec (p ++ g)%string (p ++ f)%string) as [E|_]; auto. apply prefixed_inj in E. congruence.
Qed.
Lemma aget_other : forall p q fs (l : list string) g, (forall x y, (p ++ x)%string <> (q ++ y)%string) ->
  aget (p ++ g)%string (combine (map (fun f => (q ++ f)%string) fs) l) = None.
Proof.
  intros p q. induction fs as [|f fs IH]; intros l g H; [reflexivity|]. destruct l as [|x l]; [reflexivity|]. simpl.
  rewrite IH; auto. destruct (String.eqb_spec (p ++ g)%string (q ++ f)%string) as [E|_]; auto. destruct (H _ _ E).
Qed.
Definition field (fs l : list string) (g : string) : string := match aget g (combine fs l) with Some x => x | None => "" end.
Lemma value_fields : forall fs req r g,
  value_of fs req fs r ("r." ++ g)%string = field fs req g /\ value_of fs req fs r ("p." ++ g)%string = field fs r g.
Proof.
  intros fs req r g. unfold value_of, env, field, r_names, p_names. rewrite !aget_app. rewrite !aget_prefixed.
  rewrite (aget_other "r." "p."), (aget_other "p." "r."); try (intros x y Q; discriminate).
  split; [destruct (aget g (combine fs req)); reflexivity|reflexivity].
Qed.
Lemma fields_equal : forall fs a b, NoDup fs -> List.length a = List.length fs -> List.length b = List.length fs ->
  (forall g, In g fs -> field fs a g = field fs b g) -> a = b.
Proof.
  induction fs as [|f fs IH]; intros a b N La Lb H; destruct a as [|x a], b as [|y b]; try discriminate; auto.
  inversion N; subst. assert (x = y). { specialize (H f (or_introl eq_refl)). unfold field in H. simpl in H. rewrite String.eqb_refl in H. exact H. }
  subst. f_equal. apply IH; auto. intros g I. specialize (H g (or_intror I)). unfold field in H |- *. simpl in H.
  destruct (String.eqb_spec g f) as [E|_]; [subst; contradiction|exact H].
Qed.
Lemma same_sem : forall fs req r R, NoDup fs -> List.length req = List.length fs -> List.length r = List.length fs ->
  (rd_sem (same_reading fs) (value_of fs req fs r) R <-> req = r).
Proof.
  intros fs req r R N L1 L2. cbn [rd_sem same_reading]. split.
  - intros H. apply (fields_equal fs); auto. intros g I. specialize (H g I). destruct (value_fields fs req r g) as [<- <-]. exact H.
  - intros -> g I. destruct (value_fields fs r r g) as [-> ->]. reflexivity.
Qed.
Lemma effect_plain : forall pf r, ~ In "eft" pf -> effect_of pf r = Allow.
Proof.
  intros pf r N. unfold effect_of. destruct (aget "eft" (combine pf r)) eqn:E; auto. elim N.
  apply aget_In in E. eapply in_combine_l; eauto.
Qed.

(** Models that compare all fields, of any number and name, through every history: a request
    is allowed exactly if it is a stored rule, and also, if its values are all empty, when there
    is no rule to look at, which is always so with the hash index. *)
Theorem C77_same_fields_decision_partial : forall o fs rules hashed cs e0 e req,
  oracle_ext o -> reads o 2 (same_text fs) (same_reading fs) -> same_text fs <> "" -> HasEval (same_text fs) = false -> ~ In "eft" fs ->
  standard o hashed fs fs (effect_text AllowOverride) (same_text fs) e0 -> roleless e0 ->
  Forall (safe_call rules) cs -> Forall (shaped_call (List.length fs)) cs -> reaches o e0 cs e ->
  List.length req = List.length fs -> map c_str req = req ->
  exists b, snd (Enforce o (map DStr req) e) = Ok b /\
    (b = true <-> In req (stored e "p" "p") \/ (req = blank fs /\ (p_indexed (e_model e) = true \/ stored e "p" "p" = []))).
Proof.
  intros o fs rules hashed cs e0 e req X RD TX NE EF S0 N0 F1 F2 RE L CS.
  destruct (roleless_reaches o rules hashed fs fs (effect_text AllowOverride) (same_text fs) cs e0 e) as [S N]; auto.
  assert (ND : NoDup fs) by apply (d_rf _ _ _ _ _ (proj1 (st_ready _ _ _ _ _ _ _ S))).
  destruct (quiet_decision o hashed fs fs (same_text fs) (same_reading fs) e req) as [b [E B]]; auto.
  { intros v. exact Logic.I. }
  exists b. split; auto. rewrite B.
  assert (SB : rd_sem (same_reading fs) (value_of fs req fs (blank fs)) (linked e) <-> req = blank fs).
  { apply same_sem; auto. unfold blank. apply map_length. }
  assert (CI : In req (stored e "p" "p") <-> exists r, In r (candidates (e_model e) req) /\ req = r).
  { split.
    - intros I. exists req. split; auto. unfold candidates. rewrite CS. change (p_rules (e_model e)) with (stored e "p" "p").
      destruct (p_indexed (e_model e)); auto.
      replace (existsb (rule_eqb req) (stored e "p" "p")) with true; [left; reflexivity|].
      symmetry. apply existsb_exists. exists req. split; auto. apply rule_eqb_refl.
    - intros [r [I <-]]. apply candidate_stored in I. exact I. }
  split.
  - intros [[r [I [Q _]]]|[Q1 Q2]].
    + left. apply CI. exists r. split; auto. apply (same_sem fs req r (linked e) ND L) in Q; auto.
      apply (st_fields _ _ _ _ _ _ _ S). eapply candidate_stored; eauto.
    + right. split; [apply SB; auto|]. unfold candidates in Q1. change (p_rules (e_model e)) with (stored e "p" "p") in Q1.
      destruct (p_indexed (e_model e)); auto.
  - intros I. destruct (in_dec (list_eq_dec String.string_dec) req (stored e "p" "p")) as [J|J].
    + left. apply CI in J. destruct J as [r [J <-]]. exists req. split; auto. split; [|apply effect_plain; auto].
      apply (same_sem fs req req (linked e) ND L L). reflexivity.
    + right. destruct I as [I|[Q K]]; [contradiction|]. split; [|apply SB; auto].
      unfold candidates. rewrite CS. change (p_rules (e_model e)) with (stored e "p" "p").
      destruct (p_indexed (e_model e)); [|destruct K; [discriminate|auto]].
      destruct (existsb (rule_eqb req) (stored e "p" "p")) eqn:Q'; auto. apply existsb_exists in Q'. destruct Q' as [x [I Q']].
      apply rule_eqb_true in Q'. subst. contradiction.
Qed.
Print Assumptions C77_same_fields_decision_partial.
Lemma same_mini : forall fs, In fs [["sub"; "obj"; "act"]; ["obj"; "act"]; ["sub"; "act"]] -> reads mini 2 (same_text fs) (same_reading fs).
Proof.
  intros fs I. cases_in I; (eapply mini_reads; [vm_compute; reflexivity|by_cases|by_cases|by_cases|]); intros val R; simpl;
    (split; [intros H|intros H f K]).
  all: try (repeat split; apply H; tauto).
  all: repeat (destruct K as [<-|K]; [tauto|]); destruct K.
Qed.
(** The three example models are of this kind, and the loader gives them the hash index. *)
Definition same_model (fs : list string) (text : string) (ps : list rule) : model :=
  [("r", [("r", ast "r" text (map (fun f => ("r_" ++ f)%string) fs) (Vec []))]);
   ("p", [("p", ast "p" text (map (fun f => ("p_" ++ f)%string) fs) (Hash ps))]);
   ("e", [("e", ast "e" (effect_text AllowOverride) [] (Vec []))]);
   ("m", [("m", ast "m" (same_text fs) [] (Vec []))])].
Definition no_users : enforcer := boot (same_model ["obj"; "act"] "obj, act" [["data1"; "read"]; ["data2"; "write"]]).
Definition no_users_history : list call := [KAddPolicy "p" ["data3"; "read"]; KRemovePolicy "p" ["data1"; "read"]].
Example C77_same_fields_case : same_text f3 = basic_matcher /\
  same_text ["obj"; "act"] = "r.obj == p.obj && r.act == p.act" /\ same_text ["sub"; "act"] = "r.sub == p.sub && r.act == p.act" /\
  Forall (fun fs => reads mini 2 (same_text fs) (same_reading fs) /\ HasEval (same_text fs) = false) [["sub"; "obj"; "act"]; ["obj"; "act"]; ["sub"; "act"]] /\
  standard mini true ["obj"; "act"] ["obj"; "act"] (effect_text AllowOverride) (same_text ["obj"; "act"]) no_users /\ roleless no_users /\
  exists e, reaches mini no_users no_users_history e /\
    Forall (safe_call (fun _ => False)) no_users_history /\ Forall (shaped_call 2) no_users_history /\
    map (fun r => snd (Enforce mini (reqs r) no_users)) [["data1"; "read"]; ["data3"; "read"]; ["data2"; "read"]; [""; ""]] = [Ok true; Ok false; Ok false; Ok true] /\
    map (fun r => snd (Enforce mini (reqs r) e)) [["data1"; "read"]; ["data3"; "read"]; ["data2"; "read"]; [""; ""]] = [Ok false; Ok true; Ok false; Ok true].
Proof.
  split; [vm_compute; reflexivity|]. split; [vm_compute; reflexivity|]. split; [vm_compute; reflexivity|].
  split. { repeat (apply Forall_cons; [split; [apply same_mini; simpl; tauto|vm_compute; reflexivity]|]). apply Forall_nil. }
  split. { constructor; try reflexivity.
    - split; [|exact I]. prove_declares.
    - intros r I. vm_compute in I. cases_in I; reflexivity. }
  split. { intros f [a A]. unfold get_ast in A. simpl in A. discriminate. }
  eexists. split.
  { unfold no_users_history. repeat (eapply reach_step; [vm_compute; reflexivity|discriminate|]). apply reach_nil. }
  split. { unfold no_users_history. repeat (apply Forall_cons; [simpl; tauto|]). apply Forall_nil. }
  split. { unfold no_users_history. repeat (apply Forall_cons; [simpl; auto|]). apply Forall_nil. }
  split; vm_compute; reflexivity.
Qed.

(** ** root *)
Lemma root_sem : forall sub obj act s p a R,
  rd_sem root_reading (value_of f3 [sub; obj; act] f3 [s; p; a]) R <-> (sub = s /\ obj = p /\ act = a) \/ sub = "root".
Proof. intros. reflexivity. Qed.
(** basic_with_root_model.conf: the subject root is always allowed, even with an empty policy;
    everybody else as the rules say. *)
Theorem C77_root_decision : forall o rules cs e0 e sub obj act,
  oracle_ext o -> reads o 2 root_text root_reading ->
  standard o false f3 f3 (effect_text AllowOverride) root_text e0 -> roleless e0 ->
  Forall (safe_call rules) cs -> Forall (shaped_call 3) cs -> reaches o e0 cs e ->
  [sub; obj; act] <> [""; ""; ""] ->
  exists b, snd (Enforce o (map DStr [sub; obj; act]) e) = Ok b /\
    (b = true <-> sub = "root" \/ In [sub; obj; act] (stored e "p" "p")).
Proof.
  intros o rules cs e0 e sub obj act X RD S0 N0 F1 F2 RE NB.
  destruct (roleless_reaches o rules false f3 f3 (effect_text AllowOverride) root_text cs e0 e) as [S N]; auto; try discriminate.
  pose proof (std_candidates o f3 f3 AllowOverride root_text e [sub; obj; act] S) as SC.
  destruct (quiet_decision o false f3 f3 root_text root_reading e [sub; obj; act]) as [b [E B]]; auto; try discriminate.
  { by_cases. }
  { intros v. exact Logic.I. }
  exists b. split; auto. rewrite B, SC. split.
  - intros [[r [I [Q _]]]|[_ Q]].
    + destruct (three r) as [s [p [a ->]]]. { apply (st_fields _ _ _ _ _ _ _ S). auto. }
      destruct (proj1 (root_sem sub obj act s p a (linked e)) Q) as [[-> [-> ->]]|Q']; auto.
    + destruct (proj1 (root_sem sub obj act "" "" "" (linked e)) Q) as [[-> [-> ->]]|Q']; auto. elim NB. reflexivity.
  - intros [->|I].
    + destruct (stored e "p" "p") as [|r l] eqn:E'.
      * right. split; auto. apply (root_sem "root" obj act "" "" "" (linked e)). auto.
      * left. exists r. split; [left; reflexivity|]. destruct (three r) as [s [p [a ->]]]. { apply (st_fields _ _ _ _ _ _ _ S). rewrite E'. left. reflexivity. }
        split; [|reflexivity]. apply (root_sem "root" obj act s p a (linked e)). auto.
    + left. exists [sub; obj; act]. split; auto. split; [|reflexivity]. apply (root_sem sub obj act sub obj act (linked e)). auto.
Qed.
Print Assumptions C77_root_decision.
Lemma mini_root : reads mini 2 root_text root_reading.
Proof. eapply mini_reads; [vm_compute; reflexivity|by_cases|by_cases|by_cases|]. intros. simpl. tauto. Qed.
Definition root_model (ps : list rule) : model :=
  [("r", [("r", ast "r" "sub, obj, act" r3 (Vec []))]);
   ("p", [("p", ast "p" "sub, obj, act" p3 (Vec ps))]);
   ("e", [("e", ast "e" (effect_text AllowOverride) [] (Vec []))]);
   ("m", [("m", ast "m" root_text [] (Vec []))])].
Definition root_org : enforcer := boot (root_model [["alice"; "data1"; "read"]; ["bob"; "data2"; "write"]]).
Definition root_history : list call := [KRemovePolicy "p" ["alice"; "data1"; "read"]; KRemovePolicy "p" ["bob"; "data2"; "write"]].
Example C77_root_case : reads mini 2 root_text root_reading /\ standard mini false f3 f3 (effect_text AllowOverride) root_text root_org /\ roleless root_org /\
  exists e, reaches mini root_org root_history e /\ Forall (safe_call (fun _ => False)) root_history /\ Forall (shaped_call 3) root_history /\
    map (fun r => snd (Enforce mini (reqs r) root_org)) [["alice"; "data1"; "read"]; ["root"; "data9"; "write"]; ["bob"; "data1"; "read"]] = [Ok true; Ok true; Ok false] /\
    map (fun r => snd (Enforce mini (reqs r) e)) [["alice"; "data1"; "read"]; ["root"; "data9"; "write"]; ["bob"; "data1"; "read"]] = [Ok false; Ok true; Ok false].
Proof.
  split; [apply mini_root|].
  split. { constructor; try reflexivity; try discriminate.
    - split; [|exact I]. prove_declares.
    - intros r I. vm_compute in I. cases_in I; reflexivity. }
  split. { intros f [a A]. unfold get_ast in A. simpl in A. discriminate. }
  eexists. split.
  { unfold root_history. repeat (eapply reach_step; [vm_compute; reflexivity|discriminate|]). apply reach_nil. }
  split. { unfold root_history. repeat (apply Forall_cons; [simpl; tauto|]). apply Forall_nil. }
  split. { unfold root_history. repeat (apply Forall_cons; [simpl; auto|]). apply Forall_nil. }
  split; vm_compute; reflexivity.
Qed.

(** ** Roles of objects within domains *)
Lemma object_roles_sem : forall sub dom obj act s d p a R,
  rd_sem object_roles_reading (value_of fd [sub; dom; obj; act] fd [s; d; p; a]) R <-> sub = s /\ R "g" [obj; p; dom] /\ dom = d /\ act = a.
Proof. intros. reflexivity. Qed.
(** rbac_with_all_pattern_model.conf (with role managers that match no patterns). *)
Theorem C77_object_roles_decision_partial : forall o names rules cs e0 e sub dom obj act,
  oracle_ext o -> reads o 3 object_roles_text object_roles_reading ->
  tidy names 3 rules -> managed o names 3 rules e0 ->
  standard o false fd fd (effect_text AllowOverride) object_roles_text e0 -> declared e0 "g" "g" ->
  Forall (safe_call rules) cs -> Forall (shaped_call 4) cs -> reaches o e0 cs e ->
  names (Some dom, obj) -> (forall s d p r, In (s :: d :: p :: r) (stored e "p" "p") -> names (Some dom, p)) ->
  (stored e "p" "p" <> [] \/ names (Some dom, "") /\ [sub; dom; act] <> [""; ""; ""]) ->
  exists b, snd (Enforce o (map DStr [sub; dom; obj; act]) e) = Ok b /\
    (b = true <-> exists p, In [sub; dom; p; act] (stored e "p" "p") /\ within (assigned e) (Some dom) (level_of e) obj p).
Proof.
  intros o names rules cs e0 e sub dom obj act X RD T M0 S0 G0 F1 F2 RE Nobj Np NE.
  assert (VARS : forall x, In x (rd_vars object_roles_reading) -> In x (r_names fd ++ p_names fd)) by by_cases.
  assert (DA0 : defines_all e0 object_roles_reading). { intros f [<-|[]]. exact G0. }
  destruct (std_reaches o names 3 rules false fd fd AllowOverride object_roles_text object_roles_reading X) with (cs := cs) (e := e0) (e' := e)
    as [M [S DA]]; auto; try discriminate.
  pose proof (std_candidates o fd fd AllowOverride object_roles_text e [sub; dom; obj; act] S) as SC.
  assert (C : forall s d p a, names (Some dom, p) -> calls_ok names object_roles_reading (value_of fd [sub; dom; obj; act] fd [s; d; p; a])).
  { intros s d p a Nn. split; [exact Logic.I|]. intros f args [Q|[]]. inversion Q; subst. split; [left; reflexivity|]. split; [exact Nobj|exact Nn]. }
  destruct (std_decision o names 3 rules false fd fd AllowOverride object_roles_text object_roles_reading X) with (e := e) (req := [sub; dom; obj; act])
    as [b [E B]]; auto; try discriminate; try rewrite SC.
  { intros f _. exact M. }
  { intros r I. destruct (four r) as [s [d [p [a ->]]]]. { apply (st_fields _ _ _ _ _ _ _ S). auto. } apply C. eapply Np; eauto. }
  { destruct NE as [NE|[N0 NE]]; auto. right. split; [exact (C "" "" "" "" N0)|].
    intros Q. apply NE. destruct (proj1 (object_roles_sem sub dom obj act "" "" "" "" (linked e)) Q) as [-> [_ [-> ->]]]. reflexivity. }
  exists b. split; auto. rewrite B, SC. unfold granted. split.
  - intros [r [I [Q _]]]. destruct (four r) as [s [d [p [a ->]]]]. { apply (st_fields _ _ _ _ _ _ _ S). auto. }
    destruct (proj1 (object_roles_sem sub dom obj act s d p a (linked e)) Q) as [-> [W [-> ->]]]. exists p. auto.
  - intros [p [I W]]. exists [sub; dom; p; act]. repeat split; auto.
Qed.
Print Assumptions C77_object_roles_decision_partial.
Lemma mini_object_roles : reads mini 3 object_roles_text object_roles_reading.
Proof. eapply mini_reads; [vm_compute; reflexivity|by_cases|by_pairs|by_pairs|]. intros. simpl. tauto. Qed.
Definition object_roles_model (ps gs : list rule) : model :=
  [("r", [("r", ast "r" "sub, dom, obj, act" ["r_sub"; "r_dom"; "r_obj"; "r_act"] (Vec []))]);
   ("p", [("p", ast "p" "sub, dom, obj, act" ["p_sub"; "p_dom"; "p_obj"; "p_act"] (Vec ps))]);
   ("g", [("g", ast "g" "_, _, _" [] (Vec gs))]);
   ("e", [("e", ast "e" (effect_text AllowOverride) [] (Vec []))]);
   ("m", [("m", ast "m" object_roles_text [] (Vec []))])].
(** Here alice and bob are objects, with the roles admin and user. *)
Definition oorg_ps : list rule := [["carol"; "d1"; "admin"; "read"]; ["dave"; "d2"; "user"; "write"]].
Definition oorg_gs : list rule := [["alice"; "admin"; "d1"]; ["alice"; "user"; "d2"]; ["bob"; "admin"; "d2"]].
Definition oorg : enforcer := linked_boot (object_roles_model oorg_ps oorg_gs).
Example C77_object_roles_case : reads mini 3 object_roles_text object_roles_reading /\ tidy two_doms 3 dom_rule /\ managed mini two_doms 3 dom_rule oorg /\
  standard mini false fd fd (effect_text AllowOverride) object_roles_text oorg /\ declared oorg "g" "g" /\ reaches mini oorg [] oorg /\
  (forall d, In d ["d1"; "d2"] -> forall s d' p r, In (s :: d' :: p :: r) (stored oorg "p" "p") -> two_doms (Some d, p)) /\
  map (fun r => snd (Enforce mini (reqs r) oorg)) [["carol"; "d1"; "alice"; "read"]; ["carol"; "d2"; "bob"; "read"]; ["dave"; "d2"; "alice"; "write"]; ["dave"; "d1"; "alice"; "write"]]
    = [Ok true; Ok false; Ok true; Ok false].
Proof.
  split; [apply mini_object_roles|]. split; [apply dom_tidy|].
  split.
  { apply (managed_built mini two_doms 3 dom_rule (boot (object_roles_model oorg_ps oorg_gs))); try reflexivity.
    - eexists. split; reflexivity.
    - split.
      + repeat constructor; simpl; tauto.
      + intros pt a H. simpl in H. destruct (String.eqb pt "g") eqn:E; [|discriminate]. inversion H; subst. split; [reflexivity|].
        simpl. unfold dom_rule, dom_rules. repeat constructor; simpl; tauto. }
  split. { constructor; try reflexivity; try discriminate.
    - split; [|exact I]. prove_declares.
    - intros r I. vm_compute in I. cases_in I; reflexivity. }
  split; [eexists; reflexivity|]. split; [constructor|].
  split. { intros d D s d' p r I. vm_compute in I. cases_in D; repeat destruct I as [I|I]; try contradiction; inversion I; subst; eexists; split; reflexivity. }
  vm_compute. reflexivity.
Qed.
