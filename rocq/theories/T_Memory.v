(** Property C99: what asking leaves in memory. *)
From Coq Require Import Lia.
From Verif Require Import Base P_Base M_Matcher M_Memory S_Memory S_Cached S_Effect P_Pool P_Memory E_Examples.

(** ** What holds *)
(** However many positional requests were asked, with whatever values and matchers, the
    variables are at most as many as the fields of requests and rules, and the registered
    functions at most the nine built-in ones and one for each role definition. *)
Theorem C99_positional : forall o e qs h, e_ev e = None -> asked o (fresh e) qs h -> Forall positional qs ->
  variables h <= List.length (tokens_of (e_model e) "r") + List.length (tokens_of (e_model e) "p") /\
  registrations h <= 9 + role_definitions (e_model e).
Proof.
  intros o e qs h N A P.
  assert (T : tame_holder (field_names (e_model e)) (map fst (loads (e_model e))) h).
  { eapply asked_tame; [exact A|exact P|apply incl_refl|apply incl_refl|]. unfold tame_holder, fresh. cbn [h_e]. rewrite N. exact Logic.I. }
  unfold tame_holder in T. unfold variables, registrations. destruct (e_ev (h_e h)) as [ev|]; [|lia].
  destruct T as [[N1 I1] [N2 I2]]. pose proof (NoDup_incl_length N1 I1) as L1. pose proof (NoDup_incl_length N2 I2) as L2.
  unfold var_names, fun_names, field_names, loads in *. rewrite app_length, !map_length in L1. rewrite !map_length, app_length, map_length in L2. cbn [List.length] in L2.
  unfold role_definitions. lia.
Qed.
(** The cache of a CachedEnforcer has at most one entry for each different request. *)
Theorem C99_cache_bound : forall o e qs keys, incl (map (fun q => cache_key (map DStr (snd q)) (fst q)) qs) keys ->
  List.length (c_map (c_ask o qs (new_cached e))) <= List.length keys.
Proof.
  intros o e qs keys I.
  enough (H : forall c, c_on c = true -> NoDup (map fst (c_map c)) -> incl (map fst (c_map c)) keys ->
              NoDup (map fst (c_map (c_ask o qs c))) /\ incl (map fst (c_map (c_ask o qs c))) keys).
  { destruct (H (new_cached e) eq_refl) as [H1 H2]; [constructor|intros x []|]. pose proof (NoDup_incl_length H1 H2) as L. rewrite map_length in L. exact L. }
  induction qs as [|[m req] qs IH]; intros c On N Ic; cbn [c_ask]; [split; auto|].
  destruct (c_EnforceWithMatcher o m (map DStr req) c) as [c' out] eqn:E. destruct (through_keys _ _ _ _ _ On E) as (On' & _ & _ & N' & I').
  apply IH; auto. { intros x Hx. apply I. right. exact Hx. }
  cbn [fst]. intros x Hx. apply I' in Hx. destruct Hx as [<-|Hx]; [|auto]. apply I. left. reflexivity.
Qed.

(** ** What does not *)
(** False for the function objects: every request that is looked at leaves nine and one for
    each role definition, whatever it asks and whatever the answer is. *)
Theorem C99_objects_refuted : forall o h qs h', e_enabled (h_e h) = true -> (exists r, get_ast (e_model (h_e h)) "r" "r" = Ok r) ->
  Forall (looked_at (e_model (h_e h))) qs -> asked o h qs h' ->
  objects h' = objects h + List.length qs * (9 + role_definitions (e_model (h_e h))).
Proof.
  intros o h qs h' En R L A. revert En R L. induction A as [h|h q qs h1 out h2 E U A IH]; intros En R L; [cbn; lia|].
  inversion L as [|? ? L1 L2]; subst. destruct (ask1_model _ _ _ _ _ E) as [Em Ee].
  assert (O : objects h1 = objects h + (9 + role_definitions (e_model (h_e h)))). { eapply ask1_objects; eauto. destruct q; auto. }
  rewrite IH; rewrite ?Em, ?Ee; auto. rewrite O. cbn [List.length]. lia.
Qed.
(** So there is no bound, even for one question asked again and again. *)
Definition carols_enforcer : enforcer := boot (basic_model [["carol"; "data1"; "read"]]).
Definition carols_question : question := ByPosition "" (reqs ["carol"; "data1"; "read"]).
Theorem C99_no_bound_refuted : forall bound, exists n h, asked mini (fresh carols_enforcer) (repeat carols_question n) h /\ bound < objects h.
Proof.
  intros bound. set (e1 := h_e (fst (ask1 mini carols_question (fresh carols_enforcer)))).
  assert (Again : forall n l, exists h, asked mini (mkHolder e1 l) (repeat carols_question n) h).
  { induction n as [|n IH]; intros l; [eexists; constructor|].
    assert (St : exists l', ask1 mini carols_question (mkHolder e1 l) = (mkHolder e1 l', Ok (true, ["carol"; "data1"; "read"]))). { eexists. vm_compute. reflexivity. }
    destruct St as [l' St]. destruct (IH l') as [h H]. exists h. cbn [repeat]. eapply asked_step; [exact St|discriminate|exact H]. }
  destruct (ask1 mini carols_question (fresh carols_enforcer)) as [[e0 l0] out] eqn:E.
  assert (Eo : snd (ask1 mini carols_question (fresh carols_enforcer)) = Ok (true, ["carol"; "data1"; "read"])) by (vm_compute; reflexivity).
  assert (E1 : e0 = e1). { unfold e1. rewrite ?E. reflexivity. }
  rewrite E in Eo. cbn [snd] in Eo. subst out. destruct (Again bound l0) as [h H]. exists (S bound), h.
  assert (A : asked mini (fresh carols_enforcer) (repeat carols_question (S bound)) h). { cbn [repeat]. eapply asked_step; [exact E|discriminate|rewrite E1; exact H]. }
  split; [exact A|]. rewrite (C99_objects_refuted mini (fresh carols_enforcer) (repeat carols_question (S bound)) h).
  - rewrite repeat_length. assert (Z : objects (fresh carols_enforcer) = 0) by (vm_compute; reflexivity). rewrite Z. lia.
  - reflexivity.
  - eexists. vm_compute. reflexivity.
  - apply Forall_forall. intros q Hq. apply repeat_spec in Hq. subst q. vm_compute. reflexivity.
  - exact A.
Qed.
(** False for the variables when requests are given as maps: every name stays. *)
Theorem C99_names_refuted : forall o h names v h', NoDup names ->
  asked o h (map (fun n => ByName "" [(n, DStr v)]) names) h' -> List.length names <= variables h'.
Proof.
  intros o h names v h' N A.
  assert (I : incl (map (fun n => "r." ++ n)%string names ++ kept_names h) (kept_names h')).
  { clear N. revert h A. induction names as [|n names IH]; intros h A; inversion A as [|? ? ? h1 out ? E U A1]; subst; [apply incl_refl|].
    pose proof (by_name_kept _ _ _ _ _ _ _ E U) as K. specialize (IH h1 A1). cbn [map app]. intros x [<-|Hx].
    - apply IH. apply in_or_app. right. apply K. left. reflexivity.
    - apply IH. apply in_app_or in Hx. apply in_or_app. destruct Hx as [Hx|Hx]; [left; exact Hx|]. right. apply K. right. exact Hx. }
  assert (L : List.length (map (fun n => "r." ++ n)%string names) <= List.length (kept_names h')).
  { apply NoDup_incl_length; [|intros x Hx; apply I, in_or_app; auto]. clear -N. induction N as [|n l Hn N IH]; cbn [map]; constructor; auto.
    intros H. apply in_map_iff in H. destruct H as [y [E Iy]]. inversion E. subst y. contradiction. }
  rewrite map_length in L. unfold variables. unfold kept_names in L. destruct (e_ev (h_e h')) as [ev|]; [|exact L]. unfold var_names in L. rewrite map_length in L. exact L.
Qed.
(** False for the cache: as many entries as there were different requests; no entry is ever
    dropped to make room. *)
Theorem C99_cache_refuted : forall o qs c, c_on c = true -> NoDup (map (fun q => cache_key (map DStr (snd q)) (fst q)) qs) ->
  (forall before q after, qs = before ++ q :: after -> exists b, snd (c_EnforceWithMatcher o (fst q) (map DStr (snd q)) (c_ask o before c)) = Ok b) ->
  List.length qs <= List.length (c_map (c_ask o qs c)).
Proof.
  intros o qs c On N A.
  assert (I : incl (map (fun q => cache_key (map DStr (snd q)) (fst q)) qs ++ map fst (c_map c)) (map fst (c_map (c_ask o qs c)))).
  { clear N. revert c On A. induction qs as [|[m req] qs IH]; intros c On A; cbn [c_ask]; [apply incl_refl|].
    destruct (c_EnforceWithMatcher o m (map DStr req) c) as [c' out] eqn:E. destruct (through_keys _ _ _ _ _ On E) as (On' & Ik & K & _ & _).
    destruct (A [] (m, req) qs eq_refl) as [b B]. cbn [c_ask fst snd] in B. rewrite E in B. cbn [snd] in B. cbn [fst].
    assert (IHc : incl (map (fun q => cache_key (map DStr (snd q)) (fst q)) qs ++ map fst (c_map c')) (map fst (c_map (c_ask o qs c')))).
    { apply IH; auto. intros before q after ->. destruct (A ((m, req) :: before) q after eq_refl) as [b' B']. cbn [c_ask] in B'. rewrite E in B'. exists b'. exact B'. }
    cbn [map app]. intros x [<-|Hx].
    - apply IHc, in_or_app. right. apply (K b B).
    - apply IHc. apply in_app_or in Hx. apply in_or_app. destruct Hx as [Hx|Hx]; auto. }
  assert (L := NoDup_incl_length N (fun x Hx => I x (in_or_app _ _ _ (or_introl Hx)))). rewrite !map_length in L. exact L.
Qed.

(** The hypotheses of the bounds: two positional requests; of the refutations: two names,
    two requests through the cache. *)
Example C99_case : exists h, asked mini (fresh carols_enforcer) [carols_question; ByPosition "" (reqs ["bob"; "data1"; "read"])] h /\
  variables h = 6 /\ registrations h = 9 /\ objects h = 18.
Proof.
  eexists. split; [eapply asked_step; [vm_compute; reflexivity|discriminate|]; eapply asked_step; [vm_compute; reflexivity|discriminate|constructor]|].
  repeat split; vm_compute; reflexivity.
Qed.
Example C99_case_names : exists h, asked mini (fresh carols_enforcer) (map (fun n => ByName "" [(n, DStr "x")]) ["sub"; "obj"; "colour"; "shape"]) h.
Proof. eexists. cbn [map]. do 4 (eapply asked_step; [vm_compute; reflexivity|discriminate|]). constructor. Qed.
Example C99_case_cache : let qs := [("", ["carol"; "data1"; "read"]); ("", ["bob"; "data1"; "read"])] in
  NoDup (map (fun q => cache_key (map DStr (snd q)) (fst q)) qs) /\
  (forall before q after, qs = before ++ q :: after -> exists b, snd (c_EnforceWithMatcher mini (fst q) (map DStr (snd q)) (c_ask mini before (new_cached carols_enforcer))) = Ok b).
Proof.
  split; [repeat constructor; vm_compute; intuition discriminate|].
  intros [|b1 [|b2 [|b3 before]]] q after E; cbn in E; inversion E; subst; eexists; vm_compute; reflexivity.
Qed.

Print Assumptions C99_positional.
Print Assumptions C99_cache_bound.
Print Assumptions C99_objects_refuted.
Print Assumptions C99_no_bound_refuted.
Print Assumptions C99_names_refuted.
Print Assumptions C99_cache_refuted.
