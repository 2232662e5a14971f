(** Properties of the cached enforcer: C47, C48. *)
From Verif Require Import Base P_Base M_Util M_Cached M_Matcher S_Text P_Text S_History S_Cached S_Effect S_Enforce P_Enforce P_Decide P_Cached E_Examples T_Enforce.

(** ** C47: the same answers as the plain enforcer *)

(** For positional requests of strings without the character '$', any sequence, with any
    matchers: the answer of a cached enforcer that was asked [qs] is the answer of the
    plain enforcer that was asked [qs].  Missing: values with '$', maps and JSON values,
    for which it is false (below). *)
Theorem C47_same_answer_partial : forall o e rf pf eft mat qs q,
  oracle_ext o -> ready o e rf pf eft mat ->
  Forall (admissible (e_model e) rf pf mat) (q :: qs) -> Forall no_dollar (q :: qs) ->
  snd (c_EnforceWithMatcher o (fst q) (map DStr (snd q)) (c_ask o qs (new_cached e))) =
  snd (EnforceWithMatcher o (fst q) (map DStr (snd q)) (ask o qs e)).
Proof.
  intros o e rf pf eft mat qs q X R A D.
  assert (G : Forall (good e rf pf mat) (q :: qs)) by (rewrite Forall_forall in *; intros x Hx; split; auto).
  pose proof (ask_all o e rf pf eft mat X R qs (new_cached e) (fresh_faithful o e rf pf eft mat R true) (Forall_inv_tail G)) as F.
  destruct (ask_step o e rf pf eft mat X R _ q F (Forall_inv G)) as [_ ->]. unfold plain_answer.
  rewrite !snd_EnforceWithMatcher. rewrite (C11_earlier_requests_irrelevant o e rf pf eft mat qs q X R A). reflexivity.
Qed.
Theorem C47_batch_partial : forall o e rf pf eft mat qs reqs,
  oracle_ext o -> ready o e rf pf eft mat ->
  Forall (admissible (e_model e) rf pf mat) (qs ++ map (fun q => ("", q)) reqs) -> Forall no_dollar (qs ++ map (fun q => ("", q)) reqs) ->
  snd (c_BatchEnforce o (map (map DStr) reqs) (c_ask o qs (new_cached e))) = snd (BatchEnforce o (map (map DStr) reqs) e).
Proof.
  intros o e rf pf eft mat qs reqs X R A D. apply Forall_app in A. apply Forall_app in D. destruct A as [A1 A2]. destruct D as [D1 D2].
  assert (G1 : Forall (good e rf pf mat) qs) by (rewrite Forall_forall in *; intros x Hx; split; auto).
  assert (A3 : Forall (fun q => admissible (e_model e) rf pf mat ("", q)) reqs).
  { rewrite Forall_forall in *. intros x Hx. apply A2. apply in_map with (f := fun q => ("", q)). exact Hx. }
  assert (G2 : Forall (fun q => good e rf pf mat ("", q)) reqs).
  { rewrite Forall_forall in *. intros x Hx. split; [apply A3; exact Hx|]. apply D2. apply in_map with (f := fun q => ("", q)). exact Hx. }
  pose proof (ask_all o e rf pf eft mat X R qs (new_cached e) (fresh_faithful o e rf pf eft mat R true) G1) as F.
  rewrite (batch_faithful o e rf pf eft mat X R reqs _ F G2). rewrite batch_same, (batch_matcher_spec o rf pf eft mat "" reqs e X R A3). reflexivity.
Qed.

(** False: two requests whose values contain the separator share one entry. *)
Theorem C47_collision_refuted : exists e q1 q2,
  ready mini e f3 f3 "some(where (p.eft == allow))" basic_matcher /\ q1 <> q2 /\ List.length q1 = List.length q2 /\
  snd (Enforce mini (reqs q2) e) = Ok false /\
  snd (c_Enforce mini (reqs q2) (fst (c_Enforce mini (reqs q1) (new_cached e)))) = Ok true.
Proof.
  exists (boot (basic_model [["alice"; "data1$$read"; ""]])), ["alice"; "data1$$read"; ""], ["alice$$data1"; "read"; ""].
  split; [apply basic_ready|]. split; [discriminate|]. split; [reflexivity|]. split; vm_compute; reflexivity.
Qed.
(** False: a map shares its entry with another request because the names are not part of
    the key. *)
Theorem C47_map_refuted : exists e ps q,
  ready mini e f3 f3 "some(where (p.eft == allow))" basic_matcher /\
  snd (EnforceMap mini ps e) = Ok true /\
  snd (c_EnforceMap mini ps (fst (c_Enforce mini (reqs q) (new_cached e)))) = Ok false.
Proof.
  exists (boot (basic_model [["alice"; "data1"; "read"]])), [("act", DStr "read"); ("obj", DStr "data1"); ("sub", DStr "alice")], ["read"; "data1"; "alice"].
  split; [apply basic_ready|]. split; vm_compute; reflexivity.
Qed.
(** False: all JSON values look the same to the cache; here the request with a JSON value
    is answered from the request whose value is the empty string. *)
Theorem C47_json_refuted : exists e q1 q2,
  ready mini e f3 f3 "some(where (p.eft == allow))" basic_matcher /\
  snd (Enforce mini q2 (fst (Enforce mini q1 e))) = Ok true /\
  snd (c_Enforce mini q2 (fst (c_Enforce mini q1 (fst (c_Enforce mini (reqs [""; "data1"; "read"]) (new_cached e)))))) = Ok false.
Proof.
  exists (boot (basic_model [["alice"; "data1"; "read"]])), (reqs ["alice"; "data2"; "write"]), [DJson; DStr "data1"; DStr "read"].
  split; [apply basic_ready|]. split; vm_compute; reflexivity.
Qed.

Definition ex_e := boot (basic_model [["alice"; "data1"; "read"]; ["bob"; "data2"; "write"]]).
Definition ex_qs : list (string * list string) := [("", ["alice"; "data1"; "read"]); ("", ["bob"; "data1"; "read"]); ("", ["alice"; "data1"; "read"])].
Example C47_example : ready mini ex_e f3 f3 "some(where (p.eft == allow))" basic_matcher /\
  Forall (admissible (e_model ex_e) f3 f3 basic_matcher) ex_qs /\ Forall no_dollar ex_qs /\
  map (fun q => snd (c_Enforce mini (reqs (snd q)) (c_ask mini ex_qs (new_cached ex_e)))) ex_qs = [Ok true; Ok false; Ok true] /\
  List.length (c_map (c_ask mini ex_qs (new_cached ex_e))) = 2.
Proof.
  split; [apply basic_ready|]. split.
  - repeat constructor; try discriminate; simpl; intros r H; in_cases; discriminate.
  - split.
    + rewrite Forall_forall. intros q Hq v Hv. apply smem_lacks. destruct Hq as [<-|[<-|[<-|[]]]]; destruct Hv as [<-|[<-|[<-|[]]]]; reflexivity.
    + split; vm_compute; reflexivity.
Qed.

(** ** C48: policy changes *)

(** After InvalidateCache, whatever happened before, any sequence of such requests gets
    the answers of the plain enforcer with the policy as it is now. *)
Theorem C48_after_invalidate_partial : forall o c rf pf eft mat qs q,
  oracle_ext o -> ready o (c_base c) rf pf eft mat ->
  Forall (admissible (e_model (c_base c)) rf pf mat) (q :: qs) -> Forall no_dollar (q :: qs) ->
  snd (c_EnforceWithMatcher o (fst q) (map DStr (snd q)) (c_ask o qs (fst (InvalidateCache c)))) =
  snd (EnforceWithMatcher o (fst q) (map DStr (snd q)) (c_base c)).
Proof.
  intros o c rf pf eft mat qs q X R A D.
  assert (G : Forall (good (c_base c) rf pf mat) (q :: qs)) by (rewrite Forall_forall in *; intros x Hx; split; auto).
  pose proof (ask_all o (c_base c) rf pf eft mat X R qs _ (fresh_faithful o (c_base c) rf pf eft mat R (c_on c)) (Forall_inv_tail G)) as F.
  destruct (ask_step o (c_base c) rf pf eft mat X R _ q F (Forall_inv G)) as [_ E]. exact E.
Qed.
(** With the cache switched off every call is that of the plain enforcer. *)
Theorem C48_switched_off : forall o c matcher params,
  let c' := fst (EnableCache false c) in
  snd (c_EnforceWithMatcher o matcher params c') = snd (EnforceWithMatcher o matcher params (c_base c)) /\
  c_base (fst (c_EnforceWithMatcher o matcher params c')) = fst (EnforceWithMatcher o matcher params (c_base c)).
Proof.
  intros o c matcher params. cbn. unfold c_EnforceWithMatcher, through_cache, inherited. cbn.
  destruct (EnforceWithMatcher o matcher params (c_base c)). auto.
Qed.
(** False without InvalidateCache: an answer once given is repeated after any history of
    other calls - additions, removals, loading, another model, EnableEnforce - as long as
    the cache is neither invalidated nor switched off. *)
Theorem C48_stale_refuted : forall o c matcher params b c1 history c2,
  c_on c = true -> c_EnforceWithMatcher o matcher params c = (c1, Ok b) ->
  Forall keeps_cache history -> c_reaches o c1 history c2 ->
  snd (c_EnforceWithMatcher o matcher params c2) = Ok b.
Proof.
  intros o c matcher params b c1 history c2 On E K H.
  assert (Hold : holds_on (cache_key params matcher) b c1).
  { unfold c_EnforceWithMatcher, through_cache in E. rewrite On in E. cbn [negb] in E. destruct (aget _ (c_map c)) as [x|] eqn:Ex.
    - injection E as <- <-. split; assumption.
    - unfold inherited in E. destruct (EnforceWithMatcher o matcher params (c_base c)) as [e' out]. destruct out; try discriminate.
      injection E as <- <-. split; [exact On|]. apply aget_aset_same. }
  destruct (reaches_keeps_entry o _ b c1 history c2 H K Hold) as [On2 E2]. unfold c_EnforceWithMatcher, through_cache. rewrite On2, E2. reflexivity.
Qed.
(** A witness: the rule is gone, the plain enforcer denies, the cached one still allows. *)
Definition ex_c1 := fst (c_Enforce mini (reqs ["alice"; "data1"; "read"]) (new_cached ex_e)).
Definition ex_c2 := fst (c_run mini (QOther (KRemovePolicy "p" ["alice"; "data1"; "read"])) ex_c1).
Example C48_example :
  snd (c_Enforce mini (reqs ["alice"; "data1"; "read"]) (new_cached ex_e)) = Ok true /\
  c_reaches mini ex_c1 [QOther (KRemovePolicy "p" ["alice"; "data1"; "read"])] ex_c2 /\
  snd (Enforce mini (reqs ["alice"; "data1"; "read"]) (c_base ex_c2)) = Ok false /\
  snd (c_Enforce mini (reqs ["alice"; "data1"; "read"]) ex_c2) = Ok true /\
  snd (c_Enforce mini (reqs ["alice"; "data1"; "read"]) (fst (InvalidateCache ex_c2))) = Ok false.
Proof.
  split; [vm_compute; reflexivity|]. split.
  - apply c_step with (c1 := ex_c2) (out := Ok tt); [vm_compute; reflexivity|discriminate|constructor].
  - repeat split; vm_compute; reflexivity.
Qed.

(** Switching the cache off and on again forgets nothing either: the answer is back as soon as
    the cache is on, whatever was changed in between. *)
Definition has_entry (key : string) (b : bool) (c : cached) : Prop := aget key (c_map c) = Some b.
Lemma entry_inherited : forall A (x : M A) key b c, has_entry key b c -> has_entry key b (fst (inherited x c)).
Proof. intros A x key b c H. unfold inherited. destruct (x (c_base c)). exact H. Qed.
Lemma entry_through : forall key b k x c, has_entry key b c -> has_entry key b (fst (through_cache k x c)).
Proof.
  intros key b k x c H. destruct (c_on c) eqn:On; [apply (through_keeps key b k x c On H)|].
  unfold through_cache. rewrite On. apply entry_inherited, H.
Qed.
Lemma entry_batch : forall o key b reqs c, has_entry key b c -> has_entry key b (fst (c_BatchEnforce o reqs c)).
Proof.
  intros o key b. induction reqs as [|q reqs IH]; intros c H; [exact H|]. cbn [c_BatchEnforce].
  pose proof (entry_through key b (cache_key q "") (EnforceWithMatcher o "" q) c H) as H1. fold (c_EnforceWithMatcher o "" q) in H1. fold (c_Enforce o q) in H1.
  destruct (c_Enforce o q c) as [c1 [x|t|u]]; [|exact H1|exact H1].
  specialize (IH c1 H1). destruct (c_BatchEnforce o reqs c1). exact IH.
Qed.
Lemma entry_allowed : forall o key b perm subjects c, has_entry key b c -> has_entry key b (fst (c_allowed_subjects o perm subjects c)).
Proof.
  intros o key b perm. induction subjects as [|s ss IH]; intros c H; [exact H|]. cbn [c_allowed_subjects].
  destruct (bind _ _) as [[p0 p1]|t|u]; [|exact H|exact H].
  pose proof (entry_through key b (cache_key [DStr s; DStr p0; DStr p1] "") (EnforceWithMatcher o "" [DStr s; DStr p0; DStr p1]) c H) as H1.
  fold (c_EnforceWithMatcher o "" [DStr s; DStr p0; DStr p1]) in H1. fold (c_Enforce o [DStr s; DStr p0; DStr p1]) in H1.
  destruct (c_Enforce o [DStr s; DStr p0; DStr p1] c) as [c1 [x|t|u]]; [|exact H1|exact H1].
  specialize (IH c1 H1). destruct (c_allowed_subjects o perm ss c1). exact IH.
Qed.
Lemma entry_run : forall o key b q c, q <> QInvalidate -> has_entry key b c -> has_entry key b (fst (c_run o q c)).
Proof.
  intros o key b q c K H. destruct q as [m ps|m ps|rs|perm|k|s|]; cbn [c_run].
  - unfold c_drop. pose proof (entry_through key b (cache_key ps m) (EnforceWithMatcher o m ps) c H) as X.
    fold (c_EnforceWithMatcher o m ps) in X. destruct (c_EnforceWithMatcher o m ps c). exact X.
  - unfold c_drop. pose proof (entry_through key b (cache_key_map ps m) (EnforceWithMatcherMap o m ps) c H) as X.
    fold (c_EnforceWithMatcherMap o m ps) in X. destruct (c_EnforceWithMatcherMap o m ps c). exact X.
  - unfold c_drop. pose proof (entry_batch o key b rs c H) as X. destruct (c_BatchEnforce o rs c). exact X.
  - unfold c_drop. assert (X : has_entry key b (fst (c_GetImplicitUsersForPermission o perm c))).
    { unfold c_GetImplicitUsersForPermission. match goal with |- context [inherited ?x c] => pose proof (entry_inherited _ x key b c H) as H1; destruct (inherited x c) as [c1 out1] end. cbn [fst] in H1.
      destruct out1 as [[subjects gi]|t|u]; [|exact H1|exact H1].
      pose proof (entry_allowed o key b perm subjects c1 H1) as H2. destruct (c_allowed_subjects o perm subjects c1). exact H2. }
    destruct (c_GetImplicitUsersForPermission o perm c). exact X.
  - apply entry_inherited. exact H.
  - exact H.
  - congruence.
Qed.
Theorem C48_switch_refuted : forall o c matcher params b c1 history c2,
  c_on c = true -> c_EnforceWithMatcher o matcher params c = (c1, Ok b) ->
  ~ In QInvalidate history -> c_reaches o c1 history c2 ->
  snd (c_EnforceWithMatcher o matcher params (fst (EnableCache true c2))) = Ok b.
Proof.
  intros o c matcher params b c1 history c2 On E N H.
  assert (Hold : has_entry (cache_key params matcher) b c1).
  { unfold c_EnforceWithMatcher, through_cache in E. rewrite On in E. cbn [negb] in E. destruct (aget _ (c_map c)) as [x|] eqn:Ex.
    - injection E as <- <-. exact Ex.
    - unfold inherited in E. destruct (EnforceWithMatcher o matcher params (c_base c)) as [e' out]. destruct out; try discriminate.
      injection E as <- <-. apply aget_aset_same. }
  assert (E2 : has_entry (cache_key params matcher) b c2).
  { clear E On. induction H as [|c0 q qs c3 out c4 R U H IH]; auto. apply IH.
    - intros I. apply N. right. exact I.
    - pose proof (entry_run o (cache_key params matcher) b q c0) as X. rewrite R in X. apply X; auto. intros Q. apply N. left. exact Q. }
  unfold c_EnforceWithMatcher, through_cache. cbn. rewrite E2. reflexivity.
Qed.
Example C48_switch_case :
  let c2 := fst (c_run mini (QOther (KRemovePolicy "p" ["alice"; "data1"; "read"])) (fst (EnableCache false ex_c1))) in
  c_reaches mini ex_c1 [QEnableCache false; QOther (KRemovePolicy "p" ["alice"; "data1"; "read"])] c2 /\
  snd (c_Enforce mini (reqs ["alice"; "data1"; "read"]) c2) = Ok false /\
  snd (c_Enforce mini (reqs ["alice"; "data1"; "read"]) (fst (EnableCache true c2))) = Ok true.
Proof.
  cbv zeta. split; [|split; vm_compute; reflexivity].
  eapply c_step with (out := Ok tt); [vm_compute; reflexivity|discriminate|].
  eapply c_step with (out := Ok tt); [vm_compute; reflexivity|discriminate|]. vm_compute. constructor.
Qed.

Print Assumptions C47_same_answer_partial.
Print Assumptions C47_batch_partial.
Print Assumptions C47_collision_refuted.
Print Assumptions C47_map_refuted.
Print Assumptions C47_json_refuted.
Print Assumptions C48_after_invalidate_partial.
Print Assumptions C48_switched_off.
Print Assumptions C48_stale_refuted.
Print Assumptions C48_switch_refuted.
