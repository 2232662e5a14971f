(** Property C87: requests given as a map from field names to values. *)
From Coq Require Import Permutation.
From Verif Require Import Base P_Base M_Util M_RoleManager M_Effector M_Model M_Persist M_Eval M_Evaluator M_Enforcer M_Matcher
  S_Effect S_Enforce S_MapRequest P_Effect P_Enforce P_Decide P_MapRequest E_Examples.

Lemma states_field : forall rf ps req f v, states rf ps req -> In (f, v) (combine rf req) -> given ps f = Some v.
Proof.
  intros rf ps req f v S. revert f v. unfold states in S.
  induction S; intros f v I; [destruct I|]. cbn [combine] in I. destruct I as [I|I]; auto. inversion I; subst. auto.
Qed.

(** A map that gives every declared field and nothing else is answered, explanation
    included, exactly as the same request by position. *)
Theorem C87_same_answer : forall o e rf pf eft mat matcher ps req,
  oracle_ext o -> ready o e rf pf eft mat -> names_fields rf ps -> states rf ps req ->
  texts_ok (chosen matcher mat) pf (p_rules (e_model e)) ->
  snd (EnforceExWithMatcherMap o matcher ps e) = snd (EnforceExWithMatcher o matcher (map DStr req) e) /\
  snd (EnforceWithMatcherMap o matcher ps e) = snd (EnforceWithMatcher o matcher (map DStr req) e) /\
  ready o (fst (EnforceExWithMatcherMap o matcher ps e)) rf pf eft mat.
Proof.
  intros o e rf pf eft mat matcher ps req X R N S T.
  assert (L : List.length req = List.length rf) by (symmetry; eapply Forall2_len; eauto).
  destruct (map_spec o e rf pf eft mat matcher ps req X R N L) as [ev1 [E1 [F1 _]]].
  { intros f v I. left. eapply states_field; eauto. }
  { apply texts_candidates; auto. }
  destruct (position_spec o e rf pf eft mat matcher req X R L (texts_candidates _ _ _ _ T)) as [ev2 [E2 _]].
  unfold EnforceWithMatcherMap, EnforceWithMatcher, mbind. rewrite E1, E2. cbn [snd fst].
  split; auto. split; [|eapply ready_ev; eauto]. destruct (enforce_outcome o e rf pf eft mat matcher req); auto.
Qed.
Print Assumptions C87_same_answer.

Lemma aget_permuted : forall (ps ps' : list (string * data)) f, NoDup (map fst ps) -> Permutation ps ps' -> aget f ps' = aget f ps.
Proof.
  intros ps ps' f N P. revert N. induction P as [|[k v] l l' P IH|[k v] [k' v'] l|l l' l'' P1 IH1 P2 IH2]; intros N; auto.
  - cbn [aget]. inversion N; subst. rewrite IH; auto.
  - cbn [aget]. inversion N as [|? ? A B]; subst. cbn [map fst] in A. seqb f k; seqb f k'; auto. subst. exfalso. apply A. left; auto.
  - rewrite IH2, IH1; auto. eapply Permutation_NoDup; [apply Permutation_map; exact P1|auto].
Qed.

(** The order in which the map is walked does not matter. *)
Theorem C87_any_order : forall o e rf pf eft mat matcher ps ps' req,
  oracle_ext o -> ready o e rf pf eft mat -> names_fields rf ps -> states rf ps req -> Permutation ps ps' ->
  texts_ok (chosen matcher mat) pf (p_rules (e_model e)) ->
  snd (EnforceExWithMatcherMap o matcher ps' e) = snd (EnforceExWithMatcherMap o matcher ps e).
Proof.
  intros o e rf pf eft mat matcher ps ps' req X R N S P T.
  destruct (C87_same_answer o e rf pf eft mat matcher ps req X R N S T) as [-> _].
  assert (PM : Permutation (map fst ps) (map fst ps')) by (apply Permutation_map; auto).
  assert (N' : names_fields rf ps').
  { destruct N as [N1 N2]. split.
    - eapply Permutation_NoDup; eauto.
    - intros f I. apply N2. eapply Permutation_in; [apply Permutation_sym|]; eauto. }
  refine (proj1 (C87_same_answer o e rf pf eft mat matcher ps' req X R N' _ T)).
  destruct N as [ND _]. clear - S ND P. unfold states in *. induction S as [|f v rf' req' G S IH]; constructor; auto.
  rewrite <- G. unfold given. rewrite (aget_permuted ps ps' f); auto.
Qed.
Print Assumptions C87_any_order.

(** A field that the map leaves out, or gives as JSON, has the value of the request
    before.  So after a complete request and any later requests, by position or by name,
    a map is answered as the request by position that completes it. *)
Theorem C87_completed : forall o e rf pf eft mat m0 req0 qs last matcher ps req,
  oracle_ext o -> ready o e rf pf eft mat -> List.length req0 = List.length rf ->
  stands rf req0 qs last -> names_fields rf ps -> completes rf last ps req ->
  Forall (fun m => texts_ok (chosen m mat) pf (p_rules (e_model e))) (m0 :: matcher :: map fst qs) ->
  snd (EnforceExWithMatcherMap o matcher ps (ask_all_m o ((m0, ByPosition req0) :: qs) e)) =
  snd (EnforceExWithMatcher o matcher (map DStr req) e).
Proof.
  intros o e rf pf eft mat m0 req0 qs last matcher ps req X R L S N C T.
  inversion T as [|? ? T0 T']; subst. inversion T' as [|? ? T1 T2]; subst.
  destruct (position_spec o e rf pf eft mat m0 req0 X R L (texts_candidates _ _ _ _ T0)) as [ev0 [E0 [F0 H0]]].
  cbn [ask_all_m ask_m]. rewrite E0. cbn [fst].
  destruct (history_m o rf pf eft mat qs req0 (set_ev (Some ev0) e) last X (ready_ev _ _ _ _ _ _ _ R F0) H0 S) as [ev1 [E1 [F1 H1]]].
  { apply Forall_forall. intros q I. rewrite Forall_forall in T2. apply (T2 (fst q)). apply in_map; auto. }
  rewrite E1.
  destruct (ask_by_name o (set_ev (Some ev1) (set_ev (Some ev0) e)) rf pf eft mat matcher ps last req X
    (ready_ev _ _ _ _ _ _ _ (ready_ev _ _ _ _ _ _ _ R F0) F1) N H1 C T1) as [ev2 [E2 _]].
  rewrite E2. cbn [snd]. rewrite !outcome_ev.
  destruct (position_spec o e rf pf eft mat matcher req X R (completes_length _ _ _ _ C) (texts_candidates _ _ _ _ T1)) as [ev3 [E3 _]].
  rewrite E3. auto.
Qed.
Print Assumptions C87_completed.

Ltac fields := repeat (apply Forall2_cons; [first [left; reflexivity|right; split; reflexivity]|]); apply Forall2_nil.

Example C87_case :
  let e := boot (basic_model [["alice"; "data1"; "read"]]) in
  let ps := [("act", DStr "read"); ("sub", DStr "alice"); ("obj", DStr "data1")] in
  let part := [("obj", DStr "data1"); ("act", DJson)] in
  let qs := [("", ByName [("obj", DStr "data2")]); ("r.act == 'read'", ByName [("sub", DStr "alice")])] in
  ready mini e f3 f3 "some(where (p.eft == allow))" basic_matcher /\
  names_fields f3 ps /\ states f3 ps ["alice"; "data1"; "read"] /\
  stands f3 ["bob"; "data1"; "read"] qs ["alice"; "data2"; "read"] /\
  names_fields f3 part /\ completes f3 ["alice"; "data2"; "read"] part ["alice"; "data1"; "read"] /\
  Forall (fun m => texts_ok (chosen m basic_matcher) f3 (p_rules (e_model e))) ("" :: "" :: map fst qs) /\
  snd (EnforceMap mini ps e) = Ok true /\
  snd (EnforceMap mini part (ask_all_m mini (("", ByPosition ["bob"; "data1"; "read"]) :: qs) e)) = Ok true.
Proof.
  cbv zeta. split; [apply basic_ready|].
  assert (NF : forall ps, names_fields f3 ps <-> NoDup (map fst ps) /\ incl (map fst ps) f3) by (intros; split; intros [A B]; split; auto).
  split; [apply NF; split; [repeat constructor; simpl; intuition discriminate|intros x; simpl; intuition subst; auto]|].
  split; [repeat constructor|].
  split.
  { apply st_name with (req1 := ["bob"; "data2"; "read"]).
    - apply NF; split; [repeat constructor; simpl; intuition discriminate|intros x; simpl; intuition subst; auto].
    - split; auto. fields.
    - apply st_name with (req1 := ["alice"; "data2"; "read"]).
      + apply NF; split; [repeat constructor; simpl; intuition discriminate|intros x; simpl; intuition subst; auto].
      + split; auto. fields.
      + constructor. }
  split; [apply NF; split; [repeat constructor; simpl; intuition discriminate|intros x; simpl; intuition subst; auto]|].
  split; [split; [reflexivity|fields]|].
  split; [|split; vm_compute; reflexivity].
  repeat constructor; try discriminate; simpl; intros r H; destruct H as [<-|[]]; discriminate.
Qed.
