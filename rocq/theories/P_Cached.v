(** Proofs about the cached enforcer. *)
From Coq Require Import Lia.
From Verif Require Import Base P_Base M_Util M_Cached S_Text P_Text S_History S_Cached S_Effect S_Enforce P_Enforce P_Decide.

(** ** Keys *)
Lemma concat_cons : forall a l, String.concat "" (a :: l) = (a ++ String.concat "" l)%string.
Proof. intros a [|b l]; cbn [String.concat]; [rewrite app_nil_r_s; reflexivity|reflexivity]. Qed.
Lemma key_cons : forall s q m, cache_key (map DStr (s :: q)) m = (s ++ "$$" ++ cache_key (map DStr q) m)%string.
Proof. intros. unfold cache_key. cbn [map]. rewrite concat_cons, !app_assoc_s. reflexivity. Qed.
Lemma dollar_cut : forall s t a b, lacks "$" s -> lacks "$" t -> (s ++ String "$" a)%string = (t ++ String "$" b)%string -> s = t /\ a = b.
Proof.
  induction s as [|c s IH]; intros [|d t] a b Ls Lt E; cbn [append] in E.
  - injection E as E. auto.
  - injection E as E _. exfalso. apply Lt. exists "", t. cbn. congruence.
  - injection E as E _. exfalso. apply Ls. exists "", s. cbn. congruence.
  - injection E as -> E. destruct (IH t a b) as [-> ->]; auto.
    + intros (x & y & ->). apply Ls. exists (String d x), y. reflexivity.
    + intros (x & y & ->). apply Lt. exists (String d x), y. reflexivity.
Qed.
Lemma key_inj : forall q q' m m', List.length q = List.length q' -> (forall v, In v q -> lacks "$" v) -> (forall v, In v q' -> lacks "$" v) ->
  cache_key (map DStr q) m = cache_key (map DStr q') m' -> q = q' /\ m = m'.
Proof.
  induction q as [|s q IH]; intros [|t q'] m m' L A B E; try discriminate.
  - split; [reflexivity|]. unfold cache_key in E. cbn [map String.concat append] in E. apply snoc_inj in E. tauto.
  - rewrite !key_cons in E. cbn [append] in E. destruct (dollar_cut s t _ _ (A s (or_introl eq_refl)) (B t (or_introl eq_refl)) E) as [-> E'].
    injection E' as E'. destruct (IH q' m m') as [-> ->]; auto; [intros v Hv; apply A; right; exact Hv|intros v Hv; apply B; right; exact Hv].
Qed.

(** ** The cache holds answers of the plain enforcer *)
Section Answers.
  Variables (o : oracle) (e : enforcer) (rf pf : list string) (eft mat : string).
  Hypotheses (X : oracle_ext o) (R : ready o e rf pf eft mat).
  Definition good (q : string * list string) : Prop := admissible (e_model e) rf pf mat q /\ no_dollar q.
  Definition plain_answer (q : string * list string) : res bool := snd (EnforceWithMatcher o (fst q) (map DStr (snd q)) e).
  Definition faithful (c : cached) : Prop :=
    (exists ev, c_base c = set_ev ev e) /\ ready o (c_base c) rf pf eft mat /\
    forall q b, good q -> aget (cache_key (map DStr (snd q)) (fst q)) (c_map c) = Some b -> plain_answer q = Ok b.

  Lemma base_step : forall c q, faithful c -> good q ->
    exists ev', EnforceWithMatcher o (fst q) (map DStr (snd q)) (c_base c) = (set_ev (Some ev') e, plain_answer q) /\ ready o (set_ev (Some ev') e) rf pf eft mat.
  Proof.
    intros c q ([ev B] & Rc & _) [A _]. pose proof A as [L T]. rewrite B in *.
    destruct (enforce_spec o (set_ev ev e) rf pf eft mat (fst q) (snd q) X Rc L T) as [ev1 [E1 F1]].
    destruct (enforce_spec o e rf pf eft mat (fst q) (snd q) X R L T) as [ev2 [E2 F2]].
    exists ev1. split.
    - unfold EnforceWithMatcher, mbind, plain_answer. rewrite E1. rewrite snd_EnforceWithMatcher, E2. rewrite outcome_set_ev. cbn [snd].
      destruct (enforce_outcome o e rf pf eft mat (fst q) (snd q)); reflexivity.
    - apply ready_set_ev; [apply R|exact F1].
  Qed.
  Lemma ask_step : forall c q, faithful c -> good q ->
    faithful (fst (c_EnforceWithMatcher o (fst q) (map DStr (snd q)) c)) /\
    snd (c_EnforceWithMatcher o (fst q) (map DStr (snd q)) c) = plain_answer q.
  Proof.
    intros c q F G. pose proof F as ([ev B] & Rc & K). destruct (base_step c q F G) as (ev' & E & R'). unfold c_EnforceWithMatcher, through_cache, inherited.
    destruct (c_on c); cbn [negb].
    - destruct (aget _ (c_map c)) as [b|] eqn:Eb.
      + split; [exact F|]. symmetry. exact (K q b G Eb).
      + rewrite E. cbn [fst snd]. split; [|reflexivity]. destruct (plain_answer q) as [b|t|u] eqn:P; (split; [exists (Some ev'); reflexivity|]; split; [exact R'|]); cbn [c_map]; try exact K.
        intros q' b' G' H'. rewrite aget_aset in H'.
        destruct (String.eqb_spec (cache_key (map DStr (snd q')) (fst q')) (cache_key (map DStr (snd q)) (fst q))) as [Ek|Nk]; [|exact (K q' b' G' H')].
        injection H' as <-. destruct G as [[L _] D]. destruct G' as [[L' _] D']. destruct (key_inj (snd q') (snd q) (fst q') (fst q)) as [E1 E2]; auto; [congruence|].
        replace q' with q; [exact P|]. destruct q, q'. cbn in *. congruence.
    - rewrite E. cbn [fst snd]. split; [|reflexivity]. split; [exists (Some ev'); reflexivity|]. split; [exact R'|exact K].
  Qed.
  Lemma ask_all : forall qs c, faithful c -> Forall good qs -> faithful (c_ask o qs c).
  Proof.
    induction qs as [|[m q] qs IH]; intros c F G; [exact F|]. cbn [c_ask]. apply IH; [|exact (Forall_inv_tail G)].
    exact (proj1 (ask_step c (m, q) F (Forall_inv G))).
  Qed.
  Lemma fresh_faithful : forall b, faithful (mkC e [] b).
  Proof. intros b. split; [exists (e_ev e); destruct e; reflexivity|]. split; [exact R|]. intros q x _ H. discriminate. Qed.
  Lemma batch_faithful : forall reqs c, faithful c -> Forall (fun q => good ("", q)) reqs ->
    snd (c_BatchEnforce o (map (map DStr) reqs) c) = mapr (fun q => plain_answer ("", q)) reqs.
  Proof.
    induction reqs as [|q reqs IH]; intros c F G; [reflexivity|]. cbn [map c_BatchEnforce mapr]. unfold c_Enforce.
    destruct (ask_step c ("", q) F (Forall_inv G)) as [F' A]. cbn [fst snd] in F', A.
    destruct (c_EnforceWithMatcher o "" (map DStr q) c) as [c1 out]. cbn [fst snd] in F', A. subst out.
    destruct (plain_answer ("", q)) as [b|t|u]; [|reflexivity|reflexivity]. cbn [bind]. rewrite <- (IH c1 F' (Forall_inv_tail G)).
    destruct (c_BatchEnforce o (map (map DStr) reqs) c1). reflexivity.
  Qed.
End Answers.

(** ** Answers stay in the cache *)
Lemma through_keeps : forall key b k (p : M bool) c, c_on c = true -> aget key (c_map c) = Some b ->
  c_on (fst (through_cache k p c)) = true /\ aget key (c_map (fst (through_cache k p c))) = Some b.
Proof.
  intros key b k p c On H. unfold through_cache. rewrite On. cbn [negb]. destruct (aget k (c_map c)) as [x|] eqn:E; [auto|].
  unfold inherited. destruct (p (c_base c)) as [e' out]. destruct out; cbn; auto. split; [exact On|]. rewrite aget_aset.
  destruct (String.eqb_spec key k); [congruence|exact H].
Qed.
Definition holds_on (key : string) (b : bool) (c : cached) : Prop := c_on c = true /\ aget key (c_map c) = Some b.
Lemma inherited_keeps : forall A (x : M A) key b c, holds_on key b c -> holds_on key b (fst (inherited x c)).
Proof. intros A x key b c H. unfold inherited. destruct (x (c_base c)). exact H. Qed.
Lemma enforce_keeps : forall o key b params c, holds_on key b c -> holds_on key b (fst (c_Enforce o params c)).
Proof. intros o key b params c [On H]. apply through_keeps; assumption. Qed.
Lemma batch_keeps : forall o key b reqs c, holds_on key b c -> holds_on key b (fst (c_BatchEnforce o reqs c)).
Proof.
  intros o key b. induction reqs as [|q reqs IH]; intros c H; [exact H|]. cbn [c_BatchEnforce].
  pose proof (enforce_keeps o key b q c H) as H1. destruct (c_Enforce o q c) as [c1 [x|t|u]]; [|exact H1|exact H1].
  specialize (IH c1 H1). destruct (c_BatchEnforce o reqs c1). exact IH.
Qed.
Lemma allowed_keeps : forall o key b perm subjects c, holds_on key b c -> holds_on key b (fst (c_allowed_subjects o perm subjects c)).
Proof.
  intros o key b perm. induction subjects as [|s ss IH]; intros c H; [exact H|]. cbn [c_allowed_subjects].
  destruct (bind _ _) as [[p0 p1]|t|u]; [|exact H|exact H].
  pose proof (enforce_keeps o key b [DStr s; DStr p0; DStr p1] c H) as H1. destruct (c_Enforce o [DStr s; DStr p0; DStr p1] c) as [c1 [x|t|u]]; [|exact H1|exact H1].
  specialize (IH c1 H1). destruct (c_allowed_subjects o perm ss c1). exact IH.
Qed.
Lemma run_keeps_entry : forall o key b q c, keeps_cache q -> holds_on key b c -> holds_on key b (fst (c_run o q c)).
Proof.
  intros o key b q c K H. destruct q as [m ps|m ps|rs|perm|k|s|]; cbn [c_run]; try destruct K.
  - unfold c_drop. pose proof (through_keeps key b (cache_key ps m) (EnforceWithMatcher o m ps) c (proj1 H) (proj2 H)) as X.
    fold (c_EnforceWithMatcher o m ps) in X. destruct (c_EnforceWithMatcher o m ps c). exact X.
  - unfold c_drop. pose proof (through_keeps key b (cache_key_map ps m) (EnforceWithMatcherMap o m ps) c (proj1 H) (proj2 H)) as X.
    fold (c_EnforceWithMatcherMap o m ps) in X. destruct (c_EnforceWithMatcherMap o m ps c). exact X.
  - unfold c_drop. pose proof (batch_keeps o key b rs c H) as X. destruct (c_BatchEnforce o rs c). exact X.
  - unfold c_drop. assert (X : holds_on key b (fst (c_GetImplicitUsersForPermission o perm c))).
    { unfold c_GetImplicitUsersForPermission. match goal with |- context [inherited ?x c] => pose proof (inherited_keeps _ x key b c H) as H1; destruct (inherited x c) as [c1 out1] end. cbn [fst] in H1.
      destruct out1 as [[subjects gi]|t|u]; [|exact H1|exact H1].
      pose proof (allowed_keeps o key b perm subjects c1 H1) as H2. destruct (c_allowed_subjects o perm subjects c1). exact H2. }
    destruct (c_GetImplicitUsersForPermission o perm c). exact X.
  - apply inherited_keeps. exact H.
Qed.
Lemma reaches_keeps_entry : forall o key b c qs c', c_reaches o c qs c' -> Forall keeps_cache qs -> holds_on key b c -> holds_on key b c'.
Proof.
  intros o key b c qs c' H. induction H as [c|c q qs c1 out c2 E U H IH]; intros F K; [exact K|].
  apply IH; [exact (Forall_inv_tail F)|]. pose proof (run_keeps_entry o key b q c (Forall_inv F) K) as X. rewrite E in X. exact X.
Qed.
