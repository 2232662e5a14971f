(** Proofs about matchers that call built-in functions. *)
From Coq Require Import NArith.
From Verif Require Import Base P_Base M_BuiltIn M_Ip M_Regex M_Functions S_Text S_BuiltIn S_Regex S_Ip P_Text P_BuiltIn P_Regex T_BuiltIn T_Ip
  M_Util M_RoleManager M_Effector M_Model M_Persist M_Eval M_Evaluator M_Enforcer
  S_Effect S_Enforce S_Policy S_History S_Roles S_Sync S_Rbac S_Standard S_Functions
  P_Enforce P_Decide P_Store P_Api P_History P_Roles P_Sync P_Ready P_Standard T_Standard.
Close Scope N_scope.

Section Builtins.
  Variables (om : string -> string -> res (option (list string))) (sg : bool) (o : oracle).
  Notation lib := (with_builtins om sg o).

  Lemma builtins_ext : oracle_ext o -> oracle_ext lib.
  Proof.
    intros [X1 X2]. split; intros; cbn [with_builtins o_compiles o_value].
    - apply X1; auto. intros f. destruct (builtin_arity om sg f); auto.
    - apply X2; auto. intros f args. destruct (builtin_call om sg f args); auto.
  Qed.

  Definition built (f : string) : bool := match match_function om sg f with Some _ => true | None => false end.
  Definition called (f : string) (args : list string) : Prop := builtin_call om sg f args = Some (Ok true).
  Definition answers (d : reading) (val : string -> string) : Prop :=
    forall f args, In (f, args) (rd_calls d val) -> built f = true -> exists b, builtin_call om sg f args = Some (Ok b).
  Definition internal (d : reading) : reading := {|
    rd_vars := rd_vars d;
    rd_funs := List.filter (fun f => negb (built f)) (rd_funs d);
    rd_calls := fun v => List.filter (fun c => negb (built (fst c))) (rd_calls d v);
    rd_ok := fun v => rd_ok d v /\ answers d v;
    rd_sem := fun v R => rd_sem d v (fun f args => if built f then called f args else R f args) |}.

  Lemma builtin_none : forall f, built f = false -> builtin_arity om sg f = None /\ forall args, builtin_call om sg f args = None.
  Proof. intros f H. unfold built in H. unfold builtin_arity, builtin_call. destruct (match_function om sg f); [discriminate|auto]. Qed.
  Lemma internal_reads : forall text d, reads o 2 text d -> reads lib 2 text (internal d).
  Proof.
    intros text d R. constructor.
    - intros vars funs V F. cbn [with_builtins o_compiles]. apply (rs_compiles _ _ _ _ R); auto. intros f I.
      destruct (built f) eqn:E.
      + unfold built in E. unfold builtin_arity. destruct (match_function om sg f); [reflexivity|discriminate].
      + destruct (builtin_none f E) as [-> _]. apply F. cbn [rd_funs internal]. apply List.filter_In. rewrite E. auto.
    - intros v g val V C [OK AN]. cbn [with_builtins o_value].
      destruct (rs_value _ _ _ _ R v (fun f args => match builtin_call om sg f args with Some r => Some r | None => g f args end) val) as [b [E B]]; auto.
      + intros f args I. destruct (built f) eqn:Q.
        * destruct (AN f args I Q) as [b E]. rewrite E. eauto.
        * destruct (builtin_none f Q) as [_ N]. rewrite N. apply C. cbn [rd_calls internal]. apply List.filter_In. simpl. rewrite Q. auto.
      + exists b. split; auto. rewrite B. cbn [rd_sem internal].
        split; apply (rs_local _ _ _ _ R); intros f args I; destruct (built f) eqn:Q; unfold called;
          try (destruct (AN f args I Q) as [x Hx]; rewrite Hx; tauto); destruct (builtin_none f Q) as [_ N]; rewrite N; tauto.
    - intros val P P' H. cbn [rd_sem internal]. apply (rs_local _ _ _ _ R). intros f args I.
      destruct (built f) eqn:Q; [tauto|]. apply H. cbn [rd_calls internal]. apply List.filter_In. simpl. rewrite Q. auto.
  Qed.

  (** Models without roles, whose functions are all built in. *)
  Variables (rf pf : list string) (text : string) (d : reading).
  Hypothesis X : oracle_ext o.
  Hypothesis RD : reads o 2 text d.
  Hypothesis TX : text <> "".
  Hypothesis NOEVAL : HasEval text = false.
  Hypothesis VARS : forall x, In x (rd_vars d) -> In x (r_names rf ++ p_names pf).
  Hypothesis FUNS : forall f, In f (rd_funs d) -> built f = true.
  Hypothesis CALLS : forall v f args, In (f, args) (rd_calls d v) -> In f (rd_funs d).
  Hypothesis OKS : forall v, rd_ok d v.

  Lemma internal_quiet : forall names val, answers d val -> calls_ok names (internal d) val.
  Proof.
    intros names val A. split; [split; auto|]. intros f args I. exfalso. cbn [rd_calls internal] in I. apply List.filter_In in I. destruct I as [I N].
    simpl in N. rewrite (FUNS f (CALLS val f args I)) in N. discriminate.
  Qed.
  Lemma internal_sem : forall val R, rd_sem (internal d) val R <-> rd_sem d val called.
  Proof.
    intros val R. cbn [rd_sem internal]. split; apply (rs_local _ _ _ _ RD); intros f args I; rewrite (FUNS f (CALLS val f args I)); tauto.
  Qed.
  Lemma builtin_decision : forall rules cs e0 e req,
    standard lib false rf pf (effect_text AllowOverride) text e0 -> roleless e0 ->
    Forall (safe_call rules) cs -> Forall (shaped_call (List.length pf)) cs -> reaches lib e0 cs e ->
    List.length req = List.length rf ->
    (forall r, In r (stored e "p" "p") -> answers d (value_of rf req pf r)) ->
    (stored e "p" "p" <> [] \/ answers d (value_of rf req pf (blank pf)) /\ ~ rd_sem d (value_of rf req pf (blank pf)) called) ->
    (forall r, In r (stored e "p" "p") -> List.length r = List.length pf) /\
    exists b, snd (Enforce lib (map DStr req) e) = Ok b /\
      (b = true <-> exists r, In r (stored e "p" "p") /\ rd_sem d (value_of rf req pf r) called /\ effect_of pf r = Allow).
  Proof.
    intros rules cs e0 e req S0 N0 F1 F2 RE L A NE. pose proof (builtins_ext X) as X'.
    destruct (roleless_reaches lib rules false rf pf (effect_text AllowOverride) text cs e0 e) as [S N]; auto.
    split; [apply (st_fields _ _ _ _ _ _ _ S)|].
    pose proof (std_candidates lib rf pf AllowOverride text e req S) as SC.
    assert (NF : forall f, ~ In f (rd_funs (internal d))).
    { intros f I. cbn [rd_funs internal] in I. apply List.filter_In in I. destruct I as [I Q]. rewrite (FUNS f I) in Q. discriminate. }
    destruct (std_decision lib (fun _ => False) 2 (fun _ => False) false rf pf AllowOverride text (internal d) X' (internal_reads text d RD) TX NOEVAL VARS)
      with (e := e) (req := req) as [b [E B]]; auto.
    - apply no_names_tidy.
    - intros f I. elim (NF f I).
    - intros f I. elim (NF f I).
    - rewrite SC. intros r I. apply internal_quiet; auto.
    - rewrite SC. destruct NE as [NE|[NE NS]]; auto. right. split; [apply internal_quiet; auto|]. rewrite internal_sem. exact NS.
    - exists b. split; auto. rewrite B, SC. unfold granted. split; intros [r [I [Q F]]]; exists r; (split; [exact I|]); (split; [|exact F]);
        apply (internal_sem (value_of rf req pf r) (linked e)); auto.
  Qed.
End Builtins.
