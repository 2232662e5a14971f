(** Property C104: which models keep their rules in the hash index. *)
From Verif Require Import Base P_Base M_Util M_Model M_Config M_Load S_Text S_Load S_Select P_Text P_Store P_Load P_Select.

(** The rules are indexed exactly when cutting the comparisons of the request fields out of
    the matcher leaves one " && " less than there are fields. *)
Theorem C104_chosen : forall odd d m ra ma pa fs k, LoadModelFromConfig odd [] d = (m, Ok tt) ->
  get_ast m "r" "r" = Ok ra -> get_ast m "m" "m" = Ok ma -> get_ast m "p" k = Ok pa ->
  a_tokens ra = map (fun f => ("r_" ++ f)%string) fs -> Forall (every ordinary) fs ->
  (is_hash (a_policy pa) = true <-> cut_all fs (a_value ma) (ands (List.length fs - 1))).
Proof. intros odd d m ra ma pa fs k L R M P T O. destruct (load_index odd d m ra ma fs L R M T O) as [H _]. eapply H; eauto. Qed.
(** Role definitions never are. *)
Theorem C104_roles : forall odd d m ra ma ga fs k, LoadModelFromConfig odd [] d = (m, Ok tt) ->
  get_ast m "r" "r" = Ok ra -> get_ast m "m" "m" = Ok ma -> get_ast m "g" k = Ok ga ->
  a_tokens ra = map (fun f => ("r_" ++ f)%string) fs -> Forall (every ordinary) fs -> is_hash (a_policy ga) = false.
Proof. intros odd d m ra ma ga fs k L R M P T O. destruct (load_index odd d m ra ma fs L R M T O) as [_ H]. eapply H; eauto. Qed.

(** What remains is determined. *)
Theorem C104_determined : forall fs s a b, cut_all fs s a -> cut_all fs s b -> a = b.
Proof.
  induction fs as [|f fs IH]; intros s a b A B.
  - inversion A; inversion B; subst. reflexivity.
  - inversion A as [|? ? ? s1 ? C1 A']; inversion B as [|? ? ? s2 ? C2 B']; subst.
    apply cut_fun in C1. apply cut_fun in C2. rewrite C1 in C2. subst. eauto.
Qed.
Lemma ands_inj : forall a b, ands a = ands b -> a = b.
Proof. induction a; intros [|b] E; try discriminate E; auto. inversion E. f_equal. auto. Qed.

(** A conjunction of field comparisons: it is indexed exactly if there are as many comparisons
    as fields, whatever their order. *)
Theorem C104_conjunction : forall odd d m ra ma pa fs gs k, LoadModelFromConfig odd [] d = (m, Ok tt) ->
  get_ast m "r" "r" = Ok ra -> get_ast m "m" "m" = Ok ma -> get_ast m "p" k = Ok pa ->
  a_tokens ra = map (fun f => ("r_" ++ f)%string) fs -> Forall (every ordinary) fs ->
  Forall simple_name fs -> prefix_free fs -> gs <> [] -> (forall g, In g gs -> In g fs) -> a_value ma = conjunction gs ->
  (is_hash (a_policy pa) = true <-> List.length gs = List.length fs).
Proof.
  intros odd d m ra ma pa fs gs k L R M P T O S PF NE I V. rewrite (C104_chosen odd d m ra ma pa fs k L R M P T O), V.
  pose proof (conjunction_cut fs gs S PF I) as C. split.
  - intros C'. apply (C104_determined _ _ _ _ C) in C'. apply ands_inj in C'. destruct gs as [|g gs]; [congruence|]. destruct fs as [|f fs]; [destruct (I g (or_introl eq_refl))|].
    cbn [List.length] in *. lia.
  - intros E. rewrite <- E. exact C.
Qed.

(** What disappears are whole comparisons of fields and nothing else. *)
Theorem C104_lengths : forall fs s s', cut_all fs s s' ->
  exists cs, (forall x, In x cs -> exists f, In f fs /\ comparison f x) /\ String.length s = String.length s' + list_sum (map String.length cs).
Proof.
  assert (ONE : forall f s s', cut f s s' -> exists cs, (forall x, In x cs -> comparison f x) /\ String.length s = String.length s' + list_sum (map String.length cs)).
  { intros f s s' H. induction H as [|x s s' X H IH|c s s' N H IH].
    - exists []. split; [intros x []|reflexivity].
    - destruct IH as [cs [C E]]. exists (x :: cs). split; [intros y [<-|Y]; auto|]. rewrite length_app_s. cbn [map list_sum fold_right]. unfold list_sum in E. lia.
    - destruct IH as [cs [C E]]. exists cs. split; auto. cbn [String.length]. lia. }
  intros fs s s' H. induction H as [s|f fs s s' s'' C H IH].
  - exists []. split; [intros x []|]. cbn. lia.
  - destruct (ONE f s s' C) as [cs1 [C1 E1]]. destruct IH as [cs2 [C2 E2]]. exists (cs1 ++ cs2). split.
    + intros x I. apply in_app_or in I. destruct I as [I|I]; [exists f; split; [left; auto|auto]|]. destruct (C2 x I) as [g [G X]]. exists g. split; [right; auto|auto].
    + rewrite map_app, list_sum_app. lia.
Qed.

Definition conf (matcher : string) : config :=
  [("request_definition", [("r", "sub, obj, act")]); ("policy_definition", [("p", "sub, obj, act")]); ("policy_effect", [("e", "some(where (p.eft == allow))")]);
   ("matchers", [("m", matcher)])].
Definition never (t s : string) : res string := Throw StdRegexError.
(** The fields in another order are indexed; a comparison less, an alternative, or another
    operator are not. *)
Example C104_case : exists m ra ma pa,
  LoadModelFromConfig never [] (conf "r.act == p.act && r.sub == p.sub && r.obj == p.obj") = (m, Ok tt) /\
  get_ast m "r" "r" = Ok ra /\ get_ast m "m" "m" = Ok ma /\ get_ast m "p" "p" = Ok pa /\
  a_tokens ra = map (fun f => ("r_" ++ f)%string) ["sub"; "obj"; "act"] /\ a_value ma = conjunction ["act"; "sub"; "obj"] /\ is_hash (a_policy pa) = true.
Proof. do 4 eexists. split; [vm_compute; reflexivity|]. do 3 (split; [vm_compute; reflexivity|]). repeat split; vm_compute; reflexivity. Qed.
Example C104_case_fields : Forall (every ordinary) ["sub"; "obj"; "act"] /\ Forall simple_name ["sub"; "obj"; "act"] /\ prefix_free ["sub"; "obj"; "act"].
Proof.
  split; [|split].
  - repeat constructor; apply smem_lacks; reflexivity.
  - repeat constructor; try discriminate; apply smem_lacks; reflexivity.
  - intros f t F G. assert (L : String.length f = 3) by (destruct F as [<-|[<-|[<-|[]]]]; reflexivity).
    assert (L2 : String.length (f ++ t) = 3) by (destruct G as [<-|[<-|[<-|[]]]]; reflexivity).
    rewrite length_app_s in L2. destruct t; auto. simpl in L2. lia.
Qed.
Example C104_case_not : forall matcher, In matcher ["r.sub == p.sub && r.obj == p.obj"; "r.sub == p.sub && r.obj == p.obj || r.act == p.act";
    "r.sub == p.sub && r.obj == p.obj && keyMatch(r.act, p.act)"; "r.sub != p.sub && r.obj == p.obj && r.act == p.act"] ->
  exists m pa, LoadModelFromConfig never [] (conf matcher) = (m, Ok tt) /\ get_ast m "p" "p" = Ok pa /\ is_hash (a_policy pa) = false.
Proof. intros matcher [<-|[<-|[<-|[<-|[]]]]]; do 2 eexists; (split; [vm_compute; reflexivity|]; split; vm_compute; reflexivity). Qed.
(** False: that only matchers which compare every field are indexed; any two characters may stand
    for the dots, too. *)
Theorem C104_every_field_refuted : exists m pa, LoadModelFromConfig never [] (conf "r.sub == p.sub && r.sub == p.sub && r+sub == p(sub") = (m, Ok tt) /\
  get_ast m "p" "p" = Ok pa /\ is_hash (a_policy pa) = true.
Proof. do 2 eexists. split; [vm_compute; reflexivity|]. split; vm_compute; reflexivity. Qed.
Print Assumptions C104_chosen.
Print Assumptions C104_roles.
Print Assumptions C104_determined.
Print Assumptions C104_conjunction.
Print Assumptions C104_lengths.
Print Assumptions C104_every_field_refuted.
