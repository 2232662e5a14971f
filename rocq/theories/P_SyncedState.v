(** What the calls of the synchronised enforcer leave of the model: the definitions stay,
    and the reading calls change nothing. *)
From Verif Require Import Base P_Base M_Util M_Model M_Persist M_Evaluator M_Enforcer M_Synced S_Policy S_History S_Synced
  P_Decide P_Store P_Api P_History P_Nodup P_Ready P_Synced.

Lemma keeps_value : forall A (R : enforcer -> enforcer -> Prop) (f : A -> value) (x : M A), (forall e, R e e) -> keeps R x -> keeps R (as_value f x).
Proof.
  intros A R f x Rr K e. specialize (K e). unfold as_value, mbind. destruct (x e) as [e1 [a|t|u]]; simpl in *; auto.
Qed.
Lemma shape_clear : keeps same_shape e_ClearPolicy.
Proof.
  intros e sec pt. simpl. rewrite P_Nodup.clear_get. destruct (get_ast (e_model e) sec pt) as [a|t|u]; simpl.
  all: destruct (String.eqb sec "p" || String.eqb sec "g"); reflexivity.
Qed.
Definition model_shape (m m' : model) : Prop := forall sec pt, outline (get_ast m' sec pt) = outline (get_ast m sec pt).
Lemma shape_line : forall l m, model_shape m (fst (LoadPolicyLine l m)).
Proof.
  intros l m sec pt. unfold LoadPolicyLine. destruct (String.eqb l "" || String.prefix "#" l); auto.
  destruct (map Trim (Split l "," None)) as [|key toks]; auto.
  destruct (get_ast (touch m (stake 1 key)) (stake 1 key) key) as [a|t|u] eqn:G; cbn [fst]; try (rewrite get_touch; auto).
  destruct (pair_dec sec pt (stake 1 key) key) as [V|V].
  - assert (V1 : sec = stake 1 key) by congruence. assert (V2 : pt = key) by congruence. rewrite V1, V2. rewrite get_put_same. rewrite get_touch in G. rewrite G. reflexivity.
  - rewrite get_put_other by auto. rewrite get_touch. auto.
Qed.
Lemma shape_lines : forall ls m, model_shape m (fst (load_lines ls m)).
Proof.
  induction ls as [|l ls IH]; intros m sec pt; auto. cbn [load_lines]. pose proof (shape_line l m sec pt) as H.
  destruct (LoadPolicyLine l m) as [m1 [x|t|u]]; simpl in *; auto. rewrite <- H. apply IH.
Qed.
Lemma shape_adapter_load : keeps same_shape adapter_load.
Proof.
  intros e sec pt. unfold adapter_load. destruct (e_adapter e) as [[b path|t|path fd|u]|]; auto.
  - unfold FileAdapter_LoadPolicy, LoadPolicyFile. destruct (String.eqb path ""); auto.
    destruct (aget path (files (e_fs e))) as [c|]; auto.
    pose proof (shape_lines (map Trim (getlines c)) (e_model e) sec pt) as H. destruct (load_lines (map Trim (getlines c)) (e_model e)). exact H.
  - unfold StringAdapter_LoadPolicy. destruct (String.eqb t ""); auto.
    pose proof (shape_lines (Split t (String nl "") None) (e_model e) sec pt) as H. destruct (load_lines (Split t (String nl "") None) (e_model e)). exact H.
  - unfold Filtered_LoadPolicy, FileAdapter_LoadPolicy, LoadPolicyFile. destruct (String.eqb path ""); auto.
    destruct (aget path (files (e_fs e))) as [c|]; auto.
    pose proof (shape_lines (map Trim (getlines c)) (e_model e) sec pt) as H. destruct (load_lines (map Trim (getlines c)) (e_model e)). exact H.
  - destruct (ua_load u (ua_log u)) as [lines ex]. pose proof (shape_lines lines (e_model e) sec pt) as H.
    destruct (load_lines lines (e_model e)) as [m [x|t|v]]; exact H.
Qed.
Lemma shape_load : keeps same_shape LoadPolicy.
Proof.
  unfold LoadPolicy. apply keeps_bind; [exact same_shape_trans|exact shape_clear|intros _].
  apply keeps_bind; [exact same_shape_trans|exact shape_adapter_load|intros _].
  intros e. apply asts_shape. apply quiet_rebuild_if.
Qed.

Definition loads_model (c : scall) : Prop := match c with SLoadModel (Ok _) => True | _ => False end.
Lemma shape_plain : forall o c, locked_once c <> None -> ~ loads_model c -> keeps same_shape (plain o c).
Proof.
  intros o c L N.
  assert (QU : forall A (x : M A), keeps same_asts x -> keeps same_shape x) by (intros A x H e; apply asts_shape, H).
  assert (RD : forall A (f : model -> res A), keeps same_shape (read_model f)) by (intros A f e s q; reflexivity).
  destruct c; cbn [locked_once] in L; try congruence; cbn [plain];
    (apply keeps_value; [exact same_shape_refl|]);
    try (apply RD); try (apply QU; first [apply quiet_save|apply quiet_rebuild|apply quiet_all_types|apply quiet_enforce|apply quiet_enforceMap|apply quiet_batch
      |apply quiet_enforceEx|apply quiet_enforceExMap]);
    try first [exact shape_clear|exact shape_load].
  - intros e. destruct loaded as [m|t|u]; [exfalso; apply N; exact Logic.I| |]; apply same_shape_refl.
  - apply QU. induction reqs as [|r rs IH]; cbn [BatchEnforce]; [intros e; apply same_asts_refl|].
    apply keeps_bind; [exact same_asts_trans|apply quiet_enforce|intros b]. apply keeps_bind; [exact same_asts_trans| |].
    { apply IH; auto. } intros bs e. apply same_asts_refl.
  - apply keeps_add; try exact same_shape_refl; try exact same_shape_trans; try exact asts_shape. shape_edit.
  - apply keeps_add_many; try exact same_shape_refl; try exact same_shape_trans; try exact asts_shape. shape_edit.
  - apply keeps_update; try exact same_shape_refl; try exact same_shape_trans; try exact asts_shape. shape_edit.
  - apply keeps_update_many; try exact same_shape_refl; try exact same_shape_trans; try exact asts_shape. shape_edit.
  - apply keeps_remove; try exact same_shape_refl; try exact same_shape_trans; try exact asts_shape. shape_edit.
  - apply keeps_remove_many; try exact same_shape_refl; try exact same_shape_trans; try exact asts_shape. shape_edit.
  - apply keeps_remove_filtered; try exact same_shape_refl; try exact same_shape_trans; try exact asts_shape. shape_edit.
  - apply keeps_add_grouping; try exact same_shape_refl; try exact same_shape_trans; try exact asts_shape. shape_edit.
  - apply keeps_add_many; try exact same_shape_refl; try exact same_shape_trans; try exact asts_shape. shape_edit.
  - apply keeps_remove_many; try exact same_shape_refl; try exact same_shape_trans; try exact asts_shape. shape_edit.
  - apply keeps_update; try exact same_shape_refl; try exact same_shape_trans; try exact asts_shape. shape_edit.
Qed.

Lemma shape_sections : forall e e', same_shape e e' -> both_sections (e_model e) -> both_sections (e_model e').
Proof.
  intros e e' H [[p [a A]] [q [b B]]].
  assert (D : forall sec pt x, get_ast (e_model e) sec pt = Ok x -> exists y, get_ast (e_model e') sec pt = Ok y).
  { intros sec pt x X. specialize (H sec pt). rewrite X in H. destruct (get_ast (e_model e') sec pt); simpl in H; try discriminate. eauto. }
  destruct (D _ _ _ A) as [a' A']. destruct (D _ _ _ B) as [b' B']. split; eauto.
Qed.
(** A model that is loaded while the enforcer runs has both sections too. *)
Definition loads_both (c : scall) : Prop := match c with SLoadModel (Ok m) => both_sections m | _ => True end.
Lemma sections_kept : forall o c e, locked_once c <> None -> loads_both c -> both_sections (e_model e) -> both_sections (e_model (fst (plain o c e))).
Proof.
  intros o c e L B S. destruct c; try (eapply shape_sections; [apply shape_plain; [exact L|intros []]|exact S]).
  destruct loaded as [m|t|u]; try exact S. exact B.
Qed.

Lemma get_section : forall m sec pt a, get_ast m sec pt = Ok a -> exists am, aget sec m = Some am.
Proof. intros m sec pt a H. unfold get_ast, sec_of in H. destruct (aget sec m) as [am|]; eauto. simpl in H. discriminate. Qed.
Lemma touch_same : forall m sec am, aget sec m = Some am -> touch m sec = m.
Proof. intros m sec am H. unfold touch, ainsert. change (ahas sec m) with (match aget sec m with Some _ => true | None => false end). rewrite H. reflexivity. Qed.
Lemma set_same_model : forall e, set_model (e_model e) e = e.
Proof. intros []. reflexivity. Qed.
Lemma all_types_same : forall sec pt a i e, get_ast (e_model e) sec pt = Ok a -> fst (all_types sec i e) = e.
Proof.
  intros sec pt a i e G. destruct (get_section _ _ _ _ G) as [am A].
  unfold all_types, GetValuesForFieldInPolicyAllTypes. cbn [fst]. rewrite (touch_same _ _ _ A). apply set_same_model.
Qed.
Lemma value_same : forall A (f : A -> value) (x : M A) e, fst (x e) = e -> fst (as_value f x e) = e.
Proof. intros A f x e H. unfold as_value, mbind. destruct (x e) as [e1 [a|t|u]]; exact H. Qed.
Lemma shared_same : forall o c e, locked_once c = Some Shared -> ~ lists_all c \/ both_sections (e_model e) -> fst (plain o c e) = e.
Proof.
  intros o c e L H.
  destruct c; cbn [locked_once] in L; try discriminate; cbn [plain]; try (apply value_same; reflexivity);
    (destruct H as [H|[[p [a A]] [q [b B]]]]; [destruct (H Logic.I)|]);
    apply value_same; first [apply (all_types_same _ _ _ _ _ A)|apply (all_types_same _ _ _ _ _ B)].
Qed.
