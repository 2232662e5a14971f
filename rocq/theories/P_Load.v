(** Proofs about loading models. *)
From Coq Require Import Decimal DecimalString DecimalNat.
From Verif Require Import Base M_Util M_Model M_Persist M_Config M_Load S_Text S_Config S_Load P_Base P_Text P_Store P_Config.

(** ** Names *)
Lemma digits_lack_colon : forall u, lacks ":" (NilEmpty.string_of_uint u).
Proof. intros u. apply smem_lacks. induction u; simpl; auto. Qed.
Lemma to_uint_ne : forall i, i <> 0 -> NilEmpty.string_of_uint (Nat.to_uint i) <> "".
Proof.
  intros i N E. assert (Nat.to_uint i = Nil). { destruct (Nat.to_uint i); try discriminate; auto. }
  pose proof (Unsigned.of_to i) as O. rewrite H in O. apply N. rewrite <- O. reflexivity.
Qed.
Lemma string_of_uint_inj : forall u v, NilEmpty.string_of_uint u = NilEmpty.string_of_uint v -> u = v.
Proof.
  intros u v E. pose proof (NilEmpty.usu u) as A. pose proof (NilEmpty.usu v) as B. rewrite E in A. congruence.
Qed.
Lemma app_inj_l : forall a b c, (a ++ b)%string = (a ++ c)%string -> b = c.
Proof. induction a; simpl; intros; auto. injection H. auto. Qed.
Lemma app_self : forall a b, a = (a ++ b)%string -> b = "".
Proof. intros a b E. apply (app_inj_l a). rewrite app_nil_r_s. auto. Qed.
Lemma numbered_inj : forall sec i j, 1 <= i -> 1 <= j -> numbered sec i = numbered sec j -> i = j.
Proof.
  intros sec i j I J. unfold numbered. destruct (Nat.eqb_spec i 1); destruct (Nat.eqb_spec j 1); subst; auto; intros E.
  - apply app_self in E. exfalso. revert E. apply to_uint_ne. lia.
  - symmetry in E. apply app_self in E. exfalso. revert E. apply to_uint_ne. lia.
  - apply app_inj_l, string_of_uint_inj, Unsigned.to_uint_inj in E. auto.
Qed.
Lemma numbered_suffix : forall sec i, (sec ++ GetKeySuffix i)%string = numbered sec i.
Proof.
  intros. unfold numbered, GetKeySuffix, to_string. destruct (Nat.eqb i 1); auto. apply app_nil_r_s.
Qed.
Lemma numbered_1 : forall sec, numbered sec 1 = sec.
Proof. reflexivity. Qed.
Definition kinds := ["m"; "r"; "p"; "g"; "e"].
Lemma title_name : forall sec t, title sec t <-> In sec kinds /\ section_name sec = t.
Proof.
  intros sec t. unfold kinds. split.
  - intros T. destruct T; simpl; auto 10.
  - simpl. intros [[<-|[<-|[<-|[<-|[<-|[]]]]]] <-]; simpl; constructor.
Qed.
Lemma name_lacks : forall sec, In sec kinds -> lacks ":" (section_name sec).
Proof. unfold kinds. intros sec [<-|[<-|[<-|[<-|[<-|[]]]]]]; apply smem_lacks; reflexivity. Qed.
Lemma numbered_lacks : forall sec i, In sec kinds -> lacks ":" (numbered sec i).
Proof.
  intros sec i K. unfold numbered. assert (A : lacks ":" sec).
  { unfold kinds in K. destruct K as [<-|[<-|[<-|[<-|[<-|[]]]]]]; apply smem_lacks; reflexivity. }
  destruct (Nat.eqb i 1); auto. apply smem_lacks in A. pose proof (digits_lack_colon (Nat.to_uint i)) as B. apply smem_lacks in B.
  apply smem_lacks. revert A. generalize sec as x. induction x as [|c x IH]; simpl; auto.
  intros Q. apply orb_false_iff in Q. destruct Q as [-> Q]. simpl. auto.
Qed.

(** The value LoadAssertion reads. *)
Definition val (d : config) (sec : string) (i : nat) : string := Get d (section_name sec ++ "::" ++ numbered sec i)%string.
Lemma written_val : forall d sec i v, In sec kinds -> (written d sec (numbered sec i) v <-> val d sec i = v /\ v <> "").
Proof.
  intros d sec i v K. unfold written, val. split.
  - intros [t [T [G N]]]. apply title_name in T. destruct T as [_ <-]. auto.
  - intros [G N]. exists (section_name sec). split; auto. apply title_name. auto.
Qed.
Lemma written_kind : forall d sec k v, written d sec k v -> In sec kinds.
Proof. intros d sec k v [t [T _]]. apply title_name in T. tauto. Qed.

(** There are no more definitions than options. *)
Lemma val_option : forall d sec i, In sec kinds -> val d sec i <> "" ->
  exists l, aget (section_name sec) d = Some l /\ In (numbered sec i) (map fst l).
Proof.
  intros d sec i K N. unfold val in N. rewrite (Get_lookup d _ _ _ (colon_split _ _ (name_lacks sec K) (numbered_lacks sec i K))) in N.
  unfold lookup in N. destruct (aget (section_name sec) d) as [l|]; [|congruence]. exists l. split; auto.
  destruct (aget (numbered sec i) l) as [v|] eqn:G; [|congruence]. clear N.
  induction l as [|[k w] l IH]; [discriminate|]. simpl in *. destruct (String.eqb_spec (numbered sec i) k); auto.
Qed.
Lemma count_bound : forall d sec n, In sec kinds -> (forall j, 1 <= j < n -> val d sec j <> "") -> n < S (options_in d (section_name sec)) + 1.
Proof.
  intros d sec n K H. destruct n as [|[|n]]; try lia.
  destruct (val_option d sec 1 K) as [l [L _]]; [apply H; lia|]. unfold options_in. rewrite L.
  assert (S n <= List.length l); [|lia].
  replace (S n) with (List.length (map (numbered sec) (seq 1 (S n)))) by (rewrite map_length, seq_length; auto).
  rewrite <- (map_length fst l). apply NoDup_incl_length.
  - assert (X : forall b, NoDup b -> (forall i, In i b -> 1 <= i) -> NoDup (map (numbered sec) b)).
    { induction b as [|x b IH]; intros ND P; simpl; [apply NoDup_nil|]. inversion ND; subst. apply NoDup_cons.
      - intros I. apply in_map_iff in I. destruct I as [y [E I]]. apply numbered_inj in E; [congruence| |]; apply P; simpl; auto.
      - apply IH; auto. intros i I. apply P. simpl; auto. }
    apply X; [apply seq_NoDup|]. intros i I. apply in_seq in I. lia.
  - intros x I. apply in_map_iff in I. destruct I as [j [<- I]]. apply in_seq in I.
    destruct (val_option d sec j K) as [l' [L' I']]; [apply H; lia|]. congruence.
Qed.

(** ** One definition *)
Definition base_ast (sec key value : string) : assertion :=
  if String.eqb sec "r" || String.eqb sec "p"
  then mkAst key value (map (fun t => (key ++ "_" ++ Trim t)%string) (Split value "," None)) (Vec []) None
  else mkAst key (RemoveComments value) [] (Vec []) None.
Lemma uncommented_fun : forall v, uncommented v (RemoveComments v).
Proof.
  intros v. unfold RemoveComments, uncommented. destruct (sfind "#" v) as [n|] eqn:F.
  - right. apply sfind_some in F. destruct F as [_ F].
    eexists _, _. split; [exact F|apply Trim_spec].
  - left. split; auto. apply sfind_none in F; [auto|discriminate].
Qed.
Lemma field_names_fun : forall key v, field_names key v (map (fun t => (key ++ "_" ++ Trim t)%string) (Split v "," None)).
Proof.
  intros. exists (Split v "," None). split; [apply Split_spec; discriminate|].
  induction (Split v "," None); simpl; constructor; auto. exists (Trim a). split; auto. apply Trim_spec.
Qed.
Lemma base_holds : forall sec key v s, rules_of s = [] -> holds_definition sec key v (with_policy (base_ast sec key v) s).
Proof.
  intros sec key v s E. unfold holds_definition, base_ast.
  destruct (String.eqb_spec sec "r"); destruct (String.eqb_spec sec "p"); subst; simpl; repeat split; auto;
    try (intros; apply field_names_fun); try congruence; try (intros; apply uncommented_fun); try tauto.
Qed.

Section Load.
  Variable odd : string -> string -> res string.
  Variable d : config.

  Notation hash m := (IsHashsetUsagePossible odd m).
  Lemma AddDef_none : forall m sec key, AddDef odd m sec key "" = (m, Ok false).
  Proof. reflexivity. Qed.
  Lemma AddDef_some : forall m sec key v, v <> "" -> (sec = "p" -> ahas "m" (touch m sec) = true /\ ahas "r" (touch m sec) = true) ->
    forall b, hash (touch m sec) = Ok b ->
    AddDef odd m sec key v = (put_ast (touch m sec) sec key (with_policy (base_ast sec key v) (if b then Hash [] else Vec [])), Ok true).
  Proof.
    intros m sec key v N P b H. unfold AddDef. destruct (String.eqb_spec v ""); [congruence|]. unfold store_def. rewrite H.
    fold (base_ast sec key v). destruct (String.eqb_spec sec "p"); simpl; auto. destruct (P e) as [-> ->]. auto.
  Qed.

  Lemma ahas_put : forall m sec k a s, ahas s (put_ast (touch m sec) sec k a) = ahas s m || String.eqb s sec.
  Proof.
    intros. unfold put_ast, touch, ahas. rewrite aget_aset. destruct (String.eqb_spec s sec).
    - rewrite orb_true_r. auto.
    - rewrite aget_ainsert. destruct (String.eqb_spec s sec); [congruence|]. rewrite orb_false_r. auto.
  Qed.
  Lemma get_touch' : forall m s sec pt, get_ast (touch m s) sec pt = get_ast m sec pt.
  Proof.
    intros. unfold get_ast, touch, sec_of. rewrite aget_ainsert.
    destruct (String.eqb_spec sec s); auto. subst. destruct (aget s m); reflexivity.
  Qed.

  (** [m'] is [m] with the definitions number i, ..., i+k-1 of [sec] added. *)
  Record added (sec : string) (i k : nat) (m m' : model) : Prop := {
    added_new : forall j, i <= j < i + k -> exists s, rules_of s = [] /\
      get_ast m' sec (numbered sec j) = Ok (with_policy (base_ast sec (numbered sec j) (val d sec j)) s);
    added_old : forall s q, (forall j, i <= j < i + k -> (s, q) <> (sec, numbered sec j)) -> get_ast m' s q = get_ast m s q;
    added_has : forall s, ahas s m' = ahas s m || (String.eqb s sec && Nat.ltb 0 k)
  }.
  Lemma added_zero : forall sec i m, added sec i 0 m m.
  Proof.
    intros. constructor; auto.
    - intros j J. lia.
    - intros s. rewrite andb_false_r, orb_false_r. auto.
  Qed.
  Lemma added_step : forall sec i k m m' s, In sec kinds -> 1 <= i -> rules_of s = [] ->
    added sec (S i) k (put_ast (touch m sec) sec (numbered sec i) (with_policy (base_ast sec (numbered sec i) (val d sec i)) s)) m' ->
    added sec i (S k) m m'.
  Proof.
    intros sec i k m m' s K I E [N O H]. constructor.
    - intros j J. destruct (Nat.eq_dec j i) as [->|NE].
      + exists s. split; auto. rewrite O; [apply get_put_ast_same|].
        intros j' J' Q. injection Q as Q. apply numbered_inj in Q; lia.
      + apply N. lia.
    - intros s' q D. rewrite O.
      + rewrite get_put_ast_other; [apply get_touch'|]. apply D. lia.
      + intros j J. apply D. lia.
    - intros s'. rewrite H, ahas_put. destruct (ahas s' m); auto. destruct (String.eqb s' sec); auto.
  Qed.

  Lemma load_section_ok : forall sec (inv : model -> Prop), In sec kinds ->
    (forall m, inv m -> (sec = "p" -> ahas "m" (touch m sec) = true /\ ahas "r" (touch m sec) = true) /\ exists b, hash (touch m sec) = Ok b) ->
    (forall m i s, inv m -> 1 <= i -> val d sec i <> "" -> inv (put_ast (touch m sec) sec (numbered sec i) (with_policy (base_ast sec (numbered sec i) (val d sec i)) s))) ->
    forall fuel i m, 1 <= i -> inv m -> (forall n, i <= n -> (forall j, i <= j < n -> val d sec j <> "") -> n < fuel + i) ->
    exists m' k, load_section odd fuel m d sec i = (m', Ok tt) /\ inv m' /\ added sec i k m m' /\
      (forall j, i <= j < i + k -> val d sec j <> "") /\ val d sec (i + k) = "".
  Proof.
    intros sec inv K ADD KEEP. induction fuel as [|fuel IH]; intros i m I M F.
    - exfalso. specialize (F i (le_n i)). assert (i < 0 + i); [|lia]. apply F. intros j J. lia.
    - cbn [load_section]. unfold LoadAssertion. rewrite numbered_suffix. fold (val d sec i).
      destruct (string_dec (val d sec i) "") as [E|NE].
      + rewrite E, AddDef_none. exists m, 0. split; auto. split; auto. split; [apply added_zero|].
        rewrite Nat.add_0_r. split; auto. intros j J. lia.
      + destruct (ADD m M) as [P [b B]]. rewrite (AddDef_some m sec _ _ NE P b B).
        set (st := if b then Hash [] else Vec []). assert (rules_of st = []) by (destruct b; auto).
        destruct (IH (S i) (put_ast (touch m sec) sec (numbered sec i) (with_policy (base_ast sec (numbered sec i) (val d sec i)) st)))
          as [m' [k [L [M' [A [D U]]]]]]; auto.
        { intros n N Q. assert (n < S fuel + i); [|lia]. apply F; [lia|]. intros j J. destruct (Nat.eq_dec j i) as [->|]; auto. apply Q. lia. }
        exists m', (S k). split; auto. split; auto. split; [apply (added_step sec i k m m' st); auto|].
        split.
        * intros j J. destruct (Nat.eq_dec j i) as [->|]; auto. apply D. lia.
        * replace (i + S k) with (S i + k) by lia. auto.
  Qed.
  Lemma LoadSection_ok : forall sec (inv : model -> Prop), In sec kinds ->
    (forall m, inv m -> (sec = "p" -> ahas "m" (touch m sec) = true /\ ahas "r" (touch m sec) = true) /\ exists b, hash (touch m sec) = Ok b) ->
    (forall m i s, inv m -> 1 <= i -> val d sec i <> "" -> inv (put_ast (touch m sec) sec (numbered sec i) (with_policy (base_ast sec (numbered sec i) (val d sec i)) s))) ->
    forall m, inv m ->
    exists m' k, LoadSection odd m d sec = (m', Ok tt) /\ inv m' /\ added sec 1 k m m' /\
      (forall j, 1 <= j < 1 + k -> val d sec j <> "") /\ val d sec (1 + k) = "".
  Proof.
    intros sec inv K ADD KEEP m M. apply load_section_ok with (inv := inv); auto.
    intros n N H. apply count_bound; auto.
  Qed.

  (** Whatever the outcome: a section is only created when its first definition is there. *)
  Lemma load_section_has : forall sec fuel i m s, ahas s (fst (load_section odd fuel m d sec i)) = true ->
    ahas s m = true \/ (s = sec /\ val d sec i <> "").
  Proof.
    intros sec. induction fuel as [|fuel IH]; intros i m s H; simpl in H; auto.
    unfold LoadAssertion in H. rewrite numbered_suffix in H. fold (val d sec i) in H.
    destruct (string_dec (val d sec i) "") as [E|NE]; [rewrite E in H; simpl in H; auto|].
    assert (T : forall s, ahas s (touch m sec) = true -> ahas s m = true \/ s = sec).
    { intros s' Q. unfold touch, ahas in *. rewrite aget_ainsert in Q. destruct (String.eqb_spec s' sec); auto. }
    assert (P : forall a, ahas s (put_ast (touch m sec) sec (numbered sec i) a) = true -> ahas s m = true \/ s = sec).
    { intros a Q. rewrite ahas_put in Q. apply orb_true_iff in Q. destruct Q as [Q|Q]; auto. apply String.eqb_eq in Q. auto. }
    assert (G : ahas s m = true \/ s = sec); [|destruct G; auto].
    unfold AddDef in H. destruct (String.eqb_spec (val d sec i) ""); [congruence|].
    fold (base_ast sec (numbered sec i) (val d sec i)) in H.
    assert (ST : forall m1 o, store_def odd (touch m sec) sec (numbered sec i) (base_ast sec (numbered sec i) (val d sec i)) = (m1, o) ->
                 forall s, ahas s m1 = true -> ahas s m = true \/ s = sec).
    { intros m1 o Q s' X. unfold store_def in Q. destruct (hash (touch m sec)); injection Q as <- _; auto.
      rewrite ahas_put in X. apply orb_true_iff in X. destruct X as [X|X]; auto. apply String.eqb_eq in X. auto. }
    assert (NX : forall m1 o, store_def odd (touch m sec) sec (numbered sec i) (base_ast sec (numbered sec i) (val d sec i)) = (m1, o) ->
                 ahas s (fst match o with Ok true => load_section odd fuel m1 d sec (S i) | Ok false => (m1, Ok tt) | Throw e => (m1, Throw e) | UB u => (m1, UB u) end) = true ->
                 ahas s m = true \/ s = sec).
    { intros m1 o Q X. destruct o as [[|]| |]; simpl in X; try (eapply ST; eauto; fail).
      apply IH in X. destruct X as [X|X]; [|tauto]. eapply ST; eauto. }
    destruct (negb (String.eqb sec "p")).
    - destruct (store_def _ _ _ _ _) as [m1 o] eqn:Q. eapply NX; eauto.
    - destruct (negb (ahas "m" (touch m sec)) || negb (ahas "r" (touch m sec))).
      + simpl in H. auto.
      + destruct (store_def _ _ _ _ _) as [m1 o] eqn:Q. eapply NX; eauto.
  Qed.
  Lemma load_sections_has : forall secs m s, ahas s (fst (load_sections odd secs m d)) = true ->
    ahas s m = true \/ (In s secs /\ val d s 1 <> "").
  Proof.
    induction secs as [|sec secs IH]; intros m s H; simpl in H; auto.
    pose proof (load_section_has sec (S (options_in d (section_name sec))) 1 m s) as L.
    change (load_section odd (S (options_in d (section_name sec))) m d sec 1) with (LoadSection odd m d sec) in L.
    destruct (LoadSection odd m d sec) as [m1 [u|e|u]]; simpl in *.
    - apply IH in H. destruct H as [H|[I V]]; auto. destruct (L H) as [X|[-> X]]; auto.
    - destruct (L H) as [X|[-> X]]; auto.
    - destruct (L H) as [X|[-> X]]; auto.
  Qed.

  (** ** With a matcher *)
  Definition good_token (t : string) : Prop := 2 <= String.length t /\ plain_token (sdrop 2 t) = true.
  Definition usable (m : model) : Prop :=
    (exists a, get_ast m "m" "m" = Ok a) /\ (forall r, get_ast m "r" "r" = Ok r -> Forall good_token (a_tokens r)).
  Lemma remove_ok : forall toks matcher, Forall good_token toks -> exists r, remove_equalities odd toks matcher = Ok r.
  Proof.
    induction toks as [|t ts IH]; intros matcher F; cbn [remove_equalities]; eauto. inversion F as [|? ? [L P] F']; subst.
    destruct (Nat.ltb_spec (String.length t) 2); [lia|]. cbv zeta. rewrite P. cbn [bind]. apply IH. auto.
  Qed.
  Lemma usable_hash : forall m, usable m -> exists b, hash m = Ok b.
  Proof.
    intros m [[a A] R]. unfold IsHashsetUsagePossible. unfold get_ast, sec_of in *.
    destruct (aget "r" m) as [ram|]; eauto. destruct (aget "r" ram) as [r|]; eauto.
    destruct (aget "m" m) as [mam|]; [|simpl in A; discriminate]. destruct (aget "m" mam) as [ma|]; [|discriminate].
    destruct (remove_ok (a_tokens r) (a_value ma) (R r eq_refl)) as [x X]. rewrite X. simpl. eauto.
  Qed.
  Lemma usable_touch : forall m s, usable m -> usable (touch m s).
  Proof. intros m s [A R]. split; [rewrite get_touch'; auto|]. intros r. rewrite get_touch'. auto. Qed.
  Definition ordinary_tokens : Prop := Forall (fun t => plain_token (Trim t) = true) (Split (val d "r" 1) "," None).
  Lemma base_tokens : ordinary_tokens -> Forall good_token (a_tokens (base_ast "r" "r" (val d "r" 1))).
  Proof.
    intros H. unfold base_ast. simpl. unfold ordinary_tokens in H. induction H; simpl; constructor; auto.
    split; simpl; auto. lia.
  Qed.
  Lemma usable_put : forall m sec i s, In sec kinds -> 1 <= i -> (sec = "r" -> ordinary_tokens) -> usable m ->
    usable (put_ast (touch m sec) sec (numbered sec i) (with_policy (base_ast sec (numbered sec i) (val d sec i)) s)).
  Proof.
    intros m sec i s K I O [[a A] R]. split.
    - destruct (pair_dec "m" "m" sec (numbered sec i)) as [E|NE].
      + injection E as <- E. rewrite <- E. rewrite get_put_ast_same. eauto.
      + rewrite get_put_ast_other by auto. rewrite get_touch'. eauto.
    - intros r. destruct (pair_dec "r" "r" sec (numbered sec i)) as [E|NE].
      + injection E as <- E. change "r" with (numbered "r" 1) in E at 1. apply numbered_inj in E; try lia. subst i.
        rewrite numbered_1, get_put_ast_same. intros Q. injection Q as <-. apply base_tokens. auto.
      + rewrite get_put_ast_other by auto. rewrite get_touch'. auto.
  Qed.

  (** The section of the matchers, first. *)
  Lemma no_r_hash : forall m, ahas "r" m = false -> hash m = Ok false.
  Proof. intros m H. unfold ahas in H. unfold IsHashsetUsagePossible. destruct (aget "r" m); [discriminate|auto]. Qed.
  Lemma ahas_touch : forall m s s', ahas s' (touch m s) = ahas s' m || String.eqb s' s.
  Proof.
    intros. unfold touch, ahas. rewrite aget_ainsert. destruct (String.eqb_spec s' s).
    - rewrite orb_true_r. destruct (aget s m); auto.
    - rewrite orb_false_r. auto.
  Qed.
  Lemma load_matchers : exists m k, LoadSection odd [] d "m" = (m, Ok tt) /\ ahas "r" m = false /\ added "m" 1 k [] m /\
      (forall j, 1 <= j < 1 + k -> val d "m" j <> "") /\ val d "m" (1 + k) = "".
  Proof.
    apply (LoadSection_ok "m" (fun m => ahas "r" m = false)).
    - simpl; auto.
    - intros m H. split; [discriminate|]. exists false. apply no_r_hash. rewrite ahas_touch, H. auto.
    - intros m i s H _ _. rewrite ahas_put, H. auto.
    - auto.
  Qed.
  Lemma load_any : forall sec m, In sec ["r"; "g"; "e"] -> (sec = "r" -> ordinary_tokens) -> usable m ->
    exists m' k, LoadSection odd m d sec = (m', Ok tt) /\ usable m' /\ added sec 1 k m m' /\
      (forall j, 1 <= j < 1 + k -> val d sec j <> "") /\ val d sec (1 + k) = "".
  Proof.
    intros sec m S O U. assert (K : In sec kinds) by (simpl in *; tauto).
    apply (LoadSection_ok sec usable K); auto.
    - intros m0 H. split; [|apply usable_hash, usable_touch; auto].
      intros ->. simpl in S. destruct S as [S|[S|[S|[]]]]; discriminate.
    - intros. apply usable_put; auto.
  Qed.
  Lemma load_policies : forall m, ahas "m" m = true -> ahas "r" m = true -> usable m ->
    exists m' k, LoadSection odd m d "p" = (m', Ok tt) /\ usable m' /\ added "p" 1 k m m' /\
      (forall j, 1 <= j < 1 + k -> val d "p" j <> "") /\ val d "p" (1 + k) = "".
  Proof.
    intros m HM HR U.
    destruct (LoadSection_ok "p" (fun m => (ahas "m" m = true /\ ahas "r" m = true) /\ usable m)) with (m := m) as [m' [k [A [[B C] D]]]]; auto.
    - simpl; auto.
    - intros m0 [[A B] C]. rewrite !ahas_touch, A, B. split; auto. apply usable_hash, usable_touch; auto.
    - intros m0 i s [[A B] C] I V. rewrite !ahas_put, A, B. split; auto. apply usable_put; auto.
      + simpl; auto.
      + discriminate.
    - exists m', k. auto.
  Qed.
  (** Policy definitions are not read without matchers or requests. *)
  Lemma load_policies_refused : forall m, ahas "m" m = false \/ ahas "r" m = false ->
    exists m', LoadSection odd m d "p" = (m', Ok tt) /\ (forall s q, get_ast m' s q = get_ast m s q) /\
      (forall s, s <> "p" -> ahas s m' = ahas s m).
  Proof.
    intros m H. unfold LoadSection. cbn [load_section]. unfold LoadAssertion. rewrite numbered_suffix. fold (val d "p" 1).
    destruct (string_dec (val d "p" 1) "") as [E|NE].
    - rewrite E. simpl. exists m. auto.
    - unfold AddDef. destruct (String.eqb_spec (val d "p" 1) ""); [congruence|].
      replace (negb (String.eqb "p" "p")) with false by reflexivity. rewrite !ahas_touch.
      replace (String.eqb "m" "p") with false by reflexivity. replace (String.eqb "r" "p") with false by reflexivity. rewrite !orb_false_r.
      replace (negb (ahas "m" m) || negb (ahas "r" m)) with true.
      2: { destruct H as [-> | ->]; simpl; auto. rewrite orb_true_r. auto. }
      exists (touch m "p"). split; auto. split.
      + intros. apply get_touch'.
      + intros s S. rewrite ahas_touch. destruct (String.eqb_spec s "p"); [congruence|]. rewrite orb_false_r. auto.
  Qed.
  Lemma usable_same : forall m m', usable m -> (forall s q, get_ast m' s q = get_ast m s q) -> usable m'.
  Proof. intros m m' [A R] E. split; [rewrite E; auto|]. intros r. rewrite E. auto. Qed.

  (** With the matcher defined and ordinary field names all sections are read. *)
  Lemma load_usable : val d "m" 1 <> "" -> (val d "r" 1 <> "" -> ordinary_tokens) ->
    exists m, load_sections odd kinds [] d = (m, Ok tt).
  Proof.
    intros VM O. unfold kinds. cbn [load_sections]. destruct load_matchers as [m1 [k1 [-> [NR [A1 [V1 E1]]]]]]. destruct A1 as [N1 O1 H1].
    assert (U1 : usable m1).
    { split.
      - destruct (N1 1) as [s [_ G]]; [destruct k1; [exfalso; apply VM; exact E1|lia]|]. rewrite numbered_1 in G. eauto.
      - intros r. unfold get_ast, sec_of. unfold ahas in NR. destruct (aget "r" m1); [discriminate|]. simpl. discriminate. }
    assert (HM : ahas "m" m1 = true).
    { rewrite H1. destruct k1; [exfalso; apply VM; exact E1|]. auto. }
    destruct (string_dec (val d "r" 1) "") as [ER|NER].
    - assert (LR : LoadSection odd m1 d "r" = (m1, Ok tt)).
      { unfold LoadSection. cbn [load_section]. unfold LoadAssertion. rewrite numbered_suffix. fold (val d "r" 1). rewrite ER. auto. }
      rewrite LR. destruct (load_policies_refused m1 (or_intror NR)) as [m2 [-> [S2 _]]].
      destruct (load_any "g" m2) as [m3 [k3 [-> [U3 _]]]]; [simpl; auto|discriminate|eapply usable_same; eauto|].
      destruct (load_any "e" m3) as [m4 [k4 [-> [U4 _]]]]; [simpl; auto|discriminate|auto|]. eauto.
    - destruct (load_any "r" m1) as [mr [kr [-> [UR [AR [VR ERR]]]]]]; [simpl; auto|auto|auto|]. destruct AR as [NRR ORR HRR].
      destruct (load_policies mr) as [m2 [k2 [-> [U2 _]]]]; auto.
      { rewrite HRR, HM. auto. }
      { rewrite HRR. destruct kr; [exfalso; apply NER; exact ERR|]. simpl. apply orb_true_r. }
      destruct (load_any "g" m2) as [m3 [k3 [-> [U3 _]]]]; [simpl; auto|discriminate|auto|].
      destruct (load_any "e" m3) as [m4 [k4 [-> [U4 _]]]]; [simpl; auto|discriminate|auto|]. eauto.
  Qed.

  (** What the sections hold in the end. *)
  Definition exact_section (m : model) (sec : string) : Prop :=
    (forall i, 1 <= i -> (forall j, 1 <= j <= i -> val d sec j <> "") -> exists a, get_ast m sec (numbered sec i) = Ok a) /\
    forall q a, get_ast m sec q = Ok a <-> (exists i s, 1 <= i /\ (forall j, 1 <= j <= i -> val d sec j <> "") /\ q = numbered sec i /\
      rules_of s = [] /\ a = with_policy (base_ast sec q (val d sec i)) s /\ get_ast m sec q = Ok a).
  Lemma added_exact : forall sec k m m', added sec 1 k m m' -> (forall q, get_ast m sec q = UB NullDeref) ->
    (forall j, 1 <= j < 1 + k -> val d sec j <> "") -> val d sec (1 + k) = "" -> exact_section m' sec.
  Proof.
    intros sec k m m' [N O H] Z V E. split.
    { intros i I W. destruct (N i) as [s [_ G]]; eauto. destruct (Nat.le_gt_cases i k); [lia|]. exfalso. apply (W (1 + k)); auto. lia. }
    intros q a. split; [|intros [i [s [_ [_ [_ [_ [_ G]]]]]]]; auto].
    intros G. assert (X : {j | 1 <= j < 1 + k /\ q = numbered sec j} + {forall j, 1 <= j < 1 + k -> q <> numbered sec j}).
    { clear -k. induction k as [|k IH].
      - right. intros j J. lia.
      - destruct IH as [[j [J E]]|IH]; [left; exists j; split; auto; lia|].
        destruct (string_dec q (numbered sec (S k))) as [E|E]; [left; exists (S k); split; auto; lia|].
        right. intros j J. destruct (Nat.eq_dec j (S k)) as [->|]; auto. apply IH. lia. }
    destruct X as [[j [J ->]]|X].
    - destruct (N j J) as [s [S G']]. rewrite G' in G. injection G as <-. exists j, s.
      split; [lia|]. split; [intros j' J'; apply V; lia|]. auto.
    - rewrite O in G; [rewrite Z in G; discriminate|]. intros j J Q. injection Q. apply X. auto.
  Qed.
  Lemma exact_kept : forall sec sec' k m m', added sec' 1 k m m' -> sec <> sec' -> exact_section m sec -> exact_section m' sec.
  Proof.
    intros sec sec' k m m' [N O H] D [Y X]. split.
    - intros i I W. rewrite O by congruence. auto.
    - intros q a. rewrite O by congruence. apply X.
  Qed.
  (** Partial correctness, for all field names. *)
  Lemma load_section_added : forall sec, In sec kinds -> forall fuel i m m', 1 <= i -> (sec = "p" -> ahas "m" m = true /\ ahas "r" m = true) ->
    load_section odd fuel m d sec i = (m', Ok tt) ->
    exists k, added sec i k m m' /\ (forall j, i <= j < i + k -> val d sec j <> "") /\ val d sec (i + k) = "".
  Proof.
    intros sec K. induction fuel as [|fuel IH]; intros i m m' I P L; cbn [load_section] in L; [discriminate|].
    unfold LoadAssertion in L. rewrite numbered_suffix in L. fold (val d sec i) in L.
    destruct (string_dec (val d sec i) "") as [E|NE].
    - rewrite E, AddDef_none in L. injection L as <-. exists 0. split; [apply added_zero|].
      rewrite Nat.add_0_r. split; auto. intros j J. lia.
    - assert (T : sec = "p" -> ahas "m" (touch m sec) = true /\ ahas "r" (touch m sec) = true).
      { intros ->. rewrite !ahas_touch. destruct P as [-> ->]; auto. }
      destruct (hash (touch m sec)) as [b|e|u] eqn:H.
      + rewrite (AddDef_some m sec _ _ NE T b H) in L. set (st := if b then Hash [] else Vec []) in *.
        assert (RS : rules_of st = []) by (destruct b; auto).
        apply IH in L; [|lia|].
        * destruct L as [k [A [V E]]]. exists (S k). split; [apply (added_step sec i k m m' st); auto|]. split.
          -- intros j J. destruct (Nat.eq_dec j i) as [->|]; auto. apply V. lia.
          -- replace (i + S k) with (S i + k) by lia. auto.
        * intros ->. rewrite !ahas_put. destruct P as [-> ->]; auto.
      + exfalso. unfold AddDef, store_def in L. destruct (String.eqb_spec (val d sec i) ""); [congruence|]. rewrite H in L.
        destruct (String.eqb_spec sec "p"); simpl in L; [|discriminate]. destruct T as [T1 T2]; auto. rewrite T1, T2 in L. discriminate.
      + exfalso. unfold AddDef, store_def in L. destruct (String.eqb_spec (val d sec i) ""); [congruence|]. rewrite H in L.
        destruct (String.eqb_spec sec "p"); simpl in L; [|discriminate]. destruct T as [T1 T2]; auto. rewrite T1, T2 in L. discriminate.
  Qed.
  Lemma load_contents : forall m, LoadModelFromConfig odd [] d = (m, Ok tt) ->
    forall sec, (In sec kinds -> exact_section m sec) /\ (~ In sec kinds -> forall q, get_ast m sec q = UB NullDeref).
  Proof.
    intros m L. unfold LoadModelFromConfig in L. fold kinds in L.
    destruct (load_sections odd kinds [] d) as [m5 out] eqn:LS.
    destruct out; try discriminate. destruct (forallb (fun s => ahas s m5) ["r"; "p"; "e"; "m"]) eqn:F; [|discriminate].
    injection L as <-. rewrite forallb_forall in F.
    assert (W : forall s, In s ["r"; "p"; "e"; "m"] -> val d s 1 <> "").
    { intros s S. specialize (F s S). replace m5 with (fst (load_sections odd kinds [] d)) in F by (rewrite LS; auto).
      apply load_sections_has in F. destruct F as [F|[_ F]]; auto. discriminate. }
    unfold kinds in LS. cbn [load_sections] in LS.
    destruct (LoadSection odd [] d "m") as [m1 [[]| |]] eqn:L1; try discriminate.
    destruct (LoadSection odd m1 d "r") as [m2 [[]| |]] eqn:L2; try discriminate.
    destruct (LoadSection odd m2 d "p") as [m3 [[]| |]] eqn:L3; try discriminate.
    destruct (LoadSection odd m3 d "g") as [m4 [[]| |]] eqn:L4; try discriminate.
    destruct (LoadSection odd m4 d "e") as [m6 [[]| |]] eqn:L5; try discriminate. injection LS as <-.
    apply load_section_added in L1; [|simpl; tauto|lia|discriminate]. destruct L1 as [k1 [A1 [V1 E1]]].
    apply load_section_added in L2; [|simpl; tauto|lia|discriminate]. destruct L2 as [k2 [A2 [V2 E2]]].
    apply load_section_added in L3; [|simpl; tauto|lia|].
    2: { intros _. destruct A1 as [_ _ H1]. destruct A2 as [_ _ H2]. rewrite !H2, !H1. split.
         - destruct k1; [exfalso; apply (W "m"); simpl; auto|]. auto.
         - destruct k2; [exfalso; apply (W "r"); simpl; auto|]. auto. }
    destruct L3 as [k3 [A3 [V3 E3]]].
    apply load_section_added in L4; [|simpl; tauto|lia|discriminate]. destruct L4 as [k4 [A4 [V4 E4]]].
    apply load_section_added in L5; [|simpl; tauto|lia|discriminate]. destruct L5 as [k5 [A5 [V5 E5]]].
    assert (Z : forall s q, get_ast [] s q = UB NullDeref) by reflexivity.
    assert (KEEP : forall sec k m m' s q, added sec 1 k m m' -> s <> sec -> get_ast m' s q = get_ast m s q).
    { intros sec k m m' s q [_ O _] NE. apply O. congruence. }
    intros sec. split.
    - unfold kinds. intros [<-|[<-|[<-|[<-|[<-|[]]]]]].
      + eapply exact_kept; [exact A5|discriminate|]. eapply exact_kept; [exact A4|discriminate|].
        eapply exact_kept; [exact A3|discriminate|]. eapply exact_kept; [exact A2|discriminate|].
        eapply added_exact; eauto.
      + eapply exact_kept; [exact A5|discriminate|]. eapply exact_kept; [exact A4|discriminate|].
        eapply exact_kept; [exact A3|discriminate|]. eapply added_exact; eauto.
        intros. rewrite (KEEP _ _ _ _ _ _ A1) by discriminate. apply Z.
      + eapply exact_kept; [exact A5|discriminate|]. eapply exact_kept; [exact A4|discriminate|].
        eapply added_exact; eauto.
        intros. rewrite (KEEP _ _ _ _ _ _ A2) by discriminate. rewrite (KEEP _ _ _ _ _ _ A1) by discriminate. apply Z.
      + eapply exact_kept; [exact A5|discriminate|]. eapply added_exact; eauto.
        intros. rewrite (KEEP _ _ _ _ _ _ A3) by discriminate. rewrite (KEEP _ _ _ _ _ _ A2) by discriminate.
        rewrite (KEEP _ _ _ _ _ _ A1) by discriminate. apply Z.
      + eapply added_exact; eauto.
        intros. rewrite (KEEP _ _ _ _ _ _ A4) by discriminate. rewrite (KEEP _ _ _ _ _ _ A3) by discriminate.
        rewrite (KEEP _ _ _ _ _ _ A2) by discriminate. rewrite (KEEP _ _ _ _ _ _ A1) by discriminate. apply Z.
    - intros N q. assert (X : forall s, In s kinds -> sec <> s) by (intros s S ->; auto).
      rewrite (KEEP _ _ _ _ _ _ A5), (KEEP _ _ _ _ _ _ A4), (KEEP _ _ _ _ _ _ A3), (KEEP _ _ _ _ _ _ A2), (KEEP _ _ _ _ _ _ A1);
        auto; apply X; simpl; auto 10.
  Qed.

  (** ** Without a matcher *)
  Lemma no_m_hash : forall m, ahas "m" m = false -> hash m = Ok false \/ hash m = Throw StdOutOfRange.
  Proof.
    intros m H. unfold ahas in H. unfold IsHashsetUsagePossible. destruct (aget "r" m) as [ram|]; auto.
    destruct (aget "r" ram); auto. destruct (aget "m" m); [discriminate|auto].
  Qed.
  Lemma no_m_section : forall sec, In sec kinds -> sec <> "m" -> forall fuel i m, 1 <= i -> ahas "m" m = false ->
    (forall n, i <= n -> (forall j, i <= j < n -> val d sec j <> "") -> n < fuel + i) ->
    exists m', ahas "m" m' = false /\
      (load_section odd fuel m d sec i = (m', Ok tt) \/ load_section odd fuel m d sec i = (m', Throw StdOutOfRange)) /\
      (forall s q a, get_ast m s q = Ok a -> exists a', get_ast m' s q = Ok a') /\
      (load_section odd fuel m d sec i = (m', Ok tt) -> sec <> "p" -> val d sec i <> "" -> exists a, get_ast m' sec (numbered sec i) = Ok a).
  Proof.
    intros sec K NM. induction fuel as [|fuel IH]; intros i m I M F.
    - exfalso. specialize (F i (le_n i)). assert (i < 0 + i); [|lia]. apply F. intros j J. lia.
    - cbn [load_section]. unfold LoadAssertion. rewrite numbered_suffix. fold (val d sec i).
      destruct (string_dec (val d sec i) "") as [E|NE].
      { rewrite E, AddDef_none. exists m. split; auto. split; auto. split; eauto. congruence. }
      assert (MT : ahas "m" (touch m sec) = false).
      { rewrite ahas_touch, M, orb_false_l. apply String.eqb_neq. auto. }
      unfold AddDef. destruct (String.eqb_spec (val d sec i) ""); [congruence|]. fold (base_ast sec (numbered sec i) (val d sec i)).
      destruct (String.eqb_spec sec "p") as [P|P]; simpl.
      + rewrite MT. simpl. exists (touch m sec). split; auto. split; auto. split; [|congruence].
        intros s q a G. exists a. rewrite get_touch'. auto.
      + unfold store_def. destruct (no_m_hash _ MT) as [H|H]; rewrite H.
        * destruct (IH (S i) (put_ast (touch m sec) sec (numbered sec i) (with_policy (base_ast sec (numbered sec i) (val d sec i)) (Vec []))))
            as [m' [M' [O [G _]]]]; auto.
          { rewrite ahas_put, M, orb_false_l. apply String.eqb_neq. auto. }
          { intros n0 N Q. assert (n0 < S fuel + i); [|lia]. apply F; [lia|]. intros j J. destruct (Nat.eq_dec j i) as [->|]; auto. apply Q. lia. }
          exists m'. split; auto. split; auto. split.
          -- intros s q a A. destruct (pair_dec s q sec (numbered sec i)) as [E|E].
             ++ injection E as -> ->. eapply G. apply get_put_ast_same.
             ++ eapply G. rewrite get_put_ast_other by auto. rewrite get_touch'. eauto.
          -- intros _ _ _. eapply G. apply get_put_ast_same.
        * exists (touch m sec). split; auto. split; auto. split.
          -- intros s q a A. exists a. rewrite get_touch'. auto.
          -- discriminate.
  Qed.
  Lemma no_m_Section : forall sec m, In sec kinds -> sec <> "m" -> ahas "m" m = false ->
    exists m', ahas "m" m' = false /\
      (LoadSection odd m d sec = (m', Ok tt) \/ LoadSection odd m d sec = (m', Throw StdOutOfRange)) /\
      (forall s q a, get_ast m s q = Ok a -> exists a', get_ast m' s q = Ok a') /\
      (LoadSection odd m d sec = (m', Ok tt) -> sec <> "p" -> val d sec 1 <> "" -> exists a, get_ast m' sec sec = Ok a).
  Proof.
    intros sec m K N M. apply (no_m_section sec K N (S (options_in d (section_name sec))) 1 m); auto.
    intros n _ H. apply count_bound; auto.
  Qed.
  Lemma empty_section : forall sec m, val d sec 1 = "" -> LoadSection odd m d sec = (m, Ok tt).
  Proof.
    intros sec m E. unfold LoadSection. cbn [load_section]. unfold LoadAssertion. rewrite numbered_suffix. fold (val d sec 1). rewrite E. auto.
  Qed.
  Lemma no_matcher : val d "m" 1 = "" ->
    (snd (LoadModelFromConfig odd [] d) = Throw MissingRequiredSections \/ snd (LoadModelFromConfig odd [] d) = Throw StdOutOfRange) /\
    (val d "r" 1 <> "" -> val d "e" 1 <> "" -> snd (LoadModelFromConfig odd [] d) = Throw StdOutOfRange).
  Proof.
    intros EM. unfold LoadModelFromConfig. cbn [load_sections]. rewrite (empty_section "m" [] EM).
    destruct (no_m_Section "r" []) as [m2 [M2 [O2 [G2 R2]]]]; [simpl; tauto|discriminate|auto|].
    destruct O2 as [O2|O2]; rewrite O2; [|simpl; auto].
    destruct (no_m_Section "p" m2) as [m3 [M3 [O3 [G3 _]]]]; [simpl; tauto|discriminate|auto|].
    destruct O3 as [O3|O3]; rewrite O3; [|simpl; auto].
    destruct (no_m_Section "g" m3) as [m4 [M4 [O4 [G4 _]]]]; [simpl; tauto|discriminate|auto|].
    destruct O4 as [O4|O4]; rewrite O4; [|simpl; auto].
    destruct (no_m_Section "e" m4) as [m5 [M5 [O5 [G5 _]]]]; [simpl; tauto|discriminate|auto|].
    destruct O5 as [O5|O5]; rewrite O5; [|simpl; auto].
    assert (forallb (fun s => ahas s m5) ["r"; "p"; "e"; "m"] = false) as ->.
    { apply not_true_is_false. intros F. rewrite forallb_forall in F. specialize (F "m"). rewrite M5 in F. simpl in F.
      assert (false = true); [|discriminate]. apply F. auto. }
    simpl. split; auto. intros VR VE. exfalso.
    destruct R2 as [a A]; auto; [discriminate|].
    destruct (G3 _ _ _ A) as [a3 A3]. destruct (G4 _ _ _ A3) as [a4 A4].
    unfold LoadSection in O5. cbn [load_section] in O5. unfold LoadAssertion in O5. rewrite numbered_suffix in O5. fold (val d "e" 1) in O5.
    unfold AddDef in O5. destruct (String.eqb_spec (val d "e" 1) ""); [congruence|].
    replace (negb (String.eqb "e" "p")) with true in O5 by reflexivity. unfold store_def in O5.
    assert (X : hash (touch m4 "e") = Throw StdOutOfRange).
    { rewrite <- (get_touch' m4 "e") in A4. assert (MT : ahas "m" (touch m4 "e") = false) by (rewrite ahas_touch, M4; auto).
      unfold IsHashsetUsagePossible. unfold get_ast, sec_of in A4. unfold ahas in MT.
      destruct (aget "r" (touch m4 "e")) as [ram|]; [|simpl in A4; discriminate]. destruct (aget "r" ram); [|discriminate].
      destruct (aget "m" (touch m4 "e")); [discriminate|auto]. }
    rewrite X in O5. discriminate.
  Qed.

  Lemma load_verdict : val d "m" 1 <> "" -> (val d "r" 1 <> "" -> ordinary_tokens) ->
    ((forall s, In s ["r"; "p"; "e"; "m"] -> val d s 1 <> "") -> exists m, LoadModelFromConfig odd [] d = (m, Ok tt)) /\
    (~ (forall s, In s ["r"; "p"; "e"; "m"] -> val d s 1 <> "") -> snd (LoadModelFromConfig odd [] d) = Throw MissingRequiredSections).
  Proof.
    intros VM O. destruct (load_usable VM O) as [m L]. unfold LoadModelFromConfig. fold kinds. rewrite L.
    assert (IFF : forallb (fun s => ahas s m) ["r"; "p"; "e"; "m"] = true <-> (forall s, In s ["r"; "p"; "e"; "m"] -> val d s 1 <> "")).
    { rewrite forallb_forall. split.
      - intros F s S. specialize (F s S). replace m with (fst (load_sections odd kinds [] d)) in F by (rewrite L; auto).
        apply load_sections_has in F. destruct F as [F|[_ F]]; auto. discriminate.
      - intros W. unfold kinds in L. cbn [load_sections] in L.
        destruct (LoadSection odd [] d "m") as [m1 [[]| |]] eqn:L1; try discriminate.
        destruct (LoadSection odd m1 d "r") as [m2 [[]| |]] eqn:L2; try discriminate.
        destruct (LoadSection odd m2 d "p") as [m3 [[]| |]] eqn:L3; try discriminate.
        destruct (LoadSection odd m3 d "g") as [m4 [[]| |]] eqn:L4; try discriminate.
        destruct (LoadSection odd m4 d "e") as [m6 [[]| |]] eqn:L5; try discriminate. injection L as <-.
        apply load_section_added in L1; [|simpl; tauto|lia|discriminate]. destruct L1 as [k1 [[_ _ H1] [V1 E1]]].
        apply load_section_added in L2; [|simpl; tauto|lia|discriminate]. destruct L2 as [k2 [[_ _ H2] [V2 E2]]].
        apply load_section_added in L3; [|simpl; tauto|lia|].
        2: { intros _. rewrite !H2, !H1. split.
             - destruct k1; [exfalso; apply (W "m"); simpl; auto|]. auto.
             - destruct k2; [exfalso; apply (W "r"); simpl; auto|]. auto. }
        destruct L3 as [k3 [[_ _ H3] [V3 E3]]].
        apply load_section_added in L4; [|simpl; tauto|lia|discriminate]. destruct L4 as [k4 [[_ _ H4] [V4 E4]]].
        apply load_section_added in L5; [|simpl; tauto|lia|discriminate]. destruct L5 as [k5 [[_ _ H5] [V5 E5]]].
        intros s [<-|[<-|[<-|[<-|[]]]]].
        + rewrite H5, H4, H3, H2. destruct k2; [exfalso; apply (W "r"); simpl; auto|]. simpl. rewrite !orb_true_r. auto.
        + rewrite H5, H4, H3. destruct k3; [exfalso; apply (W "p"); simpl; auto|]. simpl. rewrite !orb_true_r. auto.
        + rewrite H5. destruct k5; [exfalso; apply (W "e"); simpl; auto|]. simpl. rewrite !orb_true_r. auto.
        + rewrite H5, H4, H3, H2, H1. destruct k1; [exfalso; apply (W "m"); simpl; auto|]. simpl. auto. }
    destruct (forallb (fun s => ahas s m) ["r"; "p"; "e"; "m"]).
    - split; [intros _; exists m; auto|]. intros N. exfalso. apply N. tauto.
    - split; [intros W; apply IFF in W; discriminate|auto].
  Qed.
  Lemma load_sound : forall m, LoadModelFromConfig odd [] d = (m, Ok tt) -> forall s, In s ["r"; "p"; "e"; "m"] -> val d s 1 <> "".
  Proof.
    intros m L s S. unfold LoadModelFromConfig in L. fold kinds in L.
    destruct (load_sections odd kinds [] d) as [m5 out] eqn:LS.
    destruct out; try discriminate. destruct (forallb (fun s => ahas s m5) ["r"; "p"; "e"; "m"]) eqn:F; [|discriminate].
    rewrite forallb_forall in F. specialize (F s S). replace m5 with (fst (load_sections odd kinds [] d)) in F by (rewrite LS; auto).
    apply load_sections_has in F. destruct F as [F|[_ F]]; auto. discriminate.
  Qed.
End Load.

Lemma ordinary_plain : forall c, special c = false <-> ordinary c.
Proof. intros. unfold special, ordinary. apply smem_lacks. Qed.
Lemma plain_every : forall t, plain_token t = true <-> every ordinary t.
Proof.
  unfold plain_token. induction t as [|c t IH]; simpl; [tauto|]. rewrite negb_orb, andb_true_iff, IH, negb_true_iff, ordinary_plain. tauto.
Qed.
Lemma ordinary_fields_tokens : forall d, val d "r" 1 <> "" -> (ordinary_fields d <-> ordinary_tokens d).
Proof.
  intros d V. unfold ordinary_fields, ordinary_tokens. split.
  - intros H. apply Forall_forall. intros t I. apply plain_every. eapply H; eauto.
    + change "r" with (numbered "r" 1) at 2. apply written_val; [simpl; auto|eauto].
    + apply Split_spec. discriminate.
    + apply Trim_spec.
  - intros H v part parts f W S I T. change "r" with (numbered "r" 1) in W at 2. apply written_val in W; [|simpl; auto].
    destruct W as [<- _]. apply Split_unique in S; [|discriminate]. subst parts. rewrite Forall_forall in H. apply plain_every.
    rewrite <- (Trim_unique _ _ T). auto.
Qed.
Lemma complete_val : forall d, complete d <-> forall s, In s ["r"; "p"; "e"; "m"] -> val d s 1 <> "".
Proof.
  intros d. unfold complete. split; intros H s S.
  - destruct (H s S) as [v W]. change s with (numbered s 1) in W at 2. apply written_val in W; [destruct W; congruence|].
    simpl in *; tauto.
  - exists (val d s 1). change s with (numbered s 1) at 2. apply written_val; [simpl in *; tauto|auto].
Qed.
