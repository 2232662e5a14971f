(** Proofs about the key matching functions. *)
From Verif Require Import Base P_Base M_Util M_BuiltIn S_Text P_Text S_BuiltIn.
From Coq Require Import Lia.

(** ** Regular expressions *)
Definition count_ok (q : quantifier) (n : nat) : Prop :=
  match q with One => n = 1 | Maybe => n <= 1 | Star => True | Plus => 0 < n end.
Definition allb (f : ascii -> bool) : string -> Prop := every (fun c => f c = true).

Lemma run_length_spec : forall f n s, n <= run_length f s <-> n <= String.length s /\ allb f (stake n s).
Proof.
  intros f n; induction n; intros s; simpl; [split; [split; [lia|exact I]|lia]|].
  destruct s as [|c s]; simpl; [split; [lia|intros [H _]; lia]|].
  destruct (f c) eqn:E; unfold allb in *; simpl.
  - split.
    + intros H. destruct (proj1 (IHn s)) as [H1 H2]; [lia|]. split; [lia|auto].
    + intros [H1 [_ H2]]. enough (n <= run_length f s) by lia. apply IHn. split; [lia|auto].
  - split; [lia|]. intros [_ [H _]]. congruence.
Qed.

Lemma lengths_spec : forall i s n, In n (lengths i s) <-> n <= run_length (atom_matches (i_atom i)) s /\ count_ok (i_quant i) n.
Proof.
  intros i s n. unfold lengths. remember (run_length (atom_matches (i_atom i)) s) as m eqn:Em. clear Em.
  match goal with |- In n (if _ then ?l else _) <-> _ => set (up := l) end.
  assert (H : In n up <-> n <= m /\ count_ok (i_quant i) n).
  { unfold up, count_ok. destruct (i_quant i).
    - destruct (Nat.ltb_spec 0 m); simpl; split; try lia.
    - destruct (Nat.ltb_spec 0 m); simpl; split; try lia.
    - rewrite in_seq. lia.
    - rewrite in_seq. lia. }
  destruct (i_lazy i); [exact H|]. rewrite <- in_rev. exact H.
Qed.

Inductive takes : list item -> string -> list string -> Prop :=
| takes_nil : takes [] "" []
| takes_cons : forall i is_ v k g, allb (atom_matches (i_atom i)) v -> count_ok (i_quant i) (String.length v) ->
    takes is_ k g -> takes (i :: is_) (v ++ k)%string (if i_group i then v :: g else g).

Lemma first_some_some : forall A B (f : A -> option B) l y, first_some f l = Some y -> exists x, In x l /\ f x = Some y.
Proof.
  intros A B f l y. induction l as [|x l IH]; simpl; [discriminate|]. destruct (f x) eqn:E.
  - intros H. injection H as ->. eauto.
  - intros H. destruct (IH H) as (z & H1 & H2). eauto.
Qed.
Lemma first_some_complete : forall A B (f : A -> option B) l x y, In x l -> f x = Some y -> exists z, first_some f l = Some z.
Proof.
  intros A B f l x y. induction l as [|a l IH]; simpl; [intros []|]. intros [->|H] E.
  - rewrite E; eauto.
  - destruct (f a); eauto.
Qed.

Lemma length_stake : forall n s, n <= String.length s -> String.length (stake n s) = n.
Proof. induction n; intros [|c s] H; simpl in *; try lia. rewrite IHn; lia. Qed.

Lemma match_sound : forall is_ s g, match_items is_ s = Some g -> takes is_ s g.
Proof.
  induction is_ as [|i is_ IH]; intros s g; cbn [match_items].
  - destruct (String.eqb_spec s ""); [|discriminate]. intros H. injection H as <-. subst. constructor.
  - intros H. apply first_some_some in H. destruct H as (n & Hn & H).
    destruct (match_items is_ (sdrop n s)) eqn:E; [|discriminate]. simpl in H. injection H as <-.
    apply lengths_spec in Hn. destruct Hn as [H1 H2]. apply run_length_spec in H1. destruct H1 as [H0 H1].
    rewrite <- (stake_sdrop n s) at 1. constructor; auto.
    rewrite length_stake; auto.
Qed.
Lemma match_complete : forall is_ s g, takes is_ s g -> exists g', match_items is_ s = Some g'.
Proof.
  intros is_ s g H. induction H as [|i is_ v k g Hv Hc Hk [g' IH]]; [exists []; reflexivity|].
  cbn [match_items]. eapply (first_some_complete _ _ _ _ (String.length v)).
  - apply lengths_spec. split; [|exact Hc]. apply run_length_spec. rewrite stake_app, length_app_s. split; [lia|exact Hv].
  - cbn beta. rewrite sdrop_app, IH. reflexivity.
Qed.

(** ** The texts of the regular expressions *)
Lemma lacks_smem : forall c s, lacks c s <-> smem c s = false.
Proof. intros. symmetry. apply smem_lacks. Qed.
Lemma lacks_cons : forall c d s, lacks c (String d s) <-> c <> d /\ lacks c s.
Proof.
  intros. rewrite !lacks_smem. simpl. rewrite Bool.orb_false_iff. destruct (Ascii.eqb_spec c d); split; intros []; split; congruence.
Qed.
Lemma lacks_app : forall c a b, lacks c (a ++ b)%string <-> lacks c a /\ lacks c b.
Proof.
  intros c a b. induction a as [|d a IH]; simpl.
  - split; [intros H; split; [|exact H]|tauto]. apply lacks_smem. reflexivity.
  - rewrite !lacks_cons, IH. tauto.
Qed.

Definition starts (c : ascii) (s : string) : Prop := exists r, s = String c r.
Lemma not_starts_cons : forall c d s, ~ starts c (String d s) <-> c <> d.
Proof. intros; split; [intros H E; apply H; subst; exists s; reflexivity|intros H [r E]; congruence]. Qed.

Lemma replace_skip : forall pat rep k s, replace_aux pat rep k s = replace_aux pat rep 0 (sdrop k s).
Proof. intros pat rep k; induction k; intros [|c s]; try reflexivity. cbn [replace_aux sdrop]. apply IHk. Qed.
Lemma replace_past : forall pat rep s r,
  (forall a b, s = (a ++ b)%string -> b <> "" -> String.prefix pat (b ++ r)%string = false) ->
  replace_aux pat rep 0 (s ++ r) = (s ++ replace_aux pat rep 0 r)%string.
Proof.
  intros pat rep s r. induction s as [|c s IH]; intros H; [reflexivity|].
  cbn [append replace_aux]. change (String c (s ++ r)) with (String c s ++ r)%string.
  rewrite (H "" (String c s) eq_refl) by discriminate. rewrite IH; [reflexivity|].
  intros a b E Hb. apply (H (String c a) b); [rewrite E; reflexivity|exact Hb].
Qed.

Lemma prefix_cons : forall c p d s, String.prefix (String c p) (String d s) = Ascii.eqb c d && String.prefix p s.
Proof. intros. cbn [String.prefix]. destruct (ascii_dec c d) as [E|E]; destruct (Ascii.eqb_spec c d); (reflexivity || congruence). Qed.
Lemma prefix_nil : forall s, String.prefix "" s = true.
Proof. destruct s; reflexivity. Qed.

Lemma wild_text : forall s r, lacks "*" s -> ~ starts "*" r -> PrepareWildCardMatching (s ++ r) = (s ++ PrepareWildCardMatching r)%string.
Proof.
  intros s r Hs Hr. apply replace_past. intros a b -> Hb. apply lacks_app in Hs. destruct Hs as [_ Hs].
  destruct b as [|c b]; [congruence|]. cbn [append]. rewrite prefix_cons. apply lacks_cons in Hs. destruct Hs as [_ Hs].
  destruct (Ascii.eqb "/" c); [|reflexivity]. cbn [andb]. destruct b as [|d b]; cbn [append].
  - destruct r as [|d r]; [reflexivity|]. rewrite prefix_cons. apply not_starts_cons in Hr.
    destruct (Ascii.eqb_spec "*" d); [congruence|reflexivity].
  - rewrite prefix_cons. apply lacks_cons in Hs. destruct (Ascii.eqb_spec "*" d); [tauto|reflexivity].
Qed.
Lemma wild_plain : forall s r, lacks "/" s -> PrepareWildCardMatching (s ++ r) = (s ++ PrepareWildCardMatching r)%string.
Proof.
  intros s r Hs. apply replace_past. intros a b -> Hb. apply lacks_app in Hs. destruct Hs as [_ Hs].
  destruct b as [|c b]; [congruence|]. cbn [append]. rewrite prefix_cons. apply lacks_cons in Hs.
  destruct (Ascii.eqb_spec "/" c); [tauto|reflexivity].
Qed.
Lemma wild_rest : forall r, PrepareWildCardMatching ("/*" ++ r) = ("/.*" ++ PrepareWildCardMatching r)%string.
Proof.
  intros r. unfold PrepareWildCardMatching, ReplacePattern. cbn [append replace_aux].
  rewrite !prefix_cons, prefix_nil. cbn [Ascii.eqb Bool.eqb andb]. cbn [String.length pred append replace_aux]. reflexivity.
Qed.

(** A pattern with each kind of piece written in some way. *)
Fixpoint written (text name : string -> string) (rest : string) (ps : list piece) : string :=
  match ps with
  | [] => ""
  | Text s :: q => (text s ++ written text name rest q)%string
  | Name n :: q => (name n ++ written text name rest q)%string
  | Rest :: q => (rest ++ written text name rest q)%string
  end.
Definition same (s : string) : string := s.

Lemma spelled_written : forall name ps, spelled name ps = written same name "/*" ps.
Proof. intros name ps; induction ps as [|[s|n|] q IH]; cbn [spelled written]; unfold same; try rewrite IH; reflexivity. Qed.

(** What both kinds of patterns have in common. *)
Definition plain_piece (mark : ascii) (p : piece) : Prop :=
  match p with
  | Text s => every ordinary s /\ lacks mark s
  | Name n => n <> "" /\ lacks "/" n
  | Rest => True
  end.
Lemma colon_plain : forall ps, colon_pattern ps -> Forall (plain_piece ":") ps.
Proof. induction 1; apply Forall_cons || apply Forall_nil; cbn; auto. Qed.
Lemma brace_plain : forall ps, brace_pattern ps -> Forall (plain_piece "{") ps.
Proof. induction 1; apply Forall_cons || apply Forall_nil; cbn; auto. Qed.

Lemma ordinary_lacks : forall s c, every ordinary s -> smem c "^$\.*+?()[]|" = true -> lacks c s.
Proof.
  intros s c Hs Hc. induction s as [|d s IH].
  - apply lacks_smem. reflexivity.
  - destruct Hs as [H1 H2]. apply lacks_cons. split; [|exact (IH H2)]. intros ->. unfold ordinary in H1. congruence.
Qed.

Lemma written_starts : forall c text name rest ps, (forall s, In (Text s) ps -> ~ starts c (text s)) ->
  (forall n, In (Name n) ps -> name n <> "" /\ ~ starts c (name n)) -> rest <> "" -> ~ starts c rest -> ~ starts c (written text name rest ps).
Proof.
  intros c text name rest ps Ht Hn Hr0 Hr. induction ps as [|p q IH]; [intros [r E]; discriminate|].
  assert (IH' : ~ starts c (written text name rest q)) by (apply IH; intros; [apply Ht | apply Hn]; right; assumption).
  destruct p as [s|n|]; cbn [written].
  - specialize (Ht s (or_introl eq_refl)). destruct (text s) as [|d t]; [exact IH'|]. cbn [append].
    rewrite not_starts_cons in *. exact Ht.
  - destruct (Hn n (or_introl eq_refl)) as [H1 H2]. destruct (name n) as [|d t]; [congruence|]. cbn [append].
    rewrite not_starts_cons in *. exact H2.
  - destruct rest as [|d t]; [congruence|]. cbn [append]. rewrite not_starts_cons in *. exact Hr.
Qed.

Lemma ordinary_starts : forall s c, every ordinary s -> smem c "^$\.*+?()[]|" = true -> ~ starts c s.
Proof. intros s c Hs Hc [r ->]. destruct Hs as [H _]. unfold ordinary in H. congruence. Qed.

Lemma wild_written : forall mark name ps, Forall (plain_piece mark) ps -> (forall n, lacks "/" n -> lacks "/" (name n)) ->
  (forall n, name n <> "" /\ ~ starts "*" (name n)) ->
  PrepareWildCardMatching (written same name "/*" ps) = written same name "/.*" ps.
Proof.
  intros mark name ps H Hn Hm. induction H as [|p q Hp Hq IH]; [reflexivity|].
  destruct p as [s|n|]; cbn [written].
  - destruct Hp as [H1 H2]. unfold same at 1. rewrite wild_text, IH; [reflexivity| |].
    + apply ordinary_lacks; auto.
    + apply written_starts; auto; try (rewrite not_starts_cons); try discriminate.
      intros s' Hs'. rewrite Forall_forall in Hq. apply Hq in Hs'. destruct Hs' as [Hs' _]. apply ordinary_starts; auto.
  - destruct Hp as [H1 H2]. rewrite wild_plain, IH; auto.
  - rewrite wild_rest, IH. reflexivity.
Qed.

Lemma matches_skip : forall here rep k s, replace_matches here rep k s = replace_matches here rep 0 (sdrop k s).
Proof. intros here rep k; induction k; intros [|c s]; try reflexivity. cbn [replace_matches sdrop]. apply IHk. Qed.
Lemma find_skip : forall here k s, find_matches here k s = find_matches here 0 (sdrop k s).
Proof. intros here k; induction k; intros [|c s]; try reflexivity. cbn [find_matches sdrop]. apply IHk. Qed.

Lemma matches_past : forall here mark rep s r, (forall c t, c <> mark -> here (String c t) = None) -> lacks mark s ->
  replace_matches here rep 0 (s ++ r) = (s ++ replace_matches here rep 0 r)%string /\ find_matches here 0 (s ++ r) = find_matches here 0 r.
Proof.
  intros here mark rep s r Hh. induction s as [|c s IH]; intros H; [auto|]. apply lacks_cons in H. destruct H as [H1 H2].
  cbn [append replace_matches find_matches]. rewrite Hh by congruence. destruct (IH H2) as [-> ->]. auto.
Qed.
Lemma matches_here : forall here rep s r, s <> "" -> here (s ++ r)%string = Some (String.length s) ->
  replace_matches here rep 0 (s ++ r) = (rep ++ replace_matches here rep 0 r)%string /\ find_matches here 0 (s ++ r) = s :: find_matches here 0 r.
Proof.
  intros here rep s r Hs H. destruct s as [|c s]; [congruence|]. cbn [append] in *. cbn [replace_matches find_matches].
  rewrite H. cbn [String.length pred]. rewrite matches_skip, find_skip, sdrop_app. split; [reflexivity|].
  change (String c (s ++ r)) with (String c s ++ r)%string. change (S (String.length s)) with (String.length (String c s)).
  rewrite stake_app. reflexivity.
Qed.

Definition names (ps : list piece) : list string := flat_map (fun p => match p with Name n => [n] | _ => [] end) ps.

Lemma run_app : forall f s r, allb f s -> (forall c t, r = String c t -> f c = false) -> run_length f (s ++ r) = String.length s.
Proof.
  intros f s r Hs Hr. induction s as [|c s IH]; cbn [append].
  - destruct r as [|c t]; [reflexivity|]. cbn. rewrite (Hr c t eq_refl). reflexivity.
  - destruct Hs as [H1 H2]. cbn. rewrite H1, IH; auto.
Qed.
Lemma lacks_slash : forall s, lacks "/" s <-> allb not_slash s.
Proof.
  induction s as [|c s IH]; [split; [intros; exact I|intros; apply lacks_smem; reflexivity]|].
  rewrite lacks_cons, IH. unfold allb. cbn. unfold not_slash at 2, slash. rewrite Bool.negb_true_iff.
  destruct (Ascii.eqb_spec c "/"); intuition congruence.
Qed.

Lemma colon_name_here : forall n r, n <> "" -> lacks "/" n -> (r = "" \/ starts "/" r) ->
  colon_here (":" ++ n ++ r) = Some (String.length (":" ++ n)).
Proof.
  intros n r H1 H2 H3. cbn [append colon_here Ascii.eqb Bool.eqb]. rewrite run_app.
  - cbn [String.length]. destruct n; [congruence|]. reflexivity.
  - apply lacks_slash; exact H2.
  - intros c t E. destruct H3 as [-> | [x ->]]; [discriminate|]. injection E as <- _. reflexivity.
Qed.
Lemma colon_other : forall c t, c <> ":"%char -> colon_here (String c t) = None.
Proof. intros c t H. cbn. destruct (Ascii.eqb_spec c ":"); [congruence|reflexivity]. Qed.

Lemma colon_written : forall rep ps, colon_pattern ps ->
  replace_matches colon_here rep 0 (written same (fun n => (":" ++ n)%string) "/.*" ps) = written same (fun _ => rep) "/.*" ps /\
  find_matches colon_here 0 (written same (fun n => (":" ++ n)%string) "/.*" ps) = map (fun n => (":" ++ n)%string) (names ps).
Proof.
  intros rep ps H. induction H as [|s q H1 H2 H3 [I1 I2]|n q H1 H2 H3 H4 [I1 I2]|q H1 [I1 I2]]; [auto| | |]; cbn [written].
  - change (same s) with s. destruct (matches_past colon_here ":" rep s (written same (fun n => (":" ++ n)%string) "/.*" q) colon_other H2) as [-> ->].
    rewrite I1, I2. auto.
  - assert (E : forall r, ((":" ++ n) ++ r)%string = (":" ++ n ++ r)%string) by reflexivity.
    assert (N : (":" ++ n)%string <> "") by discriminate.
    assert (Hr : written same (fun n => (":" ++ n)%string) "/.*" q = "" \/ starts "/" (written same (fun n => (":" ++ n)%string) "/.*" q)).
    { destruct H3 as [-> | [[r ->] | (t & r & ->)]]; cbn [written same append]; [left; reflexivity| |]; right; eexists; reflexivity. }
    destruct (matches_here colon_here rep (":" ++ n) (written same (fun n => (":" ++ n)%string) "/.*" q) N) as [A B].
    { rewrite E. apply colon_name_here; auto. }
    rewrite A, B, I1, I2. auto.
  - assert (L : lacks ":" "/.*") by (apply lacks_smem; reflexivity).
    destruct (matches_past colon_here ":" rep "/.*" (written same (fun n => (":" ++ n)%string) "/.*" q) colon_other L) as [-> ->].
    rewrite I1, I2. auto.
Qed.

Lemma close_app : forall n r, lacks "/" n -> lacks "}" n -> close_at (n ++ String "}" r) = Some (S (String.length n)).
Proof.
  intros n r. induction n as [|c n IH]; intros H1 H2; [reflexivity|]. apply lacks_cons in H1. apply lacks_cons in H2.
  cbn [append close_at]. destruct (Ascii.eqb_spec c "}"); [subst; tauto|]. unfold not_slash, slash.
  destruct (Ascii.eqb_spec c "/"); [subst; tauto|]. cbn [negb]. rewrite IH by tauto. reflexivity.
Qed.
Lemma brace_text_of : forall n r, (("{" ++ n ++ "}") ++ r)%string = ("{" ++ n ++ String "}" r)%string.
Proof. intros. rewrite !app_assoc_s. reflexivity. Qed.
Lemma brace_name_here : forall n r, n <> "" -> lacks "/" n -> lacks "}" n ->
  brace_here (("{" ++ n ++ "}") ++ r) = Some (String.length ("{" ++ n ++ "}")).
Proof.
  intros n r H1 H2 H3. rewrite brace_text_of. destruct n as [|d n]; [congruence|].
  rewrite !length_app_s. apply lacks_cons in H2. apply lacks_cons in H3.
  cbn [append brace_here Ascii.eqb Bool.eqb andb]. unfold not_slash, slash.
  destruct (Ascii.eqb_spec d "/"); [subst; tauto|]. cbn [negb]. rewrite close_app by tauto.
  cbn [option_map]. f_equal. cbn [String.length]. lia.
Qed.
Lemma brace_other : forall c t, c <> "{"%char -> brace_here (String c t) = None.
Proof. intros c t H. cbn. destruct t; [reflexivity|]. destruct (Ascii.eqb_spec c "{"); [congruence|reflexivity]. Qed.

Lemma brace_written : forall rep ps, brace_pattern ps ->
  replace_matches brace_here rep 0 (written same (fun n => ("{" ++ n ++ "}")%string) "/.*" ps) = written same (fun _ => rep) "/.*" ps /\
  find_matches brace_here 0 (written same (fun n => ("{" ++ n ++ "}")%string) "/.*" ps) = map (fun n => ("{" ++ n ++ "}")%string) (names ps).
Proof.
  intros rep ps H. induction H as [|s q H1 H2 H3 H4 [I1 I2]|n q H1 H2 H3 H4 [I1 I2]|q H1 [I1 I2]]; [auto| | |]; cbn [written].
  - change (same s) with s. destruct (matches_past brace_here "{" rep s (written same (fun n => ("{" ++ n ++ "}")%string) "/.*" q) brace_other H2) as [-> ->].
    rewrite I1, I2. auto.
  - assert (N : ("{" ++ n ++ "}")%string <> "") by discriminate.
    destruct (matches_here brace_here rep ("{" ++ n ++ "}") (written same (fun n => ("{" ++ n ++ "}")%string) "/.*" q) N) as [A B].
    { apply brace_name_here; auto. }
    rewrite A, B, I1, I2. auto.
  - assert (L : lacks "{" "/.*") by (apply lacks_smem; reflexivity).
    destruct (matches_past brace_here "{" rep "/.*" (written same (fun n => ("{" ++ n ++ "}")%string) "/.*" q) brace_other L) as [-> ->].
    rewrite I1, I2. auto.
Qed.

(** ** Escaping *)
Fixpoint esc (s : string) : string :=
  match s with
  | EmptyString => ""
  | String c s' => if Ascii.eqb c "{" then String "\" (String "{" (esc s'))
                   else if Ascii.eqb c "}" then String "\" (String "}" (esc s')) else String c (esc s')
  end.
Lemma replace_one : forall c rep d s, ReplacePattern (String d s) (String c "") rep =
  if Ascii.eqb c d then (rep ++ ReplacePattern s (String c "") rep)%string else String d (ReplacePattern s (String c "") rep).
Proof.
  intros. unfold ReplacePattern. cbn [replace_aux]. rewrite prefix_cons, prefix_nil, Bool.andb_true_r. reflexivity.
Qed.
Lemma escape_esc : forall s, EscapeCurlyBraces s = esc s.
Proof.
  unfold EscapeCurlyBraces. induction s as [|c s IH]; [reflexivity|]. cbn [esc]. rewrite replace_one.
  rewrite (Ascii.eqb_sym c "{"), (Ascii.eqb_sym c "}"). destruct (Ascii.eqb_spec "{" c).
  - cbn [append]. rewrite !replace_one, IH. reflexivity.
  - rewrite replace_one, IH. destruct (Ascii.eqb "}" c); reflexivity.
Qed.
Lemma esc_app : forall a b, esc (a ++ b) = (esc a ++ esc b)%string.
Proof. induction a as [|c a IH]; intros b; [reflexivity|]. cbn [append esc]. rewrite IH. destruct (Ascii.eqb c "{"), (Ascii.eqb c "}"); reflexivity. Qed.
Lemma esc_written : forall rep ps, esc rep = rep -> esc (written same (fun _ => rep) "/.*" ps) = written esc (fun _ => rep) "/.*" ps.
Proof.
  intros rep ps H. induction ps as [|[s|n|] q IH]; cbn [written]; [reflexivity| | |]; rewrite esc_app, IH; unfold same; try rewrite H; reflexivity.
Qed.

(** ** Reading the regular expressions *)
Definition calm (r : string) : Prop := forall c t, r = String c t -> smem c "*+?" = false.
Lemma calm_cons : forall c r, smem c "*+?" = false -> calm (String c r).
Proof. intros c r H d t E. congruence. Qed.
Lemma quant_calm : forall r, calm r -> parse_quant r = (One, false, r).
Proof.
  intros [|c t] H; [reflexivity|]. specialize (H c t eq_refl). cbn in H. cbn [parse_quant].
  destruct (Ascii.eqb c "*"), (Ascii.eqb c "+"), (Ascii.eqb c "?"); try discriminate. reflexivity.
Qed.

Definition chr (c : ascii) : item := mkItem (AChr c) One false false.
Definition text_items (s : string) : list item := map chr (list_ascii_of_string s).
Definition items_of (nm : item) (ps : list piece) : list item :=
  flat_map (fun p => match p with
                     | Text s => text_items s
                     | Name _ => [nm]
                     | Rest => [chr "/"; mkItem ADot Star false false]
                     end) ps.

Lemma calm_esc : forall s r, every ordinary s -> calm r -> calm (esc s ++ r).
Proof.
  intros [|c s] r H Hr; [exact Hr|]. destruct H as [H _]. cbn [esc].
  destruct (Ascii.eqb_spec c "{"); [apply calm_cons; reflexivity|]. destruct (Ascii.eqb_spec c "}"); [apply calm_cons; reflexivity|].
  apply calm_cons. unfold ordinary in H. cbn in H |- *.
  destruct (Ascii.eqb c "*"), (Ascii.eqb c "+"), (Ascii.eqb c "?"); try reflexivity; repeat rewrite Bool.orb_true_r in H; discriminate.
Qed.

Lemma ordinary_meta : forall c, ordinary c -> c <> "{"%char -> c <> "}"%char -> meta c = false.
Proof.
  intros c H H1 H2. unfold ordinary in H. unfold meta. cbn in H |- *.
  apply Ascii.eqb_neq in H1. apply Ascii.eqb_neq in H2. rewrite H1, H2. exact H.
Qed.
Lemma parse_char : forall c r, ordinary c -> calm r -> exists t, (esc (String c "") ++ r)%string = t /\ parse_item t = Some (chr c, r) /\ t <> "".
Proof.
  intros c r H Hr. eexists. split; [reflexivity|]. unfold ordinary in H. cbn [esc].
  destruct (Ascii.eqb_spec c "{"); [subst|destruct (Ascii.eqb_spec c "}"); [subst|]].
  - cbn [append]. split; [|discriminate]. cbn [parse_item parse_atom Ascii.eqb Bool.eqb orb].
    rewrite (quant_calm r Hr). reflexivity.
  - cbn [append]. split; [|discriminate]. cbn [parse_item parse_atom Ascii.eqb Bool.eqb orb].
    rewrite (quant_calm r Hr). reflexivity.
  - cbn [append]. split; [|discriminate]. cbn [parse_item]. pose proof (ordinary_meta c H n n0) as M.
    assert (N : forall d, smem d "^$\.*+?()[]|" = true -> Ascii.eqb c d = false).
    { intros d Hd. destruct (Ascii.eqb_spec c d); [subst; unfold ordinary in H; congruence|reflexivity]. }
    rewrite N by reflexivity. cbn [parse_atom]. rewrite !N by reflexivity. rewrite M, (quant_calm r Hr). reflexivity.
Qed.

Lemma parse_items_cons : forall fuel s i r l, s <> "" -> parse_item s = Some (i, r) -> parse_items fuel r = Some l ->
  parse_items (S fuel) s = Some (i :: l).
Proof. intros fuel s i r l Hs H1 H2. destruct s; [congruence|]. cbn [parse_items]. rewrite H1, H2. reflexivity. Qed.

Lemma parse_mono : forall f1 f2 s l, f1 <= f2 -> parse_items f1 s = Some l -> parse_items f2 s = Some l.
Proof.
  induction f1; intros f2 s l Hf; destruct s; cbn [parse_items]; try discriminate; try (destruct f2; cbn; congruence).
  destruct f2; [lia|]. cbn [parse_items]. destruct (parse_item (String a s)) as [[i r]|]; [|discriminate].
  destruct (parse_items f1 r) eqn:E; [|discriminate]. rewrite (IHf1 f2 r l0) by (auto; lia). auto.
Qed.

Lemma parse_text : forall s r l, every ordinary s -> calm r -> parse_items (String.length r) r = Some l ->
  parse_items (String.length (esc s ++ r)) (esc s ++ r) = Some (text_items s ++ l).
Proof.
  intros s r l. induction s as [|c s IH]; intros Hs Hr H; [exact H|]. destruct Hs as [H1 H2].
  pose proof (calm_esc s r H2 Hr) as C. specialize (IH H2 Hr H).
  destruct (parse_char c (esc s ++ r) H1 C) as (t & E & P & N).
  assert (E' : (esc (String c s) ++ r)%string = t).
  { rewrite <- E, <- app_assoc_s, <- esc_app. reflexivity. }
  rewrite E'. cbn [text_items list_ascii_of_string map]. change (map chr (list_ascii_of_string s)) with (text_items s).
  apply (parse_mono (S (String.length (esc s ++ r)))).
  - rewrite <- E, !length_app_s. destruct (esc (String c "")) eqn:X; [|cbn [String.length]; lia].
    cbn in X. destruct (Ascii.eqb c "{"), (Ascii.eqb c "}"); discriminate.
  - apply (parse_items_cons _ _ _ _ _ N P IH).
Qed.

Lemma parse_written : forall rep nm ps, (forall r, calm r -> parse_item (rep ++ r) = Some (nm, r)) -> rep <> "" -> (forall r, calm (rep ++ r)) ->
  (forall s, In (Text s) ps -> every ordinary s) ->
  calm (written esc (fun _ => rep) "/.*" ps) /\ parse_regex (written esc (fun _ => rep) "/.*" ps) = Some (items_of nm ps).
Proof.
  intros rep nm ps Hp Hn Hc H. unfold parse_regex. induction ps as [|p q IH]; [split; [intros c t E; discriminate|reflexivity]|].
  destruct IH as [I1 I2]; [intros; apply H; right; assumption|].
  destruct p as [s|n|]; cbn [written].
  - specialize (H s (or_introl eq_refl)). split; [apply calm_esc; auto|]. apply parse_text; auto.
  - split; [apply Hc|]. apply (parse_mono (S (String.length (written esc (fun _ => rep) "/.*" q)))).
    + rewrite length_app_s. destruct rep; [congruence|cbn; lia].
    + apply (parse_items_cons _ _ nm (written esc (fun _ => rep) "/.*" q)); auto. destruct rep; [congruence|discriminate].
  - split; [apply calm_cons; reflexivity|].
    assert (P1 : parse_item ("/.*" ++ written esc (fun _ => rep) "/.*" q) = Some (chr "/", (".*" ++ written esc (fun _ => rep) "/.*" q)%string)) by reflexivity.
    assert (P2 : parse_item (".*" ++ written esc (fun _ => rep) "/.*" q) = Some (mkItem ADot Star false false, written esc (fun _ => rep) "/.*" q)).
    { cbn [append parse_item parse_atom Ascii.eqb Bool.eqb parse_quant].
      destruct (written esc (fun _ => rep) "/.*" q) as [|d t] eqn:E; [reflexivity|]. specialize (I1 d t eq_refl). cbn in I1.
      destruct (Ascii.eqb d "?"); [|reflexivity]. rewrite !Bool.orb_true_r in I1. discriminate. }
    apply (parse_mono (S (S (String.length (written esc (fun _ => rep) "/.*" q))))); [cbn [append String.length]; lia|].
    refine (parse_items_cons _ _ _ _ _ _ P1 _); [discriminate|]. refine (parse_items_cons _ _ _ _ _ _ P2 I2). discriminate.
Qed.

(** ** Matching a pattern *)
Lemma every_impl : forall (P Q : ascii -> Prop) s, (forall c, P c -> Q c) -> every P s -> every Q s.
Proof. intros P Q s H. induction s; cbn; [auto|]. intros [? ?]; auto. Qed.
Lemma one_line_dot : forall s, one_line s <-> allb (atom_matches ADot) s.
Proof.
  unfold one_line. induction s as [|c s IH].
  - split; [intros; exact I|intros _; split; apply lacks_smem; reflexivity].
  - rewrite !lacks_cons. unfold allb in *. cbn [every]. rewrite <- IH. cbn [atom_matches].
    rewrite Bool.negb_true_iff, Bool.orb_false_iff, !Ascii.eqb_neq. unfold nl, cr. intuition congruence.
Qed.
Lemma length_one : forall v, String.length v = 1 -> exists c, v = String c "".
Proof. intros [|c [|d v]] H; try discriminate. eauto. Qed.

Lemma takes_text : forall s is_ k g, takes (text_items s ++ is_) k g <-> exists k', k = (s ++ k')%string /\ takes is_ k' g.
Proof.
  induction s as [|c s IH]; intros is_ k g; cbn [text_items list_ascii_of_string map app append].
  - split; [eauto|intros (k' & -> & H); exact H].
  - change (map chr (list_ascii_of_string s)) with (text_items s). split.
    + intros H. inversion H as [|i l v k' g' H1 H2 H3]; subst. cbn in H2. destruct (length_one v H2) as [d ->].
      destruct H1 as [H1 _]. cbn in H1. apply Ascii.eqb_eq in H1. subst d. cbn [i_group chr] in *.
      apply IH in H3. destruct H3 as (k'' & -> & H3). exists k''. split; [reflexivity|exact H3].
    + intros (k' & -> & H). change (String c (s ++ k')) with (String c "" ++ (s ++ k'))%string.
      apply (takes_cons (chr c) _ (String c "") (s ++ k')%string g).
      * split; [apply Ascii.eqb_refl|exact I].
      * reflexivity.
      * apply IH. eauto.
Qed.

Definition nm (l g : bool) : item := mkItem ANotSlash Plus l g.

Lemma takes_fits : forall l gr ps k g, takes (items_of (nm l gr) ps) k g <->
  exists e, fits ps k e /\ g = if gr then map snd e else [].
Proof.
  intros l gr ps. induction ps as [|p q IH]; intros k g.
  - cbn. split.
    + intros H. inversion H. exists []. split; [constructor|destruct gr; reflexivity].
    + intros (e & H & ->). inversion H. destruct gr; constructor.
  - destruct p as [s|n|]; cbn [items_of flat_map].
    + change (flat_map _ q) with (items_of (nm l gr) q). rewrite takes_text. split.
      * intros (k' & -> & H). apply IH in H. destruct H as (e & H & ->). exists e. split; [constructor; exact H|reflexivity].
      * intros (e & H & ->). inversion H; subst. exists k0. split; [reflexivity|]. apply IH. eauto.
    + change (flat_map _ q) with (items_of (nm l gr) q). cbn [app]. split.
      * intros H. inversion H as [|i is_ v k' g' H1 H2 H3]; subst. apply IH in H3. destruct H3 as (e & H3 & ->). exists ((n, v) :: e). split.
        -- constructor; [|apply lacks_slash; exact H1|exact H3]. intros ->. cbn in H2. lia.
        -- destruct gr; reflexivity.
      * intros (e & H & ->). inversion H as [| |n' v q' k' e' N L F|]; subst.
        replace (if gr then map snd ((n, v) :: e') else []) with (if i_group (nm l gr) then v :: (if gr then map snd e' else []) else (if gr then map snd e' else [])) by (destruct gr; reflexivity).
        apply takes_cons; [apply lacks_slash; exact L| |apply IH; eauto]. cbn. destruct v; [congruence|cbn; lia].
    + change (flat_map _ q) with (items_of (nm l gr) q). cbn [app]. split.
      * intros H. inversion H as [|i is_ v k' g' H1 H2 H3]; subst. cbn in H2. destruct (length_one v H2) as [d ->].
        destruct H1 as [H1 _]. cbn in H1. apply Ascii.eqb_eq in H1. subst d. cbn [i_group chr].
        inversion H3 as [|i is_ w k'' g'' H4 H5 H6]; subst. cbn [i_group]. apply IH in H6. destruct H6 as (e & H6 & ->).
        exists e. split; [|reflexivity]. apply (fits_rest w); [apply one_line_dot; exact H4|exact H6].
      * intros (e & H & ->). inversion H as [| | |v q' k' e' L F]; subst.
        change ("/" ++ v ++ k')%string with (String "/" "" ++ (v ++ k'))%string.
        change (if gr then map snd e else []) with (if i_group (chr "/") then String "/" "" :: (if gr then map snd e else []) else if gr then map snd e else []).
        apply takes_cons; [split; [reflexivity|exact I]|reflexivity|].
        change (if gr then map snd e else []) with (if i_group (mkItem ADot Star false false) then v :: (if gr then map snd e else []) else if gr then map snd e else []).
        apply takes_cons; [apply one_line_dot; exact L|exact I|]. apply IH. eauto.
Qed.

(** ** The functions *)
Lemma text_ordinary : forall mark ps, Forall (plain_piece mark) ps -> forall s, In (Text s) ps -> every ordinary s.
Proof. intros mark ps H s Hs. rewrite Forall_forall in H. apply H in Hs. apply Hs. Qed.

Lemma rep_plain : forall r, calm r -> parse_item ("[^/]+" ++ r) = Some (nm false false, r).
Proof.
  intros r H. cbn [append parse_item Ascii.eqb Bool.eqb]. cbn [parse_atom Ascii.eqb Bool.eqb].
  rewrite !prefix_cons, prefix_nil. cbn [Ascii.eqb Bool.eqb andb sdrop parse_quant].
  destruct r as [|d t]; [reflexivity|]. specialize (H d t eq_refl). cbn in H.
  destruct (Ascii.eqb d "?"); [|reflexivity]. rewrite !Bool.orb_true_r in H. discriminate.
Qed.
Lemma rep_group : forall r, calm r -> parse_item ("([^/]+)" ++ r) = Some (nm false true, r).
Proof.
  intros r H. cbn [append parse_item Ascii.eqb Bool.eqb]. cbn [parse_atom Ascii.eqb Bool.eqb].
  rewrite !prefix_cons, prefix_nil. reflexivity.
Qed.
Lemma rep_lazy : forall r, calm r -> parse_item ("([^/]+?)" ++ r) = Some (nm true true, r).
Proof.
  intros r H. cbn [append parse_item Ascii.eqb Bool.eqb]. cbn [parse_atom Ascii.eqb Bool.eqb].
  rewrite !prefix_cons, prefix_nil. reflexivity.
Qed.

Lemma star_alone_calm : forall k, calm k -> star_alone k = k.
Proof. intros k H. unfold star_alone. destruct (String.eqb_spec k "*"); [|reflexivity]. subst. specialize (H "*"%char "" eq_refl). discriminate. Qed.

Lemma colon_wild : forall ps, colon_pattern ps ->
  PrepareWildCardMatching (with_colons ps) = written same (fun n => (":" ++ n)%string) "/.*" ps.
Proof.
  intros ps H. unfold with_colons. rewrite spelled_written. apply (wild_written ":"); [apply colon_plain; exact H| |].
  - intros n L. apply lacks_cons. split; [discriminate|exact L].
  - intros n. split; [discriminate|]. cbn [append]. rewrite not_starts_cons. discriminate.
Qed.
Lemma brace_wild : forall ps, brace_pattern ps ->
  PrepareWildCardMatching (with_braces ps) = written same (fun n => ("{" ++ n ++ "}")%string) "/.*" ps.
Proof.
  intros ps H. unfold with_braces. rewrite spelled_written. apply (wild_written "{"); [apply brace_plain; exact H| |].
  - intros n L. apply lacks_cons. split; [discriminate|]. apply lacks_app. split; [exact L|]. apply lacks_smem. reflexivity.
  - intros n. split; [discriminate|]. cbn [append]. rewrite not_starts_cons. discriminate.
Qed.

Lemma groups_written : forall other rep l gr mark ps key, Forall (plain_piece mark) ps ->
  (forall r, calm r -> parse_item (rep ++ r) = Some (nm l gr, r)) -> rep <> "" -> (forall r, calm (rep ++ r)) -> esc rep = rep ->
  exists k, EscapeCurlyBraces (written same (fun _ => rep) "/.*" ps) = k /\ calm k /\
    exists o, regex_groups other key k = Ok o /\
      match o with
      | Some g => exists e, fits ps key e /\ g = if gr then map snd e else []
      | None => forall e, ~ fits ps key e
      end.
Proof.
  intros other rep l gr mark ps key Hp H1 H2 H3 H4. rewrite escape_esc, esc_written by exact H4.
  eexists. split; [reflexivity|]. destruct (parse_written rep (nm l gr) ps H1 H2 H3 (text_ordinary mark ps Hp)) as [C P].
  split; [exact C|]. unfold regex_groups. rewrite P. eexists. split; [reflexivity|].
  destruct (match_items (items_of (nm l gr) ps) key) eqn:E.
  - apply match_sound in E. apply takes_fits in E. exact E.
  - intros e F. destruct (match_complete (items_of (nm l gr) ps) key (if gr then map snd e else [])) as [g Hg]; [|congruence].
    apply takes_fits. eauto.
Qed.

Lemma rep_calm : forall r, calm ("[^/]+" ++ r) /\ calm ("([^/]+)" ++ r) /\ calm ("([^/]+?)" ++ r).
Proof. intros r. repeat split; apply calm_cons; reflexivity. Qed.

Lemma keymatch2_spec : forall other ps key, colon_pattern ps ->
  exists b, KeyMatch2 other key (with_colons ps) = Ok b /\ (b = true <-> exists e, fits ps key e).
Proof.
  intros other ps key H. unfold KeyMatch2. rewrite colon_wild by exact H. destruct (colon_written "[^/]+" ps H) as [-> _].
  destruct (groups_written other "[^/]+" false false ":" ps key) as (k & -> & C & o & E & O); auto using colon_plain, rep_plain; try discriminate.
  { intros r. apply rep_calm. }
  rewrite star_alone_calm by exact C. unfold RegexMatch. rewrite E. cbn [bind]. eexists. split; [reflexivity|].
  destruct o as [g|]; [destruct O as (e & F & _); split; eauto|]. split; [discriminate|intros [e F]; destruct (O e F)].
Qed.
Lemma keymatch3_spec : forall other ps key, brace_pattern ps ->
  exists b, KeyMatch3 other key (with_braces ps) = Ok b /\ (b = true <-> exists e, fits ps key e).
Proof.
  intros other ps key H. unfold KeyMatch3. rewrite brace_wild by exact H. destruct (brace_written "[^/]+" ps H) as [-> _].
  destruct (groups_written other "[^/]+" false false "{" ps key) as (k & -> & C & o & E & O); auto using brace_plain, rep_plain; try discriminate.
  { intros r. apply rep_calm. }
  unfold RegexMatch. rewrite E. cbn [bind]. eexists. split; [reflexivity|].
  destruct o as [g|]; [destruct O as (e & F & _); split; eauto|]. split; [discriminate|intros [e F]; destruct (O e F)].
Qed.

Lemma fits_names : forall ps k e, fits ps k e -> map fst e = names ps.
Proof. induction 1; cbn [names flat_map app map]; auto. cbn. f_equal. exact IHfits. Qed.

Lemma value_bound : forall e var, bound e var (value_of var (map fst e) (map snd e)).
Proof.
  induction e as [|[n v] e IH]; intros var; cbn.
  - right. auto.
  - destruct (String.eqb_spec var n).
    + subst. left. exists [], e. auto.
    + destruct (IH var) as [(a & b & E & N)|[N E]].
      * left. exists ((n, v) :: a), b. rewrite E at 1. split; [reflexivity|]. cbn. intuition congruence.
      * right. split; [cbn; intuition congruence|exact E].
Qed.
Lemma value_none : forall var ns, value_of var ns [] = "".
Proof. intros var ns. induction ns; cbn; [reflexivity|]. destruct (String.eqb var a); auto. Qed.

Lemma keyget2_spec : forall other ps key var, colon_pattern ps ->
  exists v, KeyGet2 other key (with_colons ps) var = Ok v /\
    ((exists e, fits ps key e /\ bound e var v) \/ ((forall e, ~ fits ps key e) /\ v = "")).
Proof.
  intros other ps key var H. unfold KeyGet2. rewrite colon_wild by exact H. destruct (colon_written "([^/]+)" ps H) as [-> ->].
  destruct (groups_written other "([^/]+)" false true ":" ps key) as (k & -> & C & o & E & O); auto using colon_plain, rep_group; try discriminate.
  { intros r. apply rep_calm. }
  rewrite star_alone_calm by exact C. rewrite E. cbn [bind]. eexists. split; [reflexivity|].
  rewrite map_map. rewrite (map_ext _ (fun n => n)) by reflexivity. rewrite map_id.
  destruct o as [g|].
  - destruct O as (e & F & ->). left. exists e. split; [exact F|]. rewrite <- (fits_names _ _ _ F). apply value_bound.
  - right. split; [exact O|apply value_none].
Qed.
Lemma brace_name_of : forall n, stake (String.length ("{" ++ n ++ "}") - 2) (sdrop 1 ("{" ++ n ++ "}")) = n.
Proof.
  intros n. rewrite !length_app_s. cbn [append sdrop String.length].
  replace (1 + (String.length n + 1) - 2) with (String.length n) by lia. apply stake_app.
Qed.
Lemma keyget3_spec : forall other ps key var, brace_pattern ps ->
  exists v, KeyGet3 other key (with_braces ps) var = Ok v /\
    ((exists e, fits ps key e /\ bound e var v) \/ ((forall e, ~ fits ps key e) /\ v = "")).
Proof.
  intros other ps key var H. unfold KeyGet3. rewrite brace_wild by exact H. destruct (brace_written "([^/]+?)" ps H) as [-> ->].
  destruct (groups_written other "([^/]+?)" true true "{" ps key) as (k & -> & C & o & E & O); auto using brace_plain, rep_lazy; try discriminate.
  { intros r. apply rep_calm. }
  rewrite star_alone_calm by exact C. rewrite E. cbn [bind]. eexists. split; [reflexivity|].
  rewrite map_map. rewrite (map_ext _ (fun n => n)) by apply brace_name_of. rewrite map_id.
  destruct o as [g|].
  - destruct O as (e & F & ->). left. exists e. split; [exact F|]. rewrite <- (fits_names _ _ _ F). apply value_bound.
  - right. split; [exact O|apply value_none].
Qed.

(** ** Patterns whose placeholders have slashes between them *)
Lemma cut_unique : forall a b c d, lacks "/" a -> lacks "/" c -> (b = "" \/ starts "/" b) -> (d = "" \/ starts "/" d) ->
  (a ++ b)%string = (c ++ d)%string -> a = c /\ b = d.
Proof.
  induction a as [|x a IH]; intros b c d Ha Hc Hb Hd E.
  - destruct c as [|y c]; [auto|]. cbn [append] in E. destruct Hb as [-> | [r ->]]; [discriminate|].
    injection E as <- _. apply lacks_cons in Hc. tauto.
  - destruct c as [|y c].
    + cbn [append] in E. destruct Hd as [-> | [r ->]]; [discriminate|]. injection E as -> _. apply lacks_cons in Ha. tauto.
    + cbn [append] in E. injection E as -> E. apply lacks_cons in Ha. apply lacks_cons in Hc.
      destruct (IH b c d) as [-> ->]; tauto.
Qed.
Lemma slash_split : forall s, lacks "/" s \/ exists a b, s = (a ++ String "/" b)%string /\ lacks "/" a.
Proof.
  induction s as [|c s IH]; [left; apply lacks_smem; reflexivity|].
  destruct (Ascii.eqb_spec c "/").
  - subst. right. exists "", s. split; [reflexivity|apply lacks_smem; reflexivity].
  - destruct IH as [H|(a & b & -> & H)].
    + left. apply lacks_cons. auto.
    + right. exists (String c a), b. split; [reflexivity|]. apply lacks_cons. auto.
Qed.
(** What a key has up to its first slash. *)
Lemma slash_comes_text : forall ps, slash_comes ps -> exists t, lacks "/" t /\
  forall k e, fits ps k e -> exists k', k = (t ++ k')%string /\ (k' = "" \/ starts "/" k').
Proof.
  induction ps as [|[s|n|] q IH]; cbn; intros H.
  - exists "". split; [apply lacks_smem; reflexivity|]. intros k e F. inversion F. exists "". auto.
  - destruct (slash_split s) as [L|(a & b & -> & L)].
    + destruct H as [H|H]; [destruct (L H)|]. destruct (IH H) as (t & Lt & Ht). exists (s ++ t)%string.
      split; [apply lacks_app; auto|]. intros k e F. inversion F as [|s0 q0 k0 e0 F0| |]; subst. destruct (Ht _ _ F0) as (k' & -> & K).
      exists k'. rewrite app_assoc_s. auto.
    + exists a. split; [exact L|]. intros k e F. inversion F; subst. exists (String "/" (b ++ k0)). split.
      * rewrite app_assoc_s. reflexivity.
      * right. eexists. reflexivity.
  - destruct H.
  - exists "". split; [apply lacks_smem; reflexivity|]. intros k e F. inversion F; subst. eexists. split; [reflexivity|]. right. eexists. reflexivity.
Qed.
Lemma app_inj_r_s : forall a b c, (a ++ c)%string = (b ++ c)%string -> a = b.
Proof.
  intros a b c E. assert (L : String.length a = String.length b).
  { apply (f_equal String.length) in E. rewrite !length_app_s in E. lia. }
  revert b L E. induction a as [|x a IH]; intros [|y b] L E; try discriminate; [reflexivity|].
  cbn [append] in E. injection E as -> E. f_equal. apply IH; [cbn in L; lia|exact E].
Qed.
Lemma fits_unique : forall ps k e e', separated ps -> fits ps k e -> fits ps k e' -> e = e'.
Proof.
  induction ps as [|[s|n|] q IH]; intros k e e' Hs F G; cbn in Hs.
  - inversion F; inversion G; auto.
  - inversion F; subst. inversion G as [|s' q' k' e'' G' E1 E2| |]; subst. apply app_inj_s in E2. subst. eapply IH; eauto.
  - destruct Hs as [H1 H2]. inversion F as [| |n1 v q1 k1 e1 N1 L1 F1|]; subst.
    inversion G as [| |n2 w q2 k2 e2 N2 L2 G1 E1 E2|]; subst.
    destruct (slash_comes_text q H1) as (t & Lt & Ht).
    destruct (Ht _ _ F1) as (a & -> & Ka). destruct (Ht _ _ G1) as (b & -> & Kb).
    rewrite <- !app_assoc_s in E2. destruct (cut_unique (w ++ t) b (v ++ t) a) as [X ->]; try (apply lacks_app); auto.
    apply app_inj_r_s in X. subst. f_equal. eapply IH; eauto.
  - subst q. inversion F as [| | |v q1 k1 e1 L1 F1]; subst. inversion G as [| | |w q2 k2 e2 L2 G1 E1 E2]; subst.
    inversion F1; inversion G1; subst; reflexivity.
Qed.

Lemma last_close_none : forall s r, lacks "}" s -> (occurs "/" s \/ last_close r = None) -> last_close (s ++ r) = None.
Proof.
  intros s r. induction s as [|c s IH]; intros L H.
  - destruct H as [(a & b & E)|H]; [destruct a; discriminate|exact H].
  - apply lacks_cons in L. destruct L as [L1 L2]. cbn [append last_close]. unfold not_slash, slash.
    destruct (Ascii.eqb_spec c "/"); [reflexivity|]. cbn [negb].
    rewrite IH; auto.
    + destruct (Ascii.eqb_spec c "}"); [congruence|reflexivity].
    + destruct H as [H|H]; [|auto]. left. apply occurs_cons in H. destruct H as [(b & E)|H]; [|exact H].
      injection E as -> _. congruence.
Qed.
Lemma last_close_written : forall ps, brace_pattern ps -> slash_comes ps ->
  last_close (written same (fun n => ("{" ++ n ++ "}")%string) "/.*" ps) = None.
Proof.
  intros ps H. induction H; cbn [slash_comes written]; intros C; try reflexivity; [|destruct C].
  apply last_close_none; auto. tauto.
Qed.
Lemma last_close_name : forall n r, lacks "/" n -> last_close r = None -> last_close (n ++ String "}" r) = Some (S (String.length n)).
Proof.
  intros n r L H. induction n as [|c n IH].
  - cbn [append last_close]. rewrite H. reflexivity.
  - apply lacks_cons in L. destruct L as [L1 L2]. cbn [append last_close]. unfold not_slash, slash.
    destruct (Ascii.eqb_spec c "/"); [congruence|]. cbn [negb]. rewrite (IH L2). reflexivity.
Qed.
Lemma greedy_other : forall c t, c <> "{"%char -> greedy_brace_here (String c t) = None.
Proof. intros c t H. cbn. destruct t; [reflexivity|]. destruct (Ascii.eqb_spec c "{"); [congruence|reflexivity]. Qed.
Lemma greedy_written : forall ps, brace_pattern ps -> separated ps ->
  find_matches greedy_brace_here 0 (written same (fun n => ("{" ++ n ++ "}")%string) "/.*" ps) = map (fun n => ("{" ++ n ++ "}")%string) (names ps).
Proof.
  intros ps H. induction H as [|s q H1 H2 H3 H4 I|n q H1 H2 H3 H4 I|q H1 I]; intros P; [auto| | |]; cbn [written separated] in *.
  - change (same s) with s. destruct (matches_past greedy_brace_here "{" "" s (written same (fun n => ("{" ++ n ++ "}")%string) "/.*" q) greedy_other H2) as [_ ->].
    exact (I P).
  - destruct P as [P1 P2]. assert (N : ("{" ++ n ++ "}")%string <> "") by discriminate.
    destruct (matches_here greedy_brace_here "" ("{" ++ n ++ "}") (written same (fun n => ("{" ++ n ++ "}")%string) "/.*" q) N) as [A B].
    { rewrite brace_text_of. destruct n as [|d n]; [congruence|]. rewrite !length_app_s. apply lacks_cons in H2.
      cbn [append greedy_brace_here Ascii.eqb Bool.eqb andb]. unfold not_slash, slash.
      destruct (Ascii.eqb_spec d "/"); [subst; tauto|]. cbn [negb].
      rewrite last_close_name; [|tauto|apply last_close_written; auto]. cbn [option_map]. f_equal. cbn [String.length]. lia. }
    rewrite B, (I P2). reflexivity.
  - subst q. reflexivity.
Qed.

Lemma same_values_spec : forall (f : string -> string) (e : list (string * string)) seen, (forall a b, f a = f b -> a = b) ->
  (same_values seen (map f (map fst e)) (map snd e) = true <->
   (forall n v w, In (n, v) e -> aget (f n) seen = Some w -> v = w) /\ consistent e).
Proof.
  intros f e. induction e as [|[n v] e IH]; intros seen Hf; cbn [map same_values fst snd].
  - split; [intros _; split; [intros n v w []|intros n v w []]|reflexivity].
  - destruct (aget (f n) seen) as [w|] eqn:E.
    + destruct (String.eqb_spec w v).
      * subst w. rewrite IH by exact Hf. split.
        -- intros [A B]. split.
           ++ intros m x y [X|X] G; [|eapply A; eauto]. assert (n = m /\ v = x) as [<- <-] by (split; congruence). congruence.
           ++ intros m x y [X|X] [Y|Y]; [congruence| | |eapply B; eauto].
              ** assert (n = m /\ v = x) as [<- <-] by (split; congruence). symmetry. eapply A; eauto.
              ** assert (n = m /\ v = y) as [<- <-] by (split; congruence). eapply A; eauto.
        -- intros [A B]. split; [intros m x y X; apply (A m); right; exact X|intros m x y X Y; apply (B m); right; auto].
      * split; [discriminate|]. intros [A _]. exfalso. apply n0. symmetry. apply (A n); [left; reflexivity|exact E].
    + rewrite IH by exact Hf. split.
      * intros [A B]. split.
        -- intros m x y [X|X] G.
           ++ assert (n = m /\ v = x) as [<- <-] by (split; congruence). congruence.
           ++ apply (A m x y X). cbn [aget]. destruct (String.eqb_spec (f n) (f m)) as [Q|Q]; [|destruct (String.eqb_spec (f m) (f n)); congruence].
              rewrite Q in E. congruence.
        -- assert (K : forall x, In (n, x) e -> x = v).
           { intros x X. apply (A n x v X). cbn [aget]. rewrite eqb_refl_s. reflexivity. }
           intros m x y [X|X] [Y|Y]; [congruence| | |eapply B; eauto].
           ++ assert (n = m /\ v = x) as [<- <-] by (split; congruence). symmetry. apply K; auto.
           ++ assert (n = m /\ v = y) as [<- <-] by (split; congruence). apply K; auto.
      * intros [A B]. split; [|intros m x y X Y; apply (B m); right; auto].
        intros m x y X G. cbn [aget] in G.
        destruct (String.eqb_spec (f m) (f n)) as [Q|Q].
        -- apply Hf in Q. subst m. assert (y = v) by congruence. subst y. apply (B n); [right; exact X|left; reflexivity].
        -- apply (A m x y); [right; exact X|]. exact G.
Qed.

Lemma keymatch4_spec : forall other ps key, brace_pattern ps -> separated ps ->
  exists b, KeyMatch4 other key (with_braces ps) = Ok b /\ (b = true <-> exists e, fits ps key e /\ consistent e).
Proof.
  intros other ps key H S. unfold KeyMatch4. rewrite brace_wild by exact H. destruct (brace_written "([^/]+)" ps H) as [-> _].
  rewrite greedy_written by auto.
  destruct (groups_written other "([^/]+)" false true "{" ps key) as (k & -> & C & o & E & O); auto using brace_plain, rep_group; try discriminate.
  { intros r. apply rep_calm. }
  rewrite E. cbn [bind]. destruct o as [g|].
  - destruct O as (e & F & ->). rewrite <- (fits_names _ _ _ F). rewrite !map_length, Nat.eqb_refl. cbn [negb].
    eexists. split; [reflexivity|]. rewrite same_values_spec.
    + split.
      * intros [_ K]. eauto.
      * intros (e' & F' & K). rewrite (fits_unique _ _ _ _ S F F'). split; [intros n v w _ X; discriminate|exact K].
    + intros a b X. cbn [append] in X. assert (X' : (a ++ "}")%string = (b ++ "}")%string) by congruence. exact (app_inj_r_s _ _ _ X').
  - eexists. split; [reflexivity|]. split; [discriminate|]. intros (e & F & _). destruct (O e F).
Qed.

(** ** Patterns with one star *)
Lemma sfind_first : forall pat s a b, pat <> "" -> first_occurrence pat s a b -> sfind pat s = Some (String.length a).
Proof.
  intros pat s a b N H. destruct (sfind pat s) as [n|] eqn:E.
  - destruct (sfind_some _ _ _ E) as [L F]. destruct (first_occurrence_unique _ _ _ _ _ _ N F H) as [X _]. rewrite <- X, length_stake by exact L. reflexivity.
  - apply sfind_none in E; [|exact N]. destruct H as [H _]. exfalso. apply E. exists a, b. exact H.
Qed.
Lemma stake_prefix : forall n s, n <= String.length s -> exists r, s = (stake n s ++ r)%string /\ sdrop n s = r.
Proof. intros n s _. exists (sdrop n s). rewrite stake_sdrop. auto. Qed.
Lemma star_cases : forall c s, lacks c s \/ exists a b, first_occurrence (String c "") s a b.
Proof.
  intros c s. destruct (sfind (String c "") s) as [n|] eqn:E.
  - right. destruct (sfind_some _ _ _ E) as [_ F]. eauto.
  - left. apply (proj1 (sfind_none (String c "") s ltac:(discriminate))). exact E.
Qed.
