(** Properties of the key matching functions: C53, C54, C55, C66, C67. *)
From Verif Require Import Base P_Base M_Util M_BuiltIn S_Text P_Text S_BuiltIn P_BuiltIn.
From Coq Require Import Lia.

(** ** C53: keyMatch *)
Theorem C53_no_star : forall k1 k2, lacks "*" k2 -> (KeyMatch k1 k2 = true <-> k1 = k2).
Proof.
  intros k1 k2 H. unfold KeyMatch. rewrite (proj2 (sfind_none "*" k2 ltac:(discriminate)) H). apply String.eqb_eq.
Qed.
Theorem C53_star : forall k1 k2 a b, first_occurrence "*" k2 a b ->
  (KeyMatch k1 k2 = true <-> exists r, k1 = (a ++ r)%string).
Proof.
  intros k1 k2 a b H. unfold KeyMatch. rewrite (sfind_first "*" k2 a b ltac:(discriminate) H).
  assert (E : stake (String.length a) k2 = a) by (destruct H as [-> _]; apply stake_app). rewrite E.
  destruct (Nat.ltb_spec (String.length a) (String.length k1)).
  - rewrite String.eqb_eq. split.
    + intros X. exists (sdrop (String.length a) k1). rewrite <- X at 1. symmetry. apply stake_sdrop.
    + intros [r ->]. apply stake_app.
  - rewrite String.eqb_eq. split.
    + intros ->. exists "". symmetry. apply app_nil_r_s.
    + intros [r ->]. rewrite length_app_s in H0. destruct r; [apply app_nil_r_s|cbn in H0; lia].
Qed.

Lemma foo_star : first_occurrence "*" "/foo/*" "/foo/" "".
Proof. exact (proj2 (sfind_some "*" "/foo/*" 5 eq_refl)). Qed.
Example C53_example :
  KeyMatch "/foo/bar" "/foo/*" = true /\ KeyMatch "/foo/" "/foo/*" = true /\ KeyMatch "/foo" "/foo/*" = false /\
  KeyMatch "/foobar" "/foo/*" = false /\ KeyMatch "/foo" "/foo" = true.
Proof. repeat split. Qed.

(** ** C54: keyGet *)
Theorem C54_get : forall k1 k2 a b, first_occurrence "*" k2 a b ->
  (forall r, k1 = (a ++ r)%string -> KeyGet k1 k2 = r) /\
  (KeyMatch k1 k2 = true -> k1 = (a ++ KeyGet k1 k2)%string).
Proof.
  intros k1 k2 a b H.
  assert (G : forall r, k1 = (a ++ r)%string -> KeyGet k1 k2 = r).
  { intros r ->. unfold KeyGet. rewrite (sfind_first "*" k2 a b ltac:(discriminate) H).
    assert (E : stake (String.length a) k2 = a) by (destruct H as [-> _]; apply stake_app). rewrite E, stake_app, eqb_refl_s, sdrop_app.
    rewrite length_app_s. destruct (Nat.ltb_spec (String.length a) (String.length a + String.length r)); [reflexivity|].
    destruct r; [reflexivity|cbn in H0; lia]. }
  split; [exact G|]. intros M. apply (C53_star k1 k2 a b H) in M. destruct M as [r M]. rewrite (G r M). exact M.
Qed.
Theorem C54_nothing : forall k1 k2, lacks "*" k2 \/ KeyMatch k1 k2 = false -> KeyGet k1 k2 = "".
Proof.
  intros k1 k2 [H|H]; unfold KeyGet.
  - rewrite (proj2 (sfind_none "*" k2 ltac:(discriminate)) H). reflexivity.
  - unfold KeyMatch in H. destruct (sfind "*" k2); [|reflexivity]. destruct (Nat.ltb n (String.length k1)); [|reflexivity]. rewrite H. reflexivity.
Qed.
Example C54_example : first_occurrence "*" "/foo/*" "/foo/" "" /\ KeyGet "/foo/bar/foo" "/foo/*" = "bar/foo" /\
  KeyGet "/bar" "/foo/*" = "" /\ KeyMatch "/bar" "/foo/*" = false /\ KeyGet "/foo/bar" "/foo/bar" = "".
Proof. split; [exact foo_star|]. repeat split. Qed.

(** ** C55: keyMatch2 and keyMatch3 *)

(** For patterns whose fixed texts have no character with a meaning in regular
    expressions: the functions answer whether the key fits.  Nothing is assumed of
    std::regex outside the modelled expressions ([other]).  Missing: fixed texts with
    the characters "^$\.*+?()[]|", for which it is false (below). *)
Theorem C55_keymatch2_partial : forall other ps key, colon_pattern ps ->
  exists b, KeyMatch2 other key (with_colons ps) = Ok b /\ (b = true <-> exists e, fits ps key e).
Proof. exact keymatch2_spec. Qed.
Theorem C55_keymatch3_partial : forall other ps key, brace_pattern ps ->
  exists b, KeyMatch3 other key (with_braces ps) = Ok b /\ (b = true <-> exists e, fits ps key e).
Proof. exact keymatch3_spec. Qed.
(** keyMatch2 with "*" alone takes every key of one line. *)
Theorem C55_star_alone : forall other key, exists b, KeyMatch2 other key "*" = Ok b /\ (b = true <-> one_line key).
Proof.
  intros other key. unfold KeyMatch2, RegexMatch, regex_groups.
  replace (parse_regex _) with (Some [mkItem ADot Star false true]) by reflexivity. cbn [bind].
  eexists. split; [reflexivity|]. rewrite one_line_dot. split.
  - destruct (match_items [mkItem ADot Star false true] key) eqn:E; [|discriminate]. intros _. apply match_sound in E.
    inversion E as [|i is_ v k g' H1 H2 H3]; subst. inversion H3; subst. rewrite app_nil_r_s. exact H1.
  - intros H. destruct (match_complete [mkItem ADot Star false true] key [key]) as [g ->]; [|reflexivity].
    rewrite <- (app_nil_r_s key) at 1. change [key] with (if i_group (mkItem ADot Star false true) then key :: [] else []).
    apply takes_cons; [exact H|exact I|constructor].
Qed.

(** A dot in the pattern does not match itself only: it takes any character. *)
Theorem C55_text_refuted : forall other c, c <> "010"%char -> c <> "013"%char ->
  KeyMatch2 other ("/a" ++ String c "b") "/a.b" = Ok true /\ KeyMatch3 other ("/a" ++ String c "b") "/a.b" = Ok true.
Proof.
  intros other c H1 H2. unfold KeyMatch2, KeyMatch3, RegexMatch, regex_groups.
  set (is_ := [chr "/"; chr "a"; mkItem ADot One false false; chr "b"]).
  replace (parse_regex (star_alone _)) with (Some is_) by reflexivity. replace (parse_regex (EscapeCurlyBraces _)) with (Some is_) by reflexivity.
  cbn [bind]. destruct (match_complete is_ ("/a" ++ String c "b") []) as [g ->]; [|auto].
  change ("/a" ++ String c "b")%string with (String "/" "" ++ (String "a" "" ++ (String c "" ++ (String "b" "" ++ ""))))%string.
  apply (takes_cons (chr "/") _ _ _ []); [split; [reflexivity|exact I]|reflexivity|].
  apply (takes_cons (chr "a") _ _ _ []); [split; [reflexivity|exact I]|reflexivity|].
  apply (takes_cons (mkItem ADot One false false) _ _ _ []); [split; [|exact I]|reflexivity|].
  { cbn. apply Bool.negb_true_iff. apply Bool.orb_false_iff. split; apply Ascii.eqb_neq; assumption. }
  apply (takes_cons (chr "b") _ _ _ []); [split; [reflexivity|exact I]|reflexivity|]. constructor.
Qed.
(** "/*" does not match a rest with a line end. *)
Theorem C55_rest_refuted : forall other a b, KeyMatch2 other ("/" ++ a ++ String "010" b) "/*" = Ok false.
Proof.
  intros other a b. destruct (keymatch2_spec other [Rest] ("/" ++ a ++ String "010" b) (colon_rest [] colon_nil)) as (r & E & K).
  change (with_colons [Rest]) with "/*" in E. rewrite E. destruct r; [|reflexivity]. exfalso.
  destruct (proj1 K eq_refl) as [e F]. inversion F as [| | |v q k e' [L _] F' E1 E2]; subst. inversion F'; subst.
  rewrite app_nil_r_s in E2. assert (X : v = (a ++ String "010" b)%string) by congruence. subst v.
  apply L. exists a, b. reflexivity.
Qed.

(** Whatever the pattern: std::regex is asked about nothing but expressions between "^" and "$", so
    about whole keys.  Two libraries that agree on these give the same answers. *)
Theorem C55_anchored : forall lib lib' : string -> string -> res (option (list string)),
  (forall key k, lib key ("^" ++ k ++ "$")%string = lib' key ("^" ++ k ++ "$")%string) ->
  forall key pat var, KeyMatch2 lib key pat = KeyMatch2 lib' key pat /\ KeyMatch3 lib key pat = KeyMatch3 lib' key pat /\
    KeyMatch4 lib key pat = KeyMatch4 lib' key pat /\
    KeyGet2 lib key pat var = KeyGet2 lib' key pat var /\ KeyGet3 lib key pat var = KeyGet3 lib' key pat var.
Proof.
  intros lib lib' A key pat var. assert (G : forall k, regex_groups lib key k = regex_groups lib' key k).
  { intros k. unfold regex_groups. destruct (parse_regex k); auto. }
  unfold KeyMatch2, KeyMatch3, KeyMatch4, KeyGet2, KeyGet3, RegexMatch. rewrite !G. auto.
Qed.
(** And what the library answers there is the answer of keyMatch2: a library that takes "/v1" and "/v2"
    for "^/v(1|2)$" makes the pattern "/v(1|2)" mean these. *)
Definition two_versions (key text : string) : res (option (list string)) :=
  if String.eqb text "^/v(1|2)$" then Ok (if String.eqb key "/v1" then Some ["1"] else if String.eqb key "/v2" then Some ["2"] else None)
  else Ok (Some []).
Example C55_anchored_case : KeyMatch2 two_versions "/v2" "/v(1|2)" = Ok true /\ KeyMatch2 two_versions "/v3" "/v(1|2)" = Ok false.
Proof. split; reflexivity. Qed.

Definition project : list piece := [Text "/proj/"; Name "id"; Text "/files"; Rest].
Lemma project_colon : colon_pattern project.
Proof.
  apply colon_text; [cbv; intuition|apply smem_lacks; reflexivity|].
  apply colon_name; [discriminate|apply smem_lacks; reflexivity|right; right; eexists _, _; reflexivity|].
  apply colon_text; [cbv; intuition|apply smem_lacks; reflexivity|]. apply colon_rest, colon_nil.
Qed.
Lemma project_brace : brace_pattern project.
Proof.
  apply brace_text; [cbv; intuition|apply smem_lacks; reflexivity|apply smem_lacks; reflexivity|].
  apply brace_name; [discriminate|apply smem_lacks; reflexivity|apply smem_lacks; reflexivity|].
  apply brace_text; [cbv; intuition|apply smem_lacks; reflexivity|apply smem_lacks; reflexivity|]. apply brace_rest, brace_nil.
Qed.
Lemma project_fits : fits project "/proj/p1/files/a/b" [("id", "p1")].
Proof.
  apply (fits_text "/proj/" _ "p1/files/a/b"). apply (fits_name "id" "p1" _ "/files/a/b"); [discriminate|apply smem_lacks; reflexivity|].
  apply (fits_text "/files" _ "/a/b"). apply (fits_rest "a/b" [] ""); [split; apply smem_lacks; reflexivity|constructor].
Qed.
Example C55_example : forall other,
  with_colons project = "/proj/:id/files/*" /\ colon_pattern project /\ with_braces project = "/proj/{id}/files/*" /\ brace_pattern project /\
  KeyMatch2 other "/proj/p1/files/a/b" "/proj/:id/files/*" = Ok true /\ KeyMatch2 other "/proj/p1/x/files/a" "/proj/:id/files/*" = Ok false /\
  KeyMatch3 other "/proj/p1/files/" "/proj/{id}/files/*" = Ok true /\ KeyMatch3 other "/proj//files/" "/proj/{id}/files/*" = Ok false /\
  KeyMatch3 other "/proj_p1_admin" "/proj_{p}_admin" = Ok true.
Proof.
  intros other. split; [reflexivity|]. split; [exact project_colon|]. split; [reflexivity|]. split; [exact project_brace|].
  repeat split.
Qed.

(** ** C66: keyGet2 and keyGet3 *)

(** When the key fits the pattern the result is the value of the first placeholder of
    that name in some way of fitting, and the empty text when there is no such
    placeholder or the key does not fit. *)
Theorem C66_keyget2 : forall other ps key var, colon_pattern ps ->
  exists v, KeyGet2 other key (with_colons ps) var = Ok v /\
    ((exists e, fits ps key e /\ bound e var v) \/ ((forall e, ~ fits ps key e) /\ v = "")).
Proof. exact keyget2_spec. Qed.
Theorem C66_keyget3 : forall other ps key var, brace_pattern ps ->
  exists v, KeyGet3 other key (with_braces ps) var = Ok v /\
    ((exists e, fits ps key e /\ bound e var v) \/ ((forall e, ~ fits ps key e) /\ v = "")).
Proof. exact keyget3_spec. Qed.
(** With a slash between any two placeholders there is only one way of fitting. *)
Theorem C66_one_value : forall ps key e, separated ps -> fits ps key e -> forall other var,
  (colon_pattern ps -> exists v, KeyGet2 other key (with_colons ps) var = Ok v /\ bound e var v) /\
  (brace_pattern ps -> exists v, KeyGet3 other key (with_braces ps) var = Ok v /\ bound e var v).
Proof.
  intros ps key e S F other var. split; intros P.
  - destruct (keyget2_spec other ps key var P) as (v & E & [(e' & F' & B)|[N _]]); [|destruct (N e F)].
    exists v. rewrite (fits_unique _ _ _ _ S F F'). auto.
  - destruct (keyget3_spec other ps key var P) as (v & E & [(e' & F' & B)|[N _]]); [|destruct (N e F)].
    exists v. rewrite (fits_unique _ _ _ _ S F F'). auto.
Qed.
Example C66_example : forall other,
  separated project /\ fits project "/proj/p1/files/a/b" [("id", "p1")] /\ bound [("id", "p1")] "id" "p1" /\
  KeyGet2 other "/proj/p1/files/a/b" "/proj/:id/files/*" "id" = Ok "p1" /\
  KeyGet2 other "/proj/p1/files/a/b" "/proj/:id/files/*" "name" = Ok "" /\
  KeyGet3 other "/proj_p1_admin" "/proj_{p}_admin" "p" = Ok "p1" /\ KeyGet3 other "/x" "/proj_{p}_admin" "p" = Ok "".
Proof.
  intros other. split; [|split; [exact project_fits|split; [left; exists [], []; auto|repeat split]]].
  cbn. split; [left; exists "", "files"; reflexivity|reflexivity].
Qed.

(** ** C67: keyMatch4 *)

(** With a slash between any two placeholders: the key fits, and placeholders of the
    same name have the same value. *)
Theorem C67_keymatch4_partial : forall other ps key, brace_pattern ps -> separated ps ->
  exists b, KeyMatch4 other key (with_braces ps) = Ok b /\ (b = true <-> exists e, fits ps key e /\ consistent e).
Proof. exact keymatch4_spec. Qed.
(** Two placeholders in one segment: a key that fits makes the call throw, as the
    names are read greedily ("{x}_{y}" is one name) and the values are not. *)
Theorem C67_one_segment_refuted : exists ps key e, brace_pattern ps /\ fits ps key e /\ consistent e /\
  forall other, KeyMatch4 other key (with_braces ps) = Throw ThrownString.
Proof.
  exists [Text "/"; Name "x"; Text "_"; Name "y"], "/a_b", [("x", "a"); ("y", "b")].
  split; [|split; [|split; [|reflexivity]]].
  - apply brace_text; [cbv; intuition|apply smem_lacks; reflexivity|apply smem_lacks; reflexivity|].
    apply brace_name; [discriminate|apply smem_lacks; reflexivity|apply smem_lacks; reflexivity|].
    apply brace_text; [cbv; intuition|apply smem_lacks; reflexivity|apply smem_lacks; reflexivity|].
    apply brace_name; [discriminate|apply smem_lacks; reflexivity|apply smem_lacks; reflexivity|]. apply brace_nil.
  - apply (fits_text "/" _ "a_b"). apply (fits_name "x" "a" _ "_b"); [discriminate|apply smem_lacks; reflexivity|].
    apply (fits_text "_" _ "b"). apply (fits_name "y" "b" [] ""); [discriminate|apply smem_lacks; reflexivity|constructor].
  - intros n v w [A|[A|[]]] [B|[B|[]]]; congruence.
Qed.
Example C67_example : forall other,
  brace_pattern [Text "/parent/"; Name "id"; Text "/child/"; Name "id"] /\ separated [Text "/parent/"; Name "id"; Text "/child/"; Name "id"] /\
  KeyMatch4 other "/parent/123/child/123" "/parent/{id}/child/{id}" = Ok true /\
  KeyMatch4 other "/parent/123/child/456" "/parent/{id}/child/{id}" = Ok false /\
  KeyMatch4 other "/parent/123/child/456" "/parent/{id}/child/{other}" = Ok true.
Proof.
  intros other. split; [|split; [|repeat split]].
  - apply brace_text; [cbv; intuition|apply smem_lacks; reflexivity|apply smem_lacks; reflexivity|].
    apply brace_name; [discriminate|apply smem_lacks; reflexivity|apply smem_lacks; reflexivity|].
    apply brace_text; [cbv; intuition|apply smem_lacks; reflexivity|apply smem_lacks; reflexivity|].
    apply brace_name; [discriminate|apply smem_lacks; reflexivity|apply smem_lacks; reflexivity|]. apply brace_nil.
  - cbn. split; [left; exists "", "child/"; reflexivity|auto].
Qed.

Print Assumptions C53_no_star.
Print Assumptions C53_star.
Print Assumptions C54_get.
Print Assumptions C54_nothing.
Print Assumptions C55_keymatch2_partial.
Print Assumptions C55_keymatch3_partial.
Print Assumptions C55_star_alone.
Print Assumptions C55_text_refuted.
Print Assumptions C55_rest_refuted.
Print Assumptions C55_anchored.
Print Assumptions C66_keyget2.
Print Assumptions C66_keyget3.
Print Assumptions C66_one_value.
Print Assumptions C67_keymatch4_partial.
Print Assumptions C67_one_segment_refuted.
