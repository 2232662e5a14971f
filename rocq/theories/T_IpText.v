(** Property C86: printed addresses and networks. *)
From Verif Require Import Base P_Base M_Util M_Effector M_Ip M_IpText S_Text P_Text S_Ip P_Ip T_Ip.
From Coq Require Import Lia.
Open Scope N_scope.

(** ** Decimal digits *)
Lemma digit_ok : forall n, n < 10 -> dec_digit (digit n) n.
Proof.
  intros n H. assert (C : n = 0 \/ n = 1 \/ n = 2 \/ n = 3 \/ n = 4 \/ n = 5 \/ n = 6 \/ n = 7 \/ n = 8 \/ n = 9) by lia.
  exists (N.to_nat n). split; [|lia]. repeat destruct C as [->|C]; try subst n; reflexivity.
Qed.
Lemma digits_read : forall f n, n < 10 ^ N.of_nat f -> (0 < f)%nat -> decimal (digits f n) n.
Proof.
  induction f as [|f IH]; intros n H F; [lia|]. cbn [digits]. destruct (N.ltb_spec n 10).
  - apply reads_one. apply digit_ok. auto.
  - assert (E : 10 * (n / 10) + n mod 10 = n) by (symmetry; apply N.div_mod; lia). pattern n at 3. rewrite <- E. apply reads_more.
    + rewrite Nat2N.inj_succ, N.pow_succ_r' in H. destruct f as [|f]; [cbn in H; lia|]. apply IH; [|lia]. apply N.div_lt_upper_bound; lia.
    + apply digit_ok. apply N.mod_lt. lia.
Qed.
Lemma number_read : forall n, n < 65536 -> decimal (number_text n) n.
Proof. intros n H. apply digits_read; [cbn; lia|lia]. Qed.
Definition quad_text (a : list N) : string :=
  (number_text (nth 0 a 0) ++ "." ++ number_text (nth 1 a 0) ++ "." ++ number_text (nth 2 a 0) ++ "." ++ number_text (nth 3 a 0))%string.
Lemma quad_ipv4 : forall a, List.length a = 4%nat -> Forall (fun x => x < 256) a -> ipv4_text (quad_text a) a.
Proof.
  intros [|a [|b [|c [|d [|]]]]] L F; try discriminate. unfold quad_text. cbn [nth].
  repeat match goal with H : Forall _ (_ :: _) |- _ => inversion H; clear H; subst end.
  do 8 eexists. split; [reflexivity|]. split; [reflexivity|]. repeat split; try apply number_read; lia.
Qed.
Lemma dotted_quad : forall p a, List.length a = 4%nat -> dotted_from (List.length p) (p ++ a) = Ok (quad_text a).
Proof.
  intros p [|a [|b [|c [|d [|]]]]] L; try discriminate. unfold dotted_from.
  assert (V : forall k x, nth_error [a; b; c; d] k = Some x -> vget (p ++ [a; b; c; d]) (List.length p + k) = Ok x).
  { intros k x H. unfold vget. rewrite nth_error_app2 by lia. replace (List.length p + k - List.length p)%nat with k by lia. rewrite H. reflexivity. }
  replace (List.length p) with (List.length p + 0)%nat at 1 by lia.
  rewrite (V 0%nat a), (V 1%nat b), (V 2%nat c), (V 3%nat d) by reflexivity. reflexivity.
Qed.

(** ** C86 *)
(** An IPv4 address prints as four decimal numbers that mean the same address, so reading
    it again gives the same address. *)
Theorem C86_address : forall s a, ipv4_text s a ->
  exists t, toString (parseIPv4 s) = Ok t /\ ipv4_text t a /\ parseIPv4 t = parseIPv4 s.
Proof.
  intros s a H. destruct (ipv4_bytes s a H) as [L F]. exists (quad_text a). rewrite (parseIPv4_ok s a H).
  split. { exact (dotted_quad v4InV6Prefix a L). }
  split; [apply quad_ipv4; auto|]. apply parseIPv4_ok. apply quad_ipv4; auto.
Qed.
(** Two texts of one address print alike. *)
Theorem C86_one_text : forall s s' a, ipv4_text s a -> ipv4_text s' a -> toString (parseIPv4 s) = toString (parseIPv4 s').
Proof. intros s s' a H H'. rewrite (parseIPv4_ok s a H), (parseIPv4_ok s' a H'). reflexivity. Qed.

(** The address of an IPv4 network prints with the bits after the prefix cleared. *)
Lemma part_bits : forall signed n x, n < 8 -> bits8 (N.land x (part_mask signed n)) = firstn (N.to_nat n) (bits8 x) ++ repeat false (8 - N.to_nat n).
Proof.
  intros signed n x H. assert (C : n = 0 \/ n = 1 \/ n = 2 \/ n = 3 \/ n = 4 \/ n = 5 \/ n = 6 \/ n = 7) by lia.
  unfold bits8. cbn [map]. rewrite !N.land_spec.
  destruct signed; repeat destruct C as [->|C]; try subst n; cbn -[N.testbit];
    repeat match goal with |- context [N.testbit ?k ?i] => match k with Npos _ => let b := eval vm_compute in (N.testbit k i) in change (N.testbit k i) with b | 0 => change (N.testbit 0 i) with false end end;
    rewrite ?andb_true_r, ?andb_false_r; reflexivity.
Qed.
Lemma full_bits : forall x, bits8 (N.land x 255) = bits8 x.
Proof.
  intros x. unfold bits8. cbn [map]. rewrite !N.land_spec.
  repeat match goal with |- context [N.testbit 255 ?i] => change (N.testbit 255 i) with true end. rewrite !andb_true_r. reflexivity.
Qed.
Lemma masked_bits : forall signed a n, flat_map bits8 (masked a (mask_from signed (List.length a) n)) =
  firstn (N.to_nat n) (flat_map bits8 a) ++ repeat false (8 * List.length a - N.to_nat n).
Proof.
  intros signed. induction a as [|x a IH]; intros n; [rewrite firstn_nil; reflexivity|].
  cbn [List.length mask_from]. destruct (N.leb_spec 8 n).
  - cbn [masked combine map flat_map fst snd]. fold (masked a (mask_from signed (List.length a) (n - 8))). rewrite IH, full_bits.
    rewrite (firstn_step 8) by (try reflexivity; lia). rewrite <- app_assoc. f_equal.
    replace (N.to_nat (n - 8)) with (N.to_nat n - 8)%nat by lia. f_equal. f_equal. lia.
  - cbn [masked combine map flat_map fst snd]. fold (masked a (mask_from signed (List.length a) 0)). rewrite IH, part_bits by auto.
    rewrite (firstn_short 8) by (try reflexivity; lia). cbn [N.to_nat firstn app]. rewrite <- app_assoc. f_equal.
    rewrite <- repeat_app. f_equal. lia.
Qed.
Lemma masked_small : forall a m, Forall (fun x => x < 256) a -> Forall (fun x => x < 256) (masked a m).
Proof.
  induction a as [|x a IH]; intros [|k m] F; try constructor.
  - cbn [fst snd]. inversion F; subst. change 256 with (2 ^ 8). destruct (N.eq_dec (N.land x k) 0) as [->|Z]; [reflexivity|].
    apply N.log2_lt_pow2; [lia|]. eapply N.le_lt_trans; [apply N.log2_land|]. apply N.min_lt_iff. left.
    destruct (N.eq_dec x 0) as [->|]; [reflexivity|]. apply N.log2_lt_pow2; [lia|auto].
  - apply IH. inversion F; auto.
Qed.
Theorem C86_network : forall signed s a n, v4_net s a n ->
  exists p net mask t b, parseCIDR signed s = Ok (p, net, mask) /\ NETIP_toString net = Ok t /\ ipv4_text t b /\
    flat_map bits8 b = firstn (N.to_nat n) (flat_map bits8 a) ++ repeat false (32 - N.to_nat n).
Proof.
  intros signed s a n H. pose proof H as H0. destruct H0 as [ad [bi [_ [A _]]]]. destruct (ipv4_bytes _ _ A) as [L F].
  assert (LM : List.length (masked a (mask_from signed 4 n)) = 4%nat) by (rewrite masked_length, mask_length, L; reflexivity).
  do 3 eexists. exists (quad_text (masked a (mask_from signed 4 n))), (masked a (mask_from signed 4 n)).
  split; [apply parseCIDR_v4; eauto|]. split; [exact (dotted_quad [] _ LM)|].
  split; [apply quad_ipv4; auto; apply masked_small; auto|]. rewrite <- L at 1. rewrite masked_bits, L. reflexivity.
Qed.

(** The mask of a network prints right when the prefix is of whole bytes (where plain char is
    signed) ... *)
Theorem C86_mask_partial : forall s a n, v4_net s a n -> n mod 8 = 0 ->
  exists p net mask t b, parseCIDR true s = Ok (p, net, mask) /\ IPMask_toString mask = Ok t /\ ipv4_text t b /\
    flat_map bits8 b = repeat true (N.to_nat n) ++ repeat false (32 - N.to_nat n).
Proof.
  intros s a n H Z. assert (LE : n <= 32) by (destruct H as [ad [bi [_ [_ [_ LE]]]]]; auto).
  do 3 eexists. exists (quad_text (mask_from true 4 n)), (mask_from true 4 n). split; [apply parseCIDR_v4; eauto|].
  split. { exact (dotted_quad [] _ (mask_length _ _ _)). }
  assert (C : n = 0 \/ n = 8 \/ n = 16 \/ n = 24 \/ n = 32).
  { pose proof (N.div_mod n 8 ltac:(lia)) as D. rewrite Z in D. assert (n / 8 <= 4) by (apply N.div_le_upper_bound; lia). lia. }
  repeat destruct C as [->|C]; try subst n; (split; [apply quad_ipv4; [reflexivity|repeat constructor]|reflexivity]).
Qed.
(** ... and otherwise never: the text is not even an address. *)
Theorem C86_mask_refuted : forall s a n, v4_net s a n -> n mod 8 <> 0 ->
  exists p net mask t, parseCIDR true s = Ok (p, net, mask) /\ IPMask_toString mask = Ok t /\ forall b, ~ ipv4_text t b.
Proof.
  intros s a n H Z. assert (LE : n <= 32) by (destruct H as [ad [bi [_ [_ [_ LE]]]]]; auto).
  do 3 eexists. exists (quad_text (mask_from true 4 n)). split; [apply parseCIDR_v4; eauto|].
  split. { exact (dotted_quad [] _ (mask_length _ _ _)). }
  intros b B. apply parseIPv4_ok in B.
  assert (I : legal (parseIPv4 (quad_text (mask_from true 4 n))) = false); [|rewrite B in I; discriminate].
  clear - LE Z. assert (Q : n = 8 * (n / 8) + n mod 8) by (apply N.div_mod; lia). set (q := n / 8) in *. set (m := n mod 8) in *.
  assert (M : m < 8) by (apply N.mod_lt; lia). clearbody q m. subst n.
  assert (C : m = 1 \/ m = 2 \/ m = 3 \/ m = 4 \/ m = 5 \/ m = 6 \/ m = 7) by lia.
  assert (D : q = 0 \/ q = 1 \/ q = 2 \/ q = 3) by lia.
  repeat destruct C as [->|C]; try subst m; repeat destruct D as [->|D]; try subst q; vm_compute; reflexivity.
Qed.
(** The address of a network has four elements only and has no text by IP::toString. *)
Theorem C86_network_address_refuted : forall signed s a n, v4_net s a n ->
  exists p net mask, parseCIDR signed s = Ok (p, net, mask) /\ toString net = UB OutOfBounds.
Proof.
  intros signed s a n H. pose proof H as H0. destruct H0 as [ad [bi [_ [A _]]]]. destruct (ipv4_bytes _ _ A) as [L F].
  do 3 eexists. split; [apply parseCIDR_v4; eauto|]. unfold toString, dotted_from, vget. cbn [bytes].
  destruct (nth_error (masked a (mask_from signed 4 n)) 12) eqn:E; [|reflexivity].
  assert (X : (12 < List.length (masked a (mask_from signed 4 n)))%nat) by (apply nth_error_Some; congruence).
  rewrite masked_length, mask_length, L in X. cbn in X. lia.
Qed.
(** An IPv6 address is printed as if it were an IPv4 address. *)
Theorem C86_ipv6_refuted : exists s l s' l', ipv6_text s l /\ ipv6_text s' l' /\ address l <> address l' /\
  toString (parseIPv6 s) = toString (parseIPv6 s').
Proof.
  exists "2001::". do 3 eexists. split; [|split].
  - apply (ipv6_short "2001" "" [Group 8193] []); [right; apply colons_group; grp|intros c [<-|[]]; eauto|left; auto|cbn; lia].
  - apply (ipv6_short "2002" "" [Group 8194] []); [right; apply colons_group; grp|intros c [<-|[]]; eauto|left; auto|cbn; lia].
  - split; [vm_compute; discriminate|vm_compute; reflexivity].
Qed.

Example C86_case : ipv4_text "010.0.2.255" [10; 0; 2; 255] /\ toString (parseIPv4 "010.0.2.255") = Ok "10.0.2.255" /\
  v4_net (network "10.1.207.9" "20") [10; 1; 207; 9] 20 /\ v4_net (network "10.1.2.3" "16") [10; 1; 2; 3] 16 /\
  (let! c := parseCIDR true "10.1.207.9/20" in NETIP_toString (snd (fst c))) = Ok "10.1.192.0" /\
  (let! c := parseCIDR true "10.1.207.9/20" in IPMask_toString (snd c)) = Ok "255.255.65520.0" /\
  (let! c := parseCIDR true "10.1.2.3/16" in IPMask_toString (snd c)) = Ok "255.255.0.0".
Proof.
  split; [apply v4_of; reflexivity|]. split; [vm_compute; reflexivity|].
  split; [apply net_v4_of; [apply v4_of; reflexivity|apply decimal_of; [discriminate|reflexivity]|lia]|].
  split; [apply net_v4_of; [apply v4_of; reflexivity|apply decimal_of; [discriminate|reflexivity]|lia]|].
  repeat split; vm_compute; reflexivity.
Qed.

Print Assumptions C86_address.
Print Assumptions C86_one_text.
Print Assumptions C86_network.
Print Assumptions C86_mask_partial.
Print Assumptions C86_mask_refuted.
Print Assumptions C86_network_address_refuted.
Print Assumptions C86_ipv6_refuted.
