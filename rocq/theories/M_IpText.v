(** Model of the printing of IP addresses, networks and masks (casbin/ip_parser/parser/IP.cpp,
    IPNet.cpp). *)
From Verif Require Import Base M_Util M_Effector M_Ip.
From Coq Require Import NArith.
Open Scope N_scope.

(** [ss << b; ss >> s] for an element b, an unsigned short (byte.h:6): its decimal digits. *)
Definition digit (n : N) : ascii := ascii_of_N (48 + n).
Fixpoint digits (fuel : nat) (n : N) : string :=
  match fuel with
  | 0%nat => ""
  | S f => if n <? 10 then String (digit n) "" else (digits f (n / 10) ++ String (digit (n mod 10)) "")%string
  end.
Definition number_text (n : N) : string := digits 5 n.

(** The four elements of [l] from [i] on, with dots. *)
Definition dotted_from (i : nat) (l : list N) : res string :=
  let! a := vget l i in
  let! b := vget l (i + 1) in
  let! c := vget l (i + 2) in
  let! d := vget l (i + 3) in
  Ok (number_text a ++ "." ++ number_text b ++ "." ++ number_text c ++ "." ++ number_text d)%string.

(** IP.cpp:66-80 [IP::toString]: the elements 12 to 15. *)
Definition toString (p : ip) : res string := dotted_from 12 (bytes p).
(** IPNet.cpp:10-22 [IPNet::NETIP_toString] and 24-36 [IPNet::IPMask_toString]: the elements
    0 to 3. *)
Definition NETIP_toString (net_ip : ip) : res string := dotted_from 0 (bytes net_ip).
Definition IPMask_toString (mask : list N) : res string := dotted_from 0 mask.
