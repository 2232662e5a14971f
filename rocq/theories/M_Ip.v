(** Model of casbin/ip_parser and of IPMatch (casbin/util/built_in_functions.cpp).

    [byte] is unsigned short in the code, so the elements of an address are numbers
    below 2^16.  No arithmetic overflows: the numbers read are below 16 * 0xFFFFFF + 16. *)
From Verif Require Import Base M_Util.
From Coq Require Export NArith.
Open Scope N_scope.

(** include/casbin/ip_parser/parser/byte.h:8. *)
Definition big : N := 16777215.

(** The digits by character code. *)
Definition dec_val (c : ascii) : option N :=
  let n := N_of_ascii c in if (48 <=? n) && (n <=? 57) then Some (n - 48) else None.
Definition hex_val (c : ascii) : option N :=
  let n := N_of_ascii c in
  if (48 <=? n) && (n <=? 57) then Some (n - 48)
  else if (97 <=? n) && (n <=? 102) then Some (n - 97 + 10)
  else if (65 <=? n) && (n <=? 70) then Some (n - 65 + 10) else None.

(** casbin/ip_parser/parser/dtoi.cpp:12-32 [dtoi]: the number and how many characters
    it took. *)
Fixpoint dtoi_from (n : N) (i : nat) (s : string) : N * nat :=
  match s with
  | EmptyString => (n, i)
  | String c s' =>
      match dec_val c with
      | None => (n, i)
      | Some d => let n' := n * 10 + d in if big <=? n' then (big, i) else dtoi_from n' (S i) s'
      end
  end.
Definition dtoi (s : string) : N * nat := dtoi_from 0 0 s.

(** casbin/ip_parser/parser/xtoi.cpp:10-41 [xtoi]; on overflow the number is 0. *)
Fixpoint xtoi_from (n : N) (i : nat) (s : string) : N * nat :=
  match s with
  | EmptyString => (n, i)
  | String c s' =>
      match hex_val c with
      | None => (n, i)
      | Some d => let n' := n * 16 + d in if big <=? n' then (0, i) else xtoi_from n' (S i) s'
      end
  end.
Definition xtoi (s : string) : N * nat := xtoi_from 0 0 s.

(** include/casbin/ip_parser/parser/IP.h:15-38. *)
Record ip := mkIp { bytes : list N; legal : bool }.
Definition v4InV6Prefix : list N := [0; 0; 0; 0; 0; 0; 0; 0; 0; 0; 255; 255].
Definition IPv4len : nat := 4.
Definition IPv6len : nat := 16.
Definition illegal : ip := mkIp [] false.

(** casbin/ip_parser/parser/IPv4.cpp:10-20 [IPv4]. *)
Definition IPv4 (l : list N) : ip := mkIp (v4InV6Prefix ++ l) true.

(** casbin/ip_parser/parser/parseIPv4.cpp:10-39 [parseIPv4]; [k] octets are still to be
    read, [pb] are those read. *)
Fixpoint parse_octets (k : nat) (pb : list N) (s : string) : ip :=
  match k with
  | 0%nat => if String.eqb s "" then IPv4 pb else illegal
  | S k' =>
      match s with
      | EmptyString => illegal
      | String c s' =>
          let rest := if Nat.ltb 0 (List.length pb) then (if Ascii.eqb c "." then Some s' else None) else Some s in
          match rest with
          | None => illegal
          | Some s1 =>
              let '(n, i) := dtoi s1 in
              if (big <=? n) || Nat.eqb i 0 || (255 <? n) then illegal
              else parse_octets k' (pb ++ [n]) (sdrop i s1)
          end
      end
  end.
Definition parseIPv4 (s : string) : ip := parse_octets IPv4len [] s.

(** casbin/ip_parser/parser/parseIPv6.cpp:26-91, the loop.  [es] are the elements written
    so far, [ell] the position of the ellipsis; the result is these and the rest of the
    text, [None] when the address was found illegal.  Every round writes two elements or
    is the last, so [fuel] is the number of rounds that can follow. *)
Fixpoint v6_loop (fuel : nat) (es : list N) (ell : option nat) (s : string) : option (list N * option nat * string) :=
  if Nat.leb IPv6len (List.length es) then Some (es, ell, s) else
  match fuel with
  | 0%nat => Some (es, ell, s)
  | S fuel' =>
      let '(n, k) := xtoi s in
      if (big <=? n) || Nat.eqb k 0 || (65535 <? n) then None
      else
        match sget k s with
        | Some c =>
            if Ascii.eqb c "." then
              if (match ell with None => true | Some _ => false end) && negb (Nat.eqb (List.length es) (IPv6len - IPv4len)) then None
              else if Nat.ltb IPv6len (List.length es + IPv4len) then None
              else let p := parseIPv4 s in
                   if legal p then Some (es ++ skipn 12 (bytes p), ell, "") else None
            else
              let es' := es ++ [N.shiftr n 8; n] in
              match sdrop k s with
              | String d (String d' r) =>
                  if negb (Ascii.eqb d ":") then None
                  else if Ascii.eqb d' ":" then
                    match ell with
                    | Some _ => None
                    | None => if String.eqb r "" then Some (es', Some (List.length es'), r)
                              else v6_loop fuel' es' (Some (List.length es')) r
                    end
                  else v6_loop fuel' es' ell (String d' r)
              | String _ EmptyString => None
              | EmptyString => None
              end
        | None => Some (es ++ [N.shiftr n 8; n], ell, "")
        end
  end.
(** parseIPv6.cpp:93-117: what follows the loop.  The elements from the ellipsis on are
    moved to the end and zeros put in their place. *)
Definition v6_finish (r : option (list N * option nat * string)) : ip :=
  match r with
  | None => illegal
  | Some (es, ell, s) =>
      if negb (String.eqb s "") then illegal
      else if Nat.ltb (List.length es) IPv6len then
        match ell with
        | None => illegal
        | Some e => mkIp (firstn e es ++ repeat 0 (IPv6len - List.length es) ++ skipn e es) true
        end
      else match ell with Some _ => illegal | None => mkIp es true end
  end.
(** parseIPv6.cpp:10-118 [parseIPv6].  A refused address keeps 16 elements in the code;
    nobody reads them. *)
Definition parseIPv6 (s : string) : ip :=
  if String.prefix "::" s then
    let s' := sdrop 2 s in
    if String.eqb s' "" then mkIp (repeat 0 IPv6len) true else v6_finish (v6_loop 8 [] (Some 0%nat) s')
  else v6_finish (v6_loop 8 [] None s).

(** casbin/ip_parser/parser/parseIP.cpp:10-22 [parseIP]. *)
Fixpoint parse_by (s t : string) : ip :=
  match t with
  | EmptyString => illegal
  | String c t' => if Ascii.eqb c "." then parseIPv4 s else if Ascii.eqb c ":" then parseIPv6 s else parse_by s t'
  end.
Definition parseIP (s : string) : ip := parse_by s s.

Section Char.
  (** Whether plain char is signed, as it is on x86. *)
  Variable signed : bool.

  (** casbin/ip_parser/parser/CIDRMask.cpp:28: ~char(0xff >> n) as an unsigned short. *)
  Definition part_mask (n : N) : N :=
    if (n =? 0) && signed then 0 else 65535 - N.shiftr 255 n.

  (** CIDRMask.cpp:10-32 [CIDRMask]; parseCIDR calls it with 32 or 128 bits and no more
      ones. *)
  Fixpoint mask_from (l : nat) (n : N) : list N :=
    match l with
    | 0%nat => []
    | S l' => if 8 <=? n then 255 :: mask_from l' (n - 8) else part_mask n :: mask_from l' 0
    end.
  Definition CIDRMask (ones : N) (len : nat) : list N := mask_from len ones.

  Definition list_eqb (a b : list N) : bool := Nat.eqb (List.length a) (List.length b) && forallb (fun p => fst p =? snd p) (combine a b).
  Definition allFF (l : list N) : bool := forallb (fun x => x =? 255) l.

  (** casbin/ip_parser/parser/IP.cpp:18-47 [IP::Mask]. *)
  Definition Mask (p : ip) (mask : list N) : ip :=
    let mask := if Nat.eqb (List.length mask) 16 && Nat.eqb (List.length (bytes p)) 4 && allFF (firstn 12 mask)
                then skipn 12 mask else mask in
    let b := if Nat.eqb (List.length mask) 4 && Nat.eqb (List.length (bytes p)) 16 && list_eqb (firstn 12 (bytes p)) v4InV6Prefix
             then skipn 12 (bytes p) else bytes p in
    if negb (Nat.eqb (List.length b) (List.length mask)) then illegal
    else mkIp (map (fun q => N.land (fst q) (snd q)) (combine b mask)) true.

  (** IP.cpp:82-97 [IP::To4]; the first ten elements are copied before the size is looked
      at.  When it is no IPv4 address the argument comes back, marked illegal. *)
  Definition To4 (p : ip) : res ip :=
    let b := bytes p in
    if Nat.eqb (List.length b) 4 then Ok p
    else if Nat.ltb (List.length b) 10 then UB OutOfBounds
    else if Nat.eqb (List.length b) 16 && forallb (fun x => x =? 0) (firstn 10 b) && (nth 10 b 0 =? 255) && (nth 11 b 0 =? 255)
         then Ok (mkIp (firstn 4 (skipn 12 b)) true)
         else Ok (mkIp b false).

  (** IP.cpp:49-64 [IP::Equal]. *)
  Definition Equal (p x : ip) : bool :=
    if Nat.eqb (List.length (bytes p)) (List.length (bytes x)) then list_eqb (bytes p) (bytes x)
    else if Nat.eqb (List.length (bytes p)) 4 && Nat.eqb (List.length (bytes x)) 16
         then list_eqb (firstn 12 (bytes x)) v4InV6Prefix && list_eqb (bytes p) (skipn 12 (bytes x))
    else if Nat.eqb (List.length (bytes p)) 16 && Nat.eqb (List.length (bytes x)) 4
         then list_eqb (firstn 12 (bytes p)) v4InV6Prefix && list_eqb (skipn 12 (bytes p)) (bytes x)
    else false.

  (** casbin/ip_parser/parser/IPNet.cpp:58-89 [IPNet::networkNumberAndMask]: the elements
      of the address and the mask. *)
  Definition networkNumberAndMask (net_ip : ip) (m : list N) : res (list N * list N) :=
    let! x := To4 net_ip in
    if negb (legal x) && negb (Nat.eqb (List.length (bytes net_ip)) 16) then Ok (bytes x, [])
    else if Nat.eqb (List.length m) 16 && Nat.eqb (List.length (bytes x)) 4 then Ok (bytes x, skipn 12 m)
    else Ok (bytes x, m).

  (** The comparing loop of IPNet::contains, IPNet.cpp:50-54. *)
  Fixpoint same_under (a b m : list N) : res bool :=
    match a, b with
    | x :: a', y :: b' =>
        match m with
        | [] => UB OutOfBounds
        | k :: m' => if N.land x k =? N.land y k then same_under a' b' m' else Ok false
        end
    | _, _ => Ok true
    end.
  (** IPNet.cpp:39-56 [IPNet::contains]. *)
  Definition contains (net_ip : ip) (mask : list N) (p : ip) : res bool :=
    let! nm := networkNumberAndMask net_ip mask in
    let! x := To4 p in
    let p := if legal x then x else p in
    if negb (Nat.eqb (List.length (bytes p)) (List.length (fst nm))) then Ok false
    else same_under (fst nm) (bytes p) (snd nm).

  (** casbin/ip_parser/parser/parseCIDR.cpp:10-35 [parseCIDR]: the address, the masked
      address and the mask. *)
  Definition parseCIDR (s : string) : res (ip * ip * list N) :=
    match sfind "/" s with
    | None => Throw ParserError
    | Some pos =>
        let addr := stake pos s in
        let mask := sdrop (pos + 1) s in
        let '(iplen, p) := let v4 := parseIPv4 addr in
                           if legal v4 then (IPv4len, v4) else (IPv6len, parseIPv6 addr) in
        let '(n, k) := dtoi mask in
        if negb (legal p) || (big <=? n) || Nat.eqb k 0 || negb (Nat.eqb k (String.length mask)) || (8 * N.of_nat iplen <? n)
        then Throw ParserError
        else let m := CIDRMask n iplen in Ok (p, Mask p m, m)
    end.

  (** casbin/util/built_in_functions.cpp:215-230 [IPMatch]. *)
  Definition IPMatch (ip1 ip2 : string) : res bool :=
    let p1 := parseIP ip1 in
    if negb (legal p1) then Throw IllegalArgument
    else
      let! c := parseCIDR ip2 in
      let '(p, net_ip, mask) := c in
      if negb (legal p) then
        let p2 := parseIP ip2 in
        if negb (legal p2) then Throw IllegalArgument else Ok (Equal p1 p2)
      else contains net_ip mask p1.
End Char.
