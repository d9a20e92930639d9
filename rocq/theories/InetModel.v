(** Model of lib/std/net/inetaddr.c3: reading and printing Internet addresses, and their classes.
    Text is a list of bytes.  The 16 bytes of the union (inetaddr.c3:15-44) are modelled by the view [ipv6arr]: eight big-endian 16-bit
    groups; the byte fields of the view [ipv4] (bits 96-127) are the halves of groups 6 and 7 (see C57 for the bits of bitstructs).
    [None] is INVALID_IP_STRING; [Oob] an index outside [ipv6arr] or the failure of the assertion of line 98. *)
From Coq Require Import ZArith Bool List.
From Verif Require Import Word Mach.
Import ListNotations.
Open Scope Z_scope.

Record inet := Inet { is_ipv6 : bool; groups : list Z }.
Definition group (x : inet) (i : nat) : Z := nth i (groups x) 0.
(** inetaddr.c3:33-43: the fields of the views [ipv4], [ip4], [ip6]. *)
Definition v4a (x : inet) : Z := group x 6 / 256.
Definition v4b (x : inet) : Z := group x 6 mod 256.
Definition v4c (x : inet) : Z := group x 7 / 256.
Definition v4d (x : inet) : Z := group x 7 mod 256.
Definition v4val (x : inet) : Z := v4a x * 2 ^ 24 + v4b x * 2 ^ 16 + v4c x * 2 ^ 8 + v4d x.
Definition v6val (x : inet) : Z := fold_left (fun acc g => acc * 65536 + g) (groups x) 0.
(** An address built from the four bytes of [ipv4] (the rest of the union is zero, line 125). *)
Definition v4inet (a b c d : Z) : inet := Inet false [0; 0; 0; 0; 0; 0; a * 256 + b; c * 256 + d].

(** [int] arithmetic wraps. *)
Definition i32 (x : Z) : Z := swrap 32 x.

(** inetaddr.c3:123-156 ipv4_from_str: the loop; the bytes written so far are a, b, c. *)
Fixpoint v4_loop (s : list Z) (a b c element current : Z) : option (Z * Z * Z * Z * Z) :=
  match s with
  | [] => Some (a, b, c, element, current)
  | ch :: r =>
    if ch =? 46 then
      if current <? 0 then None else
      if 255 <? current then None else
      if element =? 0 then v4_loop r current b c (element + 1) (-1) else
      if element =? 1 then v4_loop r a current c (element + 1) (-1) else
      if element =? 2 then v4_loop r a b current (element + 1) (-1) else None
    else if (3 <? element) || (ch <? 48) || (57 <? ch) then None
    else if current <? 0 then v4_loop r a b c element (ch - 48)
    else v4_loop r a b c element (i32 (current * 10 + ch - 48))
  end.
Definition ipv4_from_str (s : list Z) : option inet :=
  match v4_loop s 0 0 0 0 (-1) with
  | None => None
  | Some (a, b, c, element, current) =>
    if negb (element =? 3) || (current <? 0) || (255 <? current) then None else Some (v4inet a b c current)
  end.

(** ascii.c3:9 is_xdigit_m; inetaddr.c3:112 the value of the digit. *)
Definition is_xdigit (c : Z) : bool :=
  (let d := Z.lor c 32 - 97 in (0 <=? d) && (d <? 6)) || ((48 <=? c) && (c <=? 57)).
Definition xvalue (c : Z) : Z := if c <=? 57 then c - 48 else Z.lor c 32 - 97 + 10.

(** inetaddr.c3:81-113: the loop of ipv6_from_str. *)
Fixpoint v6_loop (zero_segment_len : Z) (s : list Z) (index : Z) (last_was_colon found_zero : bool) (current : Z) (arr : list Z)
  : Res (option (Z * Z * list Z)) :=
  match s with
  | [] => Ok (Some (index, current, arr))
  | c :: r =>
    if c =? 58 then
      if negb last_was_colon then
        if current =? -1 then v6_loop zero_segment_len r index true found_zero current arr
        else if (current <? 0) || (65535 <? current) then Ok None
        else arr <- set arr index current ;; v6_loop zero_segment_len r (index + 1) true found_zero (-1) arr
      else if negb (current =? -1) then Oob
      else if found_zero then Ok None
      else if zero_segment_len <? 2 then Ok None
      else v6_loop zero_segment_len r (index + zero_segment_len) false true current arr
    else if (7 <? index) || negb (is_xdigit c) then Ok None
    else v6_loop zero_segment_len r index false found_zero (i32 ((if current <? 0 then 0 else current) * 16 + xvalue c)) arr
  end.
(** inetaddr.c3:71-73. *)
Definition colons (s : list Z) : Z := zlen (filter (Z.eqb 58) s).
(** inetaddr.c3:69-121 ipv6_from_str. *)
Definition ipv6_from_str (s : list Z) : Res (option inet) :=
  if zlen s <? 2 then Ok None else
  let sections := colons s in
  first <- get s 0 ;; last <- get s (zlen s - 1) ;;
  let zero_segment_len := i32 (if (first =? 58) || (last =? 58) then 9 - sections else 8 - sections) in
  if (zero_segment_len =? 7) && (zlen s =? 2) then Ok (Some (Inet true (repeat 0 8))) else
  if 7 <? zero_segment_len then Ok None else
  r <- v6_loop zero_segment_len s 0 false false (-1) (repeat 0 8) ;;
  match r with
  | None => Ok None
  | Some (index, current, arr) =>
    if (index =? 8) && (current =? -1) then Ok (Some (Inet true arr)) else
    if negb (index =? 7) || (current <? 0) || (65535 <? current) then Ok None else
    arr <- set arr 7 current ;; Ok (Some (Inet true arr))
  end.

(** inetaddr.c3:48-57 to_format: "%04x" and "%d" of small numbers, written out (the formatter itself is the subject of C107). *)
Definition hexchar (d : Z) : Z := if d <? 10 then 48 + d else 87 + d.
Definition hex4 (v : Z) : list Z := [hexchar (v / 4096); hexchar (v / 256 mod 16); hexchar (v / 16 mod 16); hexchar (v mod 16)].
Definition dec3 (v : Z) : list Z :=
  if v <? 10 then [48 + v] else if v <? 100 then [48 + v / 10; 48 + v mod 10] else [48 + v / 100; 48 + v / 10 mod 10; 48 + v mod 10].
Definition to_string (x : inet) : list Z :=
  if is_ipv6 x then
    hex4 (group x 0) ++ 58 :: hex4 (group x 1) ++ 58 :: hex4 (group x 2) ++ 58 :: hex4 (group x 3) ++ 58 ::
    hex4 (group x 4) ++ 58 :: hex4 (group x 5) ++ 58 :: hex4 (group x 6) ++ 58 :: hex4 (group x 7)
  else dec3 (v4a x) ++ 46 :: dec3 (v4b x) ++ 46 :: dec3 (v4c x) ++ 46 :: dec3 (v4d x).

(** inetaddr.c3:158-253: the classes. *)
Definition is_loopback (x : inet) : bool := if is_ipv6 x then v6val x =? 1 else v4a x =? 127.
Definition is_any_local (x : inet) : bool := if is_ipv6 x then v6val x =? 0 else v4val x =? 0.
Definition is_link_local (x : inet) : bool :=
  if is_ipv6 x then (group x 0 =? 0xfa) && (Z.land (group x 1) 0xc0 =? 0x80) else (v4a x =? 169) && (v4b x =? 254).
Definition is_site_local (x : inet) : bool :=
  if is_ipv6 x then (group x 0 =? 0xfe) && (Z.land (group x 1) 0xc0 =? 0xc0)
  else (v4a x =? 10) || ((v4a x =? 172) && (Z.land (v4b x) 0xf0 =? 16)) || ((v4a x =? 192) && (v4b x =? 168)).
Definition is_multicast (x : inet) : bool := if is_ipv6 x then group x 0 =? 0xff else Z.land (v4val x) 0xf0000000 =? 0xe0000000.
Definition is_multicast_global (x : inet) : bool :=
  if is_ipv6 x then (group x 0 =? 0xff) && (Z.land (group x 1) 0x0f =? 0x0e)
  else (224 <=? v4a x) && (v4a x <=? 238) && negb ((v4a x =? 224) && (v4b x =? 0) && (v4c x =? 0)).
Definition is_multicast_node_local (x : inet) : bool :=
  if negb (is_ipv6 x) then false else (group x 0 =? 0xff) && (Z.land (group x 1) 0x0f =? 0x01).
Definition is_multicast_site_local (x : inet) : bool :=
  if is_ipv6 x then (group x 0 =? 0xff) && (Z.land (group x 1) 0x0f =? 0x05) else (v4a x =? 239) && (v4b x =? 255).
Definition is_multicast_org_local (x : inet) : bool :=
  if is_ipv6 x then (group x 0 =? 0xff) && (Z.land (group x 1) 0x0f =? 0x08) else (v4a x =? 239) && (192 <=? v4b x) && (v4b x <=? 195).
Definition is_multicast_link_local (x : inet) : bool :=
  if is_ipv6 x then (group x 0 =? 0xff) && (Z.land (group x 1) 0x0f =? 0x02) else (v4a x =? 224) && (v4b x =? 0) && (v4c x =? 0).
