(** Percent-encoding of URL components: lib/std/net/url_encoding.c3, with the character classes of lib/std/ascii.c3.
    A string is a list of bytes; the [DString] used as a builder is a list that grows at its end. *)
From Coq Require Import String.
From Coq Require Import ZArith Bool List.
From Verif Require Import Mach CodecModel.
Import ListNotations.
Open Scope Z_scope.

(** url_encoding.c3:8-16 *)
Inductive mode := UNRESERVED | PATH | HOST | USERPASS | QUERY | FRAGMENT.
Definition allowed (m : mode) : list Z := Eval vm_compute in
  match m with
  | UNRESERVED => chars "-_.~"
  | PATH => chars "$&+,/:;=@"
  | HOST => chars "!$&'()*+,;=:[]"
  | USERPASS => chars ";:&=+$,"
  | QUERY => chars ""
  | FRAGMENT => chars "$&+,/:;=?@!()*"
  end.
Definition is_query (m : mode) : bool := match m with QUERY => true | _ => false end.
(** ascii.c3:3-14 and 18-19: [c] is a [char], so [c - start] is computed as an [int]. *)
Definition in_range (c start len : Z) : bool := u32 (c - start) <? len.
Definition is_digit (c : Z) : bool := in_range c 48 10.
Definition is_xdigit (c : Z) : bool := in_range (Z.lor c 32) 97 6 || is_digit c.
Definition is_alpha (c : Z) : bool := in_range (Z.lor c 32) 97 26.
Definition is_alnum (c : Z) : bool := is_alpha c || is_digit c.
Definition to_upper (c : Z) : Z := if in_range c 97 26 then c - 32 else c.
(** lib/std/core/string.c3:351-358: whether [index_of_char] finds the character. *)
Fixpoint has_char (l : list Z) (c : Z) : bool := match l with [] => false | x :: r => if x =? c then true else has_char r c end.
(** url_encoding.c3:26-39 *)
Definition should_encode (c : Z) (m : mode) : bool :=
  if is_alnum c then false
  else if has_char (allowed UNRESERVED) c then false
  else if has_char (allowed m) c then false
  else true.
(** url_encoding.c3:44-56 *)
Fixpoint enc_count (s : list Z) (m : mode) (n : Z) : Z :=
  match s with
  | [] => n
  | c :: r => if negb (should_encode c m) then enc_count r m n
              else if negb (c =? 32) || negb (is_query m) then enc_count r m (usz (n + 1)) else enc_count r m n
  end.
Definition url_encode_len (s : list Z) (m : mode) : Z := usz (zlen s + usz (2 * enc_count s m 0)).
(** url_encoding.c3:73-90: [hex::tencode] allocates a buffer of the right size. *)
Fixpoint url_enc_loop (s : list Z) (m : mode) (out : list Z) : Res (list Z) :=
  match s with
  | [] => Ok out
  | c :: r =>
    if (c =? 32) && is_query m then url_enc_loop r m (out ++ [43])
    else if should_encode c m then
      '(h, _) <- hex_encode_buffer [c] (repeat 0 (Z.to_nat (hex_encode_len 1))) ;;
      url_enc_loop r m ((out ++ [37]) ++ map to_upper h)
    else url_enc_loop r m (out ++ [c])
  end.
(** url_encoding.c3:68-93 *)
Definition url_encode (s : list Z) (m : mode) : Res (list Z) := url_enc_loop s m [].

(** url_encoding.c3:110-123: [None] for INVALID_HEX; [s] is the whole string, [i] the current index. *)
Fixpoint dec_count (fuel : nat) (s : list Z) (i n : Z) : Res (option Z) :=
  match fuel with
  | O => Fuel
  | S f =>
    if i <? zlen s then
      c <- get s i ;;
      if negb (c =? 37) then dec_count f s (i + 1) n
      else if zlen s <=? usz (i + 2) then Ok None
      else
        a <- get s (i + 1) ;;
        if negb (is_xdigit a) then Ok None
        else (b <- get s (i + 2) ;; if negb (is_xdigit b) then Ok None else dec_count f s (i + 1) (usz (n + 1)))
    else Ok (Some n)
  end.
Definition url_decode_len (s : list Z) (m : mode) : Res (option Z) :=
  r <- dec_count (S (length s)) s 0 0 ;;
  match r with None => Ok None | Some n => Ok (Some (usz (zlen s - usz (2 * n)))) end.
(** url_encoding.c3:139-158: [None] for a fault ([hex::tdecode] rejects the digits). *)
Fixpoint url_dec_loop (fuel : nat) (s : list Z) (m : mode) (i : Z) (out : list Z) : Res (option (list Z)) :=
  match fuel with
  | O => Fuel
  | S f =>
    if i <? zlen s then
      c <- get s i ;;
      if c =? 37 then
        r <- from s (i + 1) ;; r <- upto r 2 ;;
        '(h, _) <- hex_decode_buffer r (repeat 0 1) ;;
        match h with
        | Fault _ => Ok None
        | Val h => url_dec_loop f s m (i + 2 + 1) (out ++ h)
        end
      else if c =? 43 then url_dec_loop f s m (i + 1) (out ++ [if is_query m then 32 else 43])
      else url_dec_loop f s m (i + 1) (out ++ [c])
    else Ok (Some out)
  end.
(** url_encoding.c3:134-161 *)
Definition url_decode (s : list Z) (m : mode) : Res (option (list Z)) :=
  r <- url_decode_len s m ;;
  match r with
  | None => Ok None
  | Some _ => url_dec_loop (S (length s)) s m 0 []
  end.
