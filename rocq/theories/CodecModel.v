(** Model of std::encoding::base64, std::encoding::base32 and std::encoding::hex
    (lib/std/encoding/base64.c3, base32.c3, hex.c3).

    A source slice is the list of its bytes.  A destination slice is a buffer (a list) and the offset [p] where
    the slice starts.  An index or a slice bound outside the slice, and a failing assert or @require, is [Oob].
    Simplifications: the allocator never fails; @inline, temp and allocating variants are the buffer variant on a
    buffer of the computed size. *)
From Coq Require Import String Ascii ZArith Bool List.
From Verif Require Import Mach.
Import ListNotations.
Open Scope Z_scope.

Definition usz (x : Z) : Z := x mod 2 ^ 64.
Definition byte (x : Z) : Z := x mod 256.
Definition u32 (x : Z) : Z := x mod 2 ^ 32.

(** [dst[i] = v] on the slice of [buf] that starts at [p]. *)
Definition put (buf : list Z) (p i v : Z) : Res (list Z) := if i <? 0 then Oob else set buf (p + i) v.
(** [dst = dst[n..]]: the new start. *)
Definition advance (buf : list Z) (p n : Z) : Res Z := if p + n <=? zlen buf then Ok (p + n) else Oob.
(** [src[n..]] and [src[:n]]. *)
Definition from (l : list Z) (n : Z) : Res (list Z) := if (0 <=? n) && (n <=? zlen l) then Ok (skipn (Z.to_nat n) l) else Oob.
Definition upto (l : list Z) (n : Z) : Res (list Z) := if (0 <=? n) && (n <=? zlen l) then Ok (firstn (Z.to_nat n) l) else Oob.

(** Faults of std::encoding (encoding.c3). *)
Inductive fault := InvalidPadding | InvalidCharacter.
Inductive opt (A : Type) := Val (a : A) | Fault (f : fault).
Arguments Val {A} a.
Arguments Fault {A} f.

(** A string literal as bytes. *)
Definition chars (s : string) : list Z := map (fun c => Z.of_N (N_of_ascii c)) (list_ascii_of_string s).
(** A hexadecimal byte literal x`...` (blanks dropped). *)
Definition hexdigit (c : Z) : option Z :=
  if (48 <=? c) && (c <=? 57) then Some (c - 48) else if (97 <=? c) && (c <=? 102) then Some (c - 87) else None.
Fixpoint hexpairs (l : list Z) : list Z := match l with a :: b :: r => 16 * a + b :: hexpairs r | _ => [] end.
Definition hexbytes (s : string) : list Z :=
  hexpairs (flat_map (fun c => match hexdigit c with Some d => [d] | None => [] end) (chars s)).

(** base64.c3:11-15, base32.c3:6-10 *)
Record alphabet := mkAlpha { encoding : list Z; reverse : list Z }.

(** * base64 *)
(** base64.c3:17-28 *)
Definition b64_standard : alphabet := Eval vm_compute in mkAlpha
  (chars "ABCDEFGHIJKLMNOPQRSTUVWXYZabcdefghijklmnopqrstuvwxyz0123456789+/")
  (hexbytes "ffffffffffffffffffffffffffffffffffffffffffffffffffffffffffffffff
	  ffffffffffffffffffffff3effffff3f3435363738393a3b3c3dffffffffffff
	  ff000102030405060708090a0b0c0d0e0f10111213141516171819ffffffffff
	  ff1a1b1c1d1e1f202122232425262728292a2b2c2d2e2f30313233ffffffffff
	  ffffffffffffffffffffffffffffffffffffffffffffffffffffffffffffffff
	  ffffffffffffffffffffffffffffffffffffffffffffffffffffffffffffffff
	  ffffffffffffffffffffffffffffffffffffffffffffffffffffffffffffffff
	  ffffffffffffffffffffffffffffffffffffffffffffffffffffffffffffffff").
(** base64.c3:30-41 *)
Definition b64_url : alphabet := Eval vm_compute in mkAlpha
  (chars "ABCDEFGHIJKLMNOPQRSTUVWXYZabcdefghijklmnopqrstuvwxyz0123456789-_")
  (hexbytes "ffffffffffffffffffffffffffffffffffffffffffffffffffffffffffffffff
	  ffffffffffffffffffffffffff3effff3435363738393a3b3c3dffffffffffff
	  ff000102030405060708090a0b0c0d0e0f10111213141516171819ffffffff3f
	  ff1a1b1c1d1e1f202122232425262728292a2b2c2d2e2f30313233ffffffffff
	  ffffffffffffffffffffffffffffffffffffffffffffffffffffffffffffffff
	  ffffffffffffffffffffffffffffffffffffffffffffffffffffffffffffffff
	  ffffffffffffffffffffffffffffffffffffffffffffffffffffffffffffffff
	  ffffffffffffffffffffffffffffffffffffffffffffffffffffffffffffffff").

(** base64.c3:69-74 *)
Definition b64_encode_len (n padding : Z) : Z :=
  if negb (padding =? 0) then usz (usz (n + 2) / 3 * 4)
  else let trailing := n mod 3 in usz (usz (n / 3 * 4) + usz (trailing * 4 + 2) / 3).
(** base64.c3:84-96 *)
Definition b64_decode_len (n padding : Z) : opt Z :=
  let dn := usz (n / 4 * 3) in
  let trailing := n mod 4 in
  if negb (padding =? 0) then (if negb (trailing =? 0) then Fault InvalidPadding else Val dn)
  else if trailing =? 1 then Fault InvalidPadding
  else Val (usz (dn + trailing * 3 / 4)).

(** base64.c3:115-124: the groups of three.  [uint] cannot overflow: a group has 24 bits. *)
Fixpoint b64_enc_loop (fuel : nat) (al : alphabet) (src3 buf : list Z) (p : Z) : Res (list Z * Z) :=
  match fuel with
  | O => Fuel
  | S f =>
    if 0 <? zlen src3 then
      s0 <- get src3 0 ;; s1 <- get src3 1 ;; s2 <- get src3 2 ;;
      let group := Z.lor (Z.lor (Z.shiftl s0 16) (Z.shiftl s1 8)) s2 in
      e0 <- get (encoding al) (Z.land (Z.shiftr group 18) 63) ;; buf <- put buf p 0 e0 ;;
      e1 <- get (encoding al) (Z.land (Z.shiftr group 12) 63) ;; buf <- put buf p 1 e1 ;;
      e2 <- get (encoding al) (Z.land (Z.shiftr group 6) 63) ;; buf <- put buf p 2 e2 ;;
      e3 <- get (encoding al) (Z.land group 63) ;; buf <- put buf p 3 e3 ;;
      p <- advance buf p 4 ;;
      src3 <- from src3 3 ;;
      b64_enc_loop f al src3 buf p
    else Ok (buf, p)
  end.

(** base64.c3:107-156.  Gives the returned slice and the whole buffer. *)
Definition b64_encode_buffer (src dst : list Z) (padding : Z) (al : alphabet) : Res (list Z * list Z) :=
  if zlen src =? 0 then Ok ([], dst)
  else
    let dn := b64_encode_len (zlen src) padding in
    if zlen dst <? dn then Oob
    else
      let trailing := zlen src mod 3 in
      src3 <- upto src (zlen src - trailing) ;;
      '(buf, p) <- b64_enc_loop (S (length src)) al src3 dst 0 ;;
      buf <- (if trailing =? 1 then
                s1 <- get src (zlen src - 1) ;;
                let group := Z.shiftl s1 16 in
                e0 <- get (encoding al) (Z.land (Z.shiftr group 18) 63) ;; buf <- put buf p 0 e0 ;;
                e1 <- get (encoding al) (Z.land (Z.shiftr group 12) 63) ;; buf <- put buf p 1 e1 ;;
                if 0 <? padding then (buf <- put buf p 2 padding ;; put buf p 3 padding) else Ok buf
              else if trailing =? 2 then
                s2 <- get src (zlen src - 2) ;; s1 <- get src (zlen src - 1) ;;
                let group := Z.lor (Z.shiftl s2 16) (Z.shiftl s1 8) in
                e0 <- get (encoding al) (Z.land (Z.shiftr group 18) 63) ;; buf <- put buf p 0 e0 ;;
                e1 <- get (encoding al) (Z.land (Z.shiftr group 12) 63) ;; buf <- put buf p 1 e1 ;;
                e2 <- get (encoding al) (Z.land (Z.shiftr group 6) 63) ;; buf <- put buf p 2 e2 ;;
                if 0 <? padding then put buf p 3 padding else Ok buf
              else Ok buf) ;;
      r <- upto buf dn ;;
      Ok (r, buf).

(** base64.c3:188-208: the groups of four. *)
Fixpoint b64_dec_loop (fuel : nat) (al : alphabet) (src4 buf : list Z) (p : Z) : Res (opt Z * list Z) :=
  match fuel with
  | O => Fuel
  | S f =>
    if 0 <? zlen src4 then
      s0 <- get src4 0 ;; c0 <- get (reverse al) s0 ;;
      s1 <- get src4 1 ;; c1 <- get (reverse al) s1 ;;
      s2 <- get src4 2 ;; c2 <- get (reverse al) s2 ;;
      s3 <- get src4 3 ;; c3 <- get (reverse al) s3 ;;
      if (255 =? c0) || (255 =? c1) || (255 =? c2) || (255 =? c3) then Ok (Fault InvalidCharacter, buf)
      else
        let group := Z.lor (Z.lor (Z.lor (Z.shiftl c0 18) (Z.shiftl c1 12)) (Z.shiftl c2 6)) c3 in
        buf <- put buf p 0 (byte (Z.shiftr group 16)) ;;
        buf <- put buf p 1 (byte (Z.shiftr group 8)) ;;
        buf <- put buf p 2 (byte group) ;;
        p <- advance buf p 3 ;;
        src4 <- from src4 4 ;;
        b64_dec_loop f al src4 buf p
    else Ok (Val p, buf)
  end.

(** [return dst_ptr[:dn]] *)
Definition ret_dst (buf : list Z) (dn : Z) : Res (opt (list Z) * list Z) := r <- upto buf dn ;; Ok (Val r, buf).

(** base64.c3:210-253: the last, incomplete or padded group. *)
Definition b64_dec_tail (src buf : list Z) (p dn trailing padding : Z) (al : alphabet) : Res (opt (list Z) * list Z) :=
  if trailing =? 0 then ret_dst buf dn
  else
    src <- from src (zlen src - trailing) ;;
    s0 <- get src 0 ;; c0 <- get (reverse al) s0 ;;
    s1 <- get src 1 ;; c1 <- get (reverse al) s1 ;;
    if (c0 =? 255) || (c1 =? 255) then Ok (Fault InvalidPadding, buf)
    else if padding =? 0 then
      if zlen src =? 2 then
        let group := Z.lor (Z.shiftl c0 18) (Z.shiftl c1 12) in
        buf <- put buf p 0 (byte (Z.shiftr group 16)) ;;
        ret_dst buf dn
      else if zlen src =? 3 then
        s2 <- get src 2 ;; c2 <- get (reverse al) s2 ;;
        if c2 =? 255 then Ok (Fault InvalidCharacter, buf)
        else
          let group := Z.lor (Z.lor (Z.shiftl c0 18) (Z.shiftl c1 12)) (Z.shiftl c2 6) in
          buf <- put buf p 0 (byte (Z.shiftr group 16)) ;;
          buf <- put buf p 1 (byte (Z.shiftr group 8)) ;;
          ret_dst buf dn
      else ret_dst buf dn
    else
      s2 <- get src 2 ;;
      if padding =? s2 then
        s3 <- get src 3 ;;
        if negb (s3 =? padding) then Ok (Fault InvalidPadding, buf)
        else
          let group := Z.lor (Z.shiftl c0 18) (Z.shiftl c1 12) in
          buf <- put buf p 0 (byte (Z.shiftr group 16)) ;;
          ret_dst buf (usz (dn - 2))
      else
        s3 <- get src 3 ;;
        if padding =? s3 then
          c2 <- get (reverse al) s2 ;;
          if c2 =? 255 then Ok (Fault InvalidCharacter, buf)
          else
            let group := Z.lor (Z.lor (Z.shiftl c0 18) (Z.shiftl c1 12)) (Z.shiftl c2 6) in
            buf <- put buf p 0 (byte (Z.shiftr group 16)) ;;
            buf <- put buf p 1 (byte (Z.shiftr group 8)) ;;
            ret_dst buf (usz (dn - 1))
        else ret_dst buf dn.

(** base64.c3:169-254.  Gives the result and the whole buffer. *)
Definition b64_decode_buffer (src dst : list Z) (padding : Z) (al : alphabet) : Res (opt (list Z) * list Z) :=
  if zlen src =? 0 then Ok (Val [], dst)
  else
    match b64_decode_len (zlen src) padding with
    | Fault f => Ok (Fault f, dst)
    | Val dn =>
      if zlen dst <? dn then Oob
      else
        let trailing := zlen src mod 4 in
        '(src4, trailing) <- (if padding =? 0 then (s <- upto src (zlen src - trailing) ;; Ok (s, trailing))
                             else (l <- get src (zlen src - 1) ;;
                                   if l =? padding then (s <- upto src (zlen src - 4) ;; Ok (s, 4)) else Ok (src, 4))) ;;
        '(r, buf) <- b64_dec_loop (S (length src)) al src4 dst 0 ;;
        match r with
        | Fault f => Ok (Fault f, buf)
        | Val p => b64_dec_tail src buf p dn trailing padding al
        end
    end.

(** * base32 *)
(** base32.c3:237-247 *)
Definition b32_standard : alphabet := Eval vm_compute in mkAlpha
  (chars "ABCDEFGHIJKLMNOPQRSTUVWXYZ234567")
  (hexbytes "ffffffffffffffffffffffffffffffffffffffffffffffffffffffffffffffff
                 ffffffffffffffffffffffffffffffffffff1a1b1c1d1e1fffffffffffffffff
                 ff000102030405060708090a0b0c0d0e0f10111213141516171819ffffffffff
                 ffffffffffffffffffffffffffffffffffffffffffffffffffffffffffffffff
                 ffffffffffffffffffffffffffffffffffffffffffffffffffffffffffffffff
                 ffffffffffffffffffffffffffffffffffffffffffffffffffffffffffffffff
                 ffffffffffffffffffffffffffffffffffffffffffffffffffffffffffffffff
                 ffffffffffffffffffffffffffffffffffffffffffffffffffffffffffffffff").
(** base32.c3:249-259 *)
Definition b32_hex : alphabet := Eval vm_compute in mkAlpha
  (chars "0123456789ABCDEFGHIJKLMNOPQRSTUV")
  (hexbytes "ffffffffffffffffffffffffffffffffffffffffffffffffffffffffffffffff
                 ffffffffffffffffffffffffffffffff00010203040506070809ffffffffffff
                 ff0a0b0c0d0e0f101112131415161718191a1b1c1d1e1fffffffffffffffffff
                 ffffffffffffffffffffffffffffffffffffffffffffffffffffffffffffffff
                 ffffffffffffffffffffffffffffffffffffffffffffffffffffffffffffffff
                 ffffffffffffffffffffffffffffffffffffffffffffffffffffffffffffffff
                 ffffffffffffffffffffffffffffffffffffffffffffffffffffffffffffffff
                 ffffffffffffffffffffffffffffffffffffffffffffffffffffffffffffffff").

(** base32.c3:55-61 *)
Definition b32_decode_len (n padding : Z) : Z :=
  if negb (padding =? 0) then usz (n / 8 * 5)
  else let trailing := n mod 8 in usz (usz (n / 8 * 5) + trailing * 5 / 8).
(** base32.c3:70-78 *)
Definition b32_encode_len (n padding : Z) : Z :=
  if negb (padding =? 0) then usz (usz (n + 4) / 5 * 8)
  else let trailing := n mod 5 in usz (usz (n / 5 * 8) + (trailing * 8 + 4) / 5).

(** base32.c3:101-111: [k] iterations of the loading loop are left, [i = 8 - k]. *)
Fixpoint b32_load (k : nat) (al : alphabet) (padding : Z) (src buf : list Z) : Res (opt (Z * list Z * list Z)) :=
  let i := 8 - Z.of_nat k in
  match k with
  | O => Ok (Val (i, src, buf))
  | S k' =>
    if zlen src =? 0 then (if 0 <? padding then Ok (Fault InvalidPadding) else Ok (Val (i, src, buf)))
    else
      s <- get src 0 ;;
      if s =? padding then Ok (Val (i, src, buf))
      else
        v <- get (reverse al) s ;;
        buf <- set buf i v ;;
        if v =? 255 then Ok (Fault InvalidCharacter)
        else (src <- from src 1 ;; b32_load k' al padding src buf)
  end.

(** base32.c3:114-151: the switch on the number of characters loaded; [None] for the default case.
    A value stored in a [char] is truncated. *)
Definition b32_store (buf dst : list Z) (p n i : Z) : Res (option (list Z * Z)) :=
  let c2 dst n := b0 <- get buf 0 ;; b1 <- get buf 1 ;;
                  dst <- put dst p 0 (byte (Z.lor (Z.shiftr b1 2) (Z.shiftl b0 3))) ;; Ok (Some (dst, usz (n + 1))) in
  let c4 dst n := b1 <- get buf 1 ;; b2 <- get buf 2 ;; b3 <- get buf 3 ;;
                  dst <- put dst p 1 (byte (Z.lor (Z.lor (Z.shiftr b3 4) (Z.shiftl b2 1)) (Z.shiftl b1 6))) ;; c2 dst (usz (n + 1)) in
  let c5 dst n := b3 <- get buf 3 ;; b4 <- get buf 4 ;;
                  dst <- put dst p 2 (byte (Z.lor (Z.shiftr b4 1) (Z.shiftl b3 4))) ;; c4 dst (usz (n + 1)) in
  let c7 dst n := b4 <- get buf 4 ;; b5 <- get buf 5 ;; b6 <- get buf 6 ;;
                  dst <- put dst p 3 (byte (Z.lor (Z.lor (Z.shiftr b6 3) (Z.shiftl b5 2)) (Z.shiftl b4 7))) ;; c5 dst (usz (n + 1)) in
  let c8 dst n := b6 <- get buf 6 ;; b7 <- get buf 7 ;;
                  dst <- put dst p 4 (byte (Z.lor b7 (Z.shiftl b6 5))) ;; c7 dst (usz (n + 1)) in
  if i =? 8 then c8 dst n else if i =? 7 then c7 dst n else if i =? 5 then c5 dst n
  else if i =? 4 then c4 dst n else if i =? 2 then c2 dst n else Ok None.

(** base32.c3:97-155 *)
Fixpoint b32_dec_loop (fuel : nat) (al : alphabet) (padding : Z) (src buf dst : list Z) (p n : Z) : Res (opt Z * list Z) :=
  match fuel with
  | O => Fuel
  | S f =>
    if (0 <? zlen src) && (0 <? zlen dst - p) then
      r <- b32_load 8 al padding src buf ;;
      match r with
      | Fault x => Ok (Fault x, dst)
      | Val (i, src, buf) =>
        s <- b32_store buf dst p n i ;;
        match s with
        | None => Ok (Fault InvalidCharacter, dst)
        | Some (dst, n) =>
          if zlen dst - p <? 5 then Ok (Val n, dst)
          else (p <- advance dst p 5 ;; b32_dec_loop f al padding src buf dst p n)
        end
      end
    else Ok (Val n, dst)
  end.

(** base32.c3:90-157, with its @require. *)
Definition b32_decode_buffer (src dst : list Z) (padding : Z) (al : alphabet) : Res (opt (list Z) * list Z) :=
  if zlen dst <? b32_decode_len (zlen src) padding then Oob
  else if zlen src =? 0 then Ok (Val [], dst)
  else
    '(r, dst) <- b32_dec_loop (S (length src)) al padding src (repeat 0 8) dst 0 0 ;;
    match r with
    | Fault f => Ok (Fault f, dst)
    | Val n => ret_dst dst n
    end.

(** base32.c3:178-198: [i] is a multiple of 5 below [n]. *)
Fixpoint b32_enc_loop (fuel : nat) (al : alphabet) (src : list Z) (i n : Z) (dst : list Z) (p : Z) : Res (list Z * Z) :=
  match fuel with
  | O => Fuel
  | S f =>
    if i <? n then
      s0 <- get src i ;; s1 <- get src (i + 1) ;; s2 <- get src (i + 2) ;; s3 <- get src (i + 3) ;; s4 <- get src (i + 4) ;;
      let msb := Z.lor (Z.lor (Z.lor (u32 (Z.shiftl s0 24)) (u32 (Z.shiftl s1 16))) (u32 (Z.shiftl s2 8))) s3 in
      let lsb := Z.lor (u32 (Z.shiftl msb 8)) s4 in
      e0 <- get (encoding al) (Z.land (Z.shiftr msb 27) 31) ;; dst <- put dst p 0 e0 ;;
      e1 <- get (encoding al) (Z.land (Z.shiftr msb 22) 31) ;; dst <- put dst p 1 e1 ;;
      e2 <- get (encoding al) (Z.land (Z.shiftr msb 17) 31) ;; dst <- put dst p 2 e2 ;;
      e3 <- get (encoding al) (Z.land (Z.shiftr msb 12) 31) ;; dst <- put dst p 3 e3 ;;
      e4 <- get (encoding al) (Z.land (Z.shiftr msb 7) 31) ;; dst <- put dst p 4 e4 ;;
      e5 <- get (encoding al) (Z.land (Z.shiftr msb 2) 31) ;; dst <- put dst p 5 e5 ;;
      e6 <- get (encoding al) (Z.land (Z.shiftr lsb 5) 31) ;; dst <- put dst p 6 e6 ;;
      e7 <- get (encoding al) (Z.land lsb 31) ;; dst <- put dst p 7 e7 ;;
      p <- advance dst p 8 ;;
      b32_enc_loop f al src (i + 5) n dst p
    else Ok (dst, p)
  end.

(** base32.c3:205-224: the fallthrough switch on the 1 to 4 trailing bytes. *)
Definition b32_enc_tail (al : alphabet) (src : list Z) (n : Z) (dst : list Z) (p trailing : Z) : Res (list Z) :=
  let c1 msb dst := s0 <- get src n ;; let msb := Z.lor msb (u32 (Z.shiftl s0 24)) in
                    e1 <- get (encoding al) (Z.land (Z.shiftr msb 22) 31) ;; dst <- put dst p 1 e1 ;;
                    e0 <- get (encoding al) (Z.land (Z.shiftr msb 27) 31) ;; put dst p 0 e0 in
  let c2 msb dst := s1 <- get src (n + 1) ;; let msb := Z.lor msb (u32 (Z.shiftl s1 16)) in
                    e3 <- get (encoding al) (Z.land (Z.shiftr msb 12) 31) ;; dst <- put dst p 3 e3 ;;
                    e2 <- get (encoding al) (Z.land (Z.shiftr msb 17) 31) ;; dst <- put dst p 2 e2 ;; c1 msb dst in
  let c3 msb dst := s2 <- get src (n + 2) ;; let msb := Z.lor msb (u32 (Z.shiftl s2 8)) in
                    e4 <- get (encoding al) (Z.land (Z.shiftr msb 7) 31) ;; dst <- put dst p 4 e4 ;; c2 msb dst in
  let c4 msb dst := s3 <- get src (n + 3) ;; let msb := Z.lor msb s3 in
                    let lsb := u32 (Z.shiftl msb 8) in
                    e6 <- get (encoding al) (Z.land (Z.shiftr lsb 5) 31) ;; dst <- put dst p 6 e6 ;;
                    e5 <- get (encoding al) (Z.land (Z.shiftr msb 2) 31) ;; dst <- put dst p 5 e5 ;; c3 msb dst in
  if trailing =? 4 then c4 0 dst else if trailing =? 3 then c3 0 dst else if trailing =? 2 then c2 0 dst
  else if trailing =? 1 then c1 0 dst else Ok dst.

(** base32.c3:228-231: [k] iterations left, [i = 8 - k]. *)
Fixpoint b32_pad (k : nat) (dst : list Z) (p padding : Z) : Res (list Z) :=
  match k with
  | O => Ok dst
  | S k' => dst <- put dst p (8 - Z.of_nat k) padding ;; b32_pad k' dst p padding
  end.

(** base32.c3:168-234, with its @require. *)
Definition b32_encode_buffer (src dst : list Z) (padding : Z) (al : alphabet) : Res (list Z * list Z) :=
  if zlen dst <? b32_encode_len (zlen src) padding then Oob
  else if zlen src =? 0 then Ok ([], dst)
  else
    let n := usz (zlen src / 5 * 5) in
    let dn := b32_encode_len (zlen src) padding in
    '(dst, p) <- b32_enc_loop (S (length src)) al src 0 n dst 0 ;;
    let trailing := usz (zlen src - n) in
    if trailing =? 0 then (r <- upto dst dn ;; Ok (r, dst))
    else
      dst <- b32_enc_tail al src n dst p trailing ;;
      dst <- (if 0 <? padding then b32_pad (Z.to_nat (8 - (trailing * 8 / 5 + 1))) dst p padding else Ok dst) ;;
      r <- upto dst dn ;;
      Ok (r, dst).

(** * hex *)
(** hex.c3:92 *)
Definition hex_alphabet : list Z := Eval vm_compute in chars "0123456789abcdef".
(** hex.c3:93-109 *)
Definition hex_reverse : list Z := Eval vm_compute in hexbytes "ffffffffffffffffffffffffffffffff
  ffffffffffffffffffffffffffffffff
  ffffffffffffffffffffffffffffffff
  00010203040506070809ffffffffffff
  ff0a0b0c0d0e0fffffffffffffffffff
  ffffffffffffffffffffffffffffffff
  ff0a0b0c0d0e0fffffffffffffffffff
  ffffffffffffffffffffffffffffffff
  ffffffffffffffffffffffffffffffff
  ffffffffffffffffffffffffffffffff
  ffffffffffffffffffffffffffffffff
  ffffffffffffffffffffffffffffffff
  ffffffffffffffffffffffffffffffff
  ffffffffffffffffffffffffffffffff
  ffffffffffffffffffffffffffffffff
  ffffffffffffffffffffffffffffffff".
(** hex.c3:40 *)
Definition hex_encode_len (n : Z) : Z := usz (n * 2).
(** hex.c3:52-57: the loop; [j] is the position in [dst]. *)
Fixpoint hex_enc_loop (src dst : list Z) (j : Z) : Res (list Z) :=
  match src with
  | [] => Ok dst
  | v :: r =>
    a <- get hex_alphabet (Z.shiftr v 4) ;; dst <- set dst j a ;;
    b <- get hex_alphabet (Z.land v 15) ;; dst <- set dst (j + 1) b ;;
    hex_enc_loop r dst (j + 2)
  end.
(** hex.c3:49-59, 8-11, with its @require: the returned slice and the whole buffer. *)
Definition hex_encode_buffer (src dst : list Z) : Res (list Z * list Z) :=
  if zlen dst <? hex_encode_len (zlen src) then Oob
  else (buf <- hex_enc_loop src dst 0 ;; r <- upto buf (usz (zlen src * 2)) ;; Ok (r, buf)).
(** hex.c3:82-89 *)
Fixpoint hex_dec_loop (fuel : nat) (src dst : list Z) (j i : Z) : Res (opt Z * list Z) :=
  match fuel with
  | O => Fuel
  | S f =>
    if j <? zlen src then
      s0 <- get src (j - 1) ;; a <- get hex_reverse s0 ;;
      s1 <- get src j ;; b <- get hex_reverse s1 ;;
      if (15 <? a) || (15 <? b) then Ok (Fault InvalidCharacter, dst)
      else
        dst <- set dst i (byte (Z.lor (Z.shiftl a 4) b)) ;;
        hex_dec_loop f src dst (j + 2) (i + 1)
    else Ok (Val i, dst)
  end.
(** hex.c3:13-16, 79-90, with its @require. *)
Definition hex_decode_buffer (src dst : list Z) : Res (opt (list Z) * list Z) :=
  if negb (zlen src mod 2 =? 0) || (zlen dst <? zlen src / 2) then Oob
  else
    '(r, buf) <- hex_dec_loop (S (length src)) src dst 1 0 ;;
    match r with
    | Fault f => Ok (Fault f, buf)
    | Val n => ret_dst buf n
    end.
