(** UTF-8, UTF-16 and UTF-32: lib/std/core/conv.c3 and the conversions of lib/std/core/string.c3.
    A buffer is a list and a pointer into it an index; writing several units one after the other is one [store],
    which is [Oob] when one of the writes would be. *)
From Coq Require Import ZArith Bool List.
From Verif Require Import Mach CodecModel.
Import ListNotations.
Open Scope Z_scope.

Definition u16 (x : Z) : Z := x mod 2 ^ 16.
Definition store (buf : list Z) (p : Z) (xs : list Z) : Res (list Z) :=
  if (0 <=? p) && (p + zlen xs <=? zlen buf) then Ok (firstn (Z.to_nat p) buf ++ xs ++ skipn (Z.to_nat p + length xs) buf) else Oob.

(** conv.c3:22-44 and 108-127: the bytes written for a code point of one, two, three and four bytes. *)
Definition seq1 (c : Z) : list Z := [byte c].
Definition seq2 (c : Z) : list Z := [byte (Z.lor 192 (Z.shiftr c 6)); byte (Z.lor 128 (Z.land c 63))].
Definition seq3 (c : Z) : list Z := [byte (Z.lor 224 (Z.shiftr c 12)); byte (Z.lor 128 (Z.land (Z.shiftr c 6) 63)); byte (Z.lor 128 (Z.land c 63))].
Definition seq4 (c : Z) : list Z :=
  [byte (Z.lor 240 (Z.shiftr c 18)); byte (Z.lor 128 (Z.land (Z.shiftr c 12) 63)); byte (Z.lor 128 (Z.land (Z.shiftr c 6) 63)); byte (Z.lor 128 (Z.land c 63))].
(** conv.c3:17-48: [None] for CONVERSION_FAILED; the slice [output] is [buf] from [p] on. *)
Definition char32_to_utf8 (c : Z) (buf : list Z) (p : Z) : Res (option (Z * list Z)) :=
  let len := zlen buf - p in
  let out xs := buf <- store buf p xs ;; Ok (Some (zlen xs, buf)) in
  if len =? 0 then Ok None
  else if c <=? 127 then out (seq1 c)
  else if c <=? 2047 then (if len <? 2 then Ok None else out (seq2 c))
  else if c <=? 65535 then (if len <? 3 then Ok None else out (seq3 c))
  else if c <=? 1114111 then (if len <? 4 then Ok None else out (seq4 c))
  else Ok None.
(** conv.c3:105-128: the new buffer and pointer. *)
Definition char32_to_utf8_unsafe (c : Z) (buf : list Z) (p : Z) : Res (list Z * Z) :=
  let out xs := buf <- store buf p xs ;; Ok (buf, p + zlen xs) in
  if c <=? 127 then out (seq1 c) else if c <=? 2047 then out (seq2 c) else if c <=? 65535 then out (seq3 c) else out (seq4 c).
(** conv.c3:56-69 *)
Definition char32_to_utf16_unsafe (c : Z) (buf : list Z) (p : Z) : Res (list Z * Z) :=
  let out xs := buf <- store buf p xs ;; Ok (buf, p + zlen xs) in
  if c <? 65536 then out [u16 c]
  else
    let c := u32 (c - 65536) in
    let low := u16 (Z.lor 56320 (Z.land c 1023)) in
    let high := u16 (Z.lor 55296 (Z.land (Z.shiftr c 10) 1023)) in
    out [high; low].
(** conv.c3:78-104: [None] for INVALID_UTF16, else the number of units used, the buffer and the pointer;
    [units] is read from [i] on, [available] units at most. *)
Definition char16_to_utf8_unsafe (units : list Z) (i available : Z) (buf : list Z) (p : Z) : Res (option (Z * list Z * Z)) :=
  high <- get units i ;;
  if negb (Z.land high 63488 =? 55296) then ('(buf, p) <- char32_to_utf8_unsafe high buf p ;; Ok (Some (1, buf, p)))
  else if negb (Z.land high 64512 =? 55296) then Ok None
  else if available =? 1 then Ok None
  else
    low <- get units (i + 1) ;;
    if negb (Z.land low 64512 =? 56320) then Ok None
    else
      let uc := u32 (Z.lor (Z.shiftl (Z.land high 1023) 10) (Z.land low 1023) + 65536) in
      '(buf, p) <- char32_to_utf8_unsafe uc buf p ;; Ok (Some (2, buf, p)).
(** conv.c3:135-186: [None] for INVALID_UTF8, else the code point and the number of bytes used. *)
Definition is_cont (c : Z) : bool := Z.land c 192 =? 128.
Definition utf8_to_char32 (s : list Z) (i max_size : Z) : Res (option (Z * Z)) :=
  if max_size <? 1 then Ok None
  else
    c <- get s i ;;
    if Z.land c 128 =? 0 then Ok (Some (c, 1))
    else if Z.land c 224 =? 192 then
      if max_size <? 2 then Ok None
      else
        let uc := Z.shiftl (Z.land c 31) 6 in
        c <- get s (i + 1) ;;
        if (uc =? 0) || negb (is_cont c) then Ok None else Ok (Some (uc + Z.land c 63, 2))
    else if Z.land c 240 =? 224 then
      if max_size <? 3 then Ok None
      else
        let uc := Z.shiftl (Z.land c 15) 12 in
        c <- get s (i + 1) ;;
        if negb (is_cont c) then Ok None
        else
          let uc := uc + Z.shiftl (Z.land c 63) 6 in
          c <- get s (i + 2) ;;
          if (uc =? 0) || negb (is_cont c) then Ok None else Ok (Some (uc + Z.land c 63, 3))
    else if max_size <? 4 then Ok None
    else if negb (Z.land c 248 =? 240) then Ok None
    else
      let uc := Z.shiftl (Z.land c 7) 18 in
      c <- get s (i + 1) ;;
      if negb (is_cont c) then Ok None
      else
        let uc := uc + Z.shiftl (Z.land c 63) 12 in
        c <- get s (i + 2) ;;
        if negb (is_cont c) then Ok None
        else
          let uc := uc + Z.shiftl (Z.land c 63) 6 in
          c <- get s (i + 3) ;;
          if (uc =? 0) || negb (is_cont c) then Ok None else Ok (Some (uc + Z.land c 63, 4)).
(** conv.c3:192-200 (and string.c3:676-684) *)
Fixpoint utf8_codepoints (s : list Z) (len : Z) : Z :=
  match s with [] => len | c :: r => utf8_codepoints r (if negb (is_cont c) then usz (len + 1) else len) end.
(** conv.c3:207-225 *)
Fixpoint utf8len_for_utf32 (us : list Z) (len : Z) : Z :=
  match us with
  | [] => len
  | uc :: r => utf8len_for_utf32 r (usz (len + (if uc <=? 127 then 1 else if uc <=? 2047 then 2 else if uc <=? 65535 then 3 else 4)))
  end.
(** conv.c3:232-257 *)
Fixpoint utf8len_for_utf16 (us : list Z) (len : Z) : Z :=
  match us with
  | [] => len
  | c :: r => utf8len_for_utf16 r (usz (len + (if negb (Z.land c 63488 =? 55296) then (if c <=? 127 then 1 else if c <=? 2047 then 2 else 3) else 4)))
  end.
(** conv.c3:264-282: [i] jumps over the rest of a sequence, possibly past the end. *)
Fixpoint utf16len_for_utf8 (fuel : nat) (s : list Z) (i len16 : Z) : Res Z :=
  match fuel with
  | O => Fuel
  | S f =>
    if i <? zlen s then
      let len16 := usz (len16 + 1) in
      c <- get s i ;;
      if Z.land c 128 =? 0 then utf16len_for_utf8 f s (usz (i + 1)) len16
      else if Z.land c 224 =? 192 then utf16len_for_utf8 f s (usz (i + 2)) len16
      else if Z.land c 240 =? 224 then utf16len_for_utf8 f s (usz (i + 3)) len16
      else utf16len_for_utf8 f s (usz (i + 4)) (usz (len16 + 1))
    else Ok len16
  end.
(** conv.c3:288-296 *)
Fixpoint utf16len_count (us : list Z) (len : Z) : Z :=
  match us with [] => len | uc :: r => utf16len_count r (if 65536 <=? uc then usz (len + 1) else len) end.
Definition utf16len_for_utf32 (us : list Z) : Z := utf16len_count us (zlen us).
(** conv.c3:305-316: [None] for a fault; else the number of bytes written. *)
Fixpoint utf32to8_loop (us : list Z) (buf : list Z) (p : Z) : Res (option Z * list Z) :=
  match us with
  | [] => if p <? zlen buf then (buf <- set buf p 0 ;; Ok (Some p, buf)) else Ok (Some p, buf)
  | uc :: r =>
    x <- char32_to_utf8 uc buf p ;;
    match x with
    | None => Ok (None, buf)
    | Some (used, buf) => p <- advance buf p used ;; utf32to8_loop r buf p
    end
  end.
Definition utf32to8 (us buf : list Z) : Res (option Z * list Z) := utf32to8_loop us buf 0.
(** conv.c3:325-343 *)
Fixpoint utf8to32_loop (fuel : nat) (s : list Z) (i : Z) (buf : list Z) (len32 : Z) : Res (option Z * list Z) :=
  match fuel with
  | O => Fuel
  | S f =>
    if i <? zlen s then
      if len32 =? zlen buf then Ok (None, buf)
      else
        r <- utf8_to_char32 s i (zlen s - i) ;;
        match r with
        | None => Ok (None, buf)
        | Some (uc, width) => buf <- set buf len32 uc ;; utf8to32_loop f s (i + width) buf (len32 + 1)
        end
    else if len32 + 1 <? zlen buf then (buf <- set buf len32 0 ;; Ok (Some len32, buf)) else Ok (Some len32, buf)
  end.
Definition utf8to32 (s buf : list Z) : Res (option Z * list Z) := utf8to32_loop (S (length s)) s 0 buf 0.
(** conv.c3:353-362: [None] for a fault. *)
Fixpoint utf16to8_unsafe (fuel : nat) (us : list Z) (i : Z) (buf : list Z) (p : Z) : Res (option (list Z)) :=
  match fuel with
  | O => Fuel
  | S f =>
    if i <? zlen us then
      r <- char16_to_utf8_unsafe us i (zlen us - i) buf p ;;
      match r with
      | None => Ok None
      | Some (used, buf, p) => utf16to8_unsafe f us (i + used) buf p
      end
    else Ok (Some buf)
  end.
(** conv.c3:372-382 *)
Fixpoint utf8to32_unsafe (fuel : nat) (s : list Z) (i : Z) (buf : list Z) (p : Z) : Res (option (list Z)) :=
  match fuel with
  | O => Fuel
  | S f =>
    if i <? zlen s then
      r <- utf8_to_char32 s i (zlen s - i) ;;
      match r with
      | None => Ok None
      | Some (uc, width) => buf <- store buf p [uc] ;; utf8to32_unsafe f s (i + width) buf (p + 1)
      end
    else Ok (Some buf)
  end.
(** conv.c3:392-402 *)
Fixpoint utf8to16_unsafe (fuel : nat) (s : list Z) (i : Z) (buf : list Z) (p : Z) : Res (option (list Z)) :=
  match fuel with
  | O => Fuel
  | S f =>
    if i <? zlen s then
      r <- utf8_to_char32 s i (zlen s - i) ;;
      match r with
      | None => Ok None
      | Some (uc, width) => '(buf, p) <- char32_to_utf16_unsafe uc buf p ;; utf8to16_unsafe f s (i + width) buf p
      end
    else Ok (Some buf)
  end.
(** conv.c3:412-419 *)
Fixpoint utf32to8_unsafe (us : list Z) (buf : list Z) (p : Z) : Res (list Z) :=
  match us with
  | [] => Ok buf
  | uc :: r => '(buf, p) <- char32_to_utf8_unsafe uc buf p ;; utf32to8_unsafe r buf p
  end.

(** The allocating conversions.  [junk n] is what the allocator hands out for [n] units, of any content.
    The result is the returned slice; [None] is a fault.  A failing allocation is not modelled. *)
Section Alloc.
Context (junk : Z -> list Z).
(** string.c3:562-569 *)
Definition to_utf16 (s : list Z) : Res (option (list Z)) :=
  len16 <- utf16len_for_utf8 (S (length s)) s 0 0 ;;
  r <- utf8to16_unsafe (S (length s)) s 0 (junk (usz (len16 + 1))) 0 ;;
  match r with
  | None => Ok None
  | Some data => data <- set data len16 0 ;; r <- upto data len16 ;; Ok (Some r)
  end.
(** string.c3:580-587 *)
Definition to_utf32 (s : list Z) : Res (option (list Z)) :=
  let codepoints := utf8_codepoints s 0 in
  r <- utf8to32_unsafe (S (length s)) s 0 (junk (usz (codepoints + 1))) 0 ;;
  match r with
  | None => Ok None
  | Some data => data <- set data codepoints 0 ;; r <- upto data codepoints ;; Ok (Some r)
  end.
(** string.c3:644-652 *)
Definition from_utf32 (us : list Z) : Res (option (list Z)) :=
  let len := utf8len_for_utf32 us 0 in
  data <- utf32to8_unsafe us (junk (usz (len + 1))) 0 ;;
  data <- set data len 0 ;; r <- upto data len ;; Ok (Some r).
(** string.c3:654-662 *)
Definition from_utf16 (us : list Z) : Res (option (list Z)) :=
  let len := utf8len_for_utf16 us 0 in
  r <- utf16to8_unsafe (S (length us)) us 0 (junk (usz (len + 1))) 0 ;;
  match r with
  | None => Ok None
  | Some data => data <- set data len 0 ;; r <- upto data len ;; Ok (Some r)
  end.
End Alloc.
