(** Model of src/compiler/lexer.c (all scanning functions) and of the source-file clean-up in
    src/utils/file_utils.c.

    A buffer is a list of bytes 0..255 that ends with a NUL byte.  A cursor splits it into the part
    already passed (reversed) and the rest; reading where no byte is left is [Oob] (a read past the
    NUL).  [char] is signed (as on x86-64 and macOS): bytes of 128 and more are negative [char]s.
    Simplifications: error messages, columns and spans are left out (an error is [Err] with the
    cursor where it leaves the lexer); the value [next] returns counts as a read only where it is used;
    keywords are not told apart from identifiers (that is the symbol table, C26); 128-bit character
    values are plain integers (no literal is longer than 16 bytes, so they cannot wrap). *)
From Coq Require Import ZArith Bool List Lia.
From Verif Require Import Mach.
Import ListNotations.
Open Scope Z_scope.

(** ** Character classes (src/utils/lib.h:470-640) *)
Definition is_lower (c : Z) : bool := (97 <=? c) && (c <=? 122).
Definition is_upper (c : Z) : bool := (65 <=? c) && (c <=? 90).
Definition is_digit (c : Z) : bool := (48 <=? c) && (c <=? 57).
Definition is_oct (c : Z) : bool := (48 <=? c) && (c <=? 55).
Definition is_bin (c : Z) : bool := (c =? 48) || (c =? 49).
Definition is_hex (c : Z) : bool := is_digit c || ((97 <=? c) && (c <=? 102)) || ((65 <=? c) && (c <=? 70)).
Definition is_us (c : Z) : bool := c =? 95.
Definition is_letter (c : Z) : bool := is_lower c || is_upper c.
Definition is_alphanum_ (c : Z) : bool := is_letter c || is_digit c || is_us c.
Definition is_base64 (c : Z) : bool := is_letter c || is_digit c || (c =? 43) || (c =? 47).
(** lib.h:620-635: '\r' is UNREACHABLE. *)
Definition is_white (c : Z) : Res bool := if c =? 13 then Oob else Ok ((c =? 32) || (c =? 9) || (c =? 10)).
(** lib.h:512-540: the table is indexed by [(unsigned)c], outside the table for a negative [char]. *)
Definition hex_val (c : Z) : Z :=
  if is_digit c then c - 48 else if (97 <=? c) && (c <=? 102) then c - 87 else if (65 <=? c) && (c <=? 70) then c - 55 else -1.
Definition nibble (c : Z) : Res Z := if 128 <=? c then Oob else Ok (hex_val c).
(** lib.h:555-592. *)
Definition valid_escape (c : Z) : Z :=
  if c =? 97 then 7 else if c =? 98 then 8 else if c =? 101 then 27 else if c =? 102 then 12 else if c =? 110 then 10
  else if c =? 114 then 13 else if c =? 116 then 9 else if c =? 118 then 11 else if c =? 120 then 120 else if c =? 117 then 117
  else if c =? 85 then 85 else if c =? 39 then 39 else if c =? 34 then 34 else if c =? 92 then 92 else if c =? 48 then 0 else -1.

(** ** The cursor *)
Record cursor := Cur { c_prev : list Z; c_rest : list Z; c_row : Z }.
(** lexer.c:29-38: peek, peek_next, prev, reached_end. *)
Definition peek (c : cursor) : Res Z := get (c_rest c) 0.
Definition peekn (c : cursor) (n : Z) : Res Z := get (c_rest c) n.
Definition prevc (c : cursor) : Res Z := get (c_prev c) 0.
(** lexer.c:41-48. *)
Definition next (c : cursor) : Res cursor :=
  match c_rest c with
  | [] => Oob
  | x :: r => Ok (Cur (x :: c_prev c) r (if x =? 10 then c_row c + 1 else c_row c))
  end.
(** lexer.c:51-58. *)
Definition backtrack (c : cursor) : Res cursor :=
  match c_prev c with
  | [] => Oob
  | x :: p => Ok (Cur p (x :: c_rest c) (if x =? 10 then c_row c - 1 else c_row c))
  end.
(** lexer.c:62-69. *)
Fixpoint skip (n : nat) (c : cursor) : Res cursor :=
  match n with O => Ok c | S m => c <- next c ;; skip m c end.
(** lexer.c:72-77: whether the character matched, and the cursor after. *)
Definition matchc (c : cursor) (x : Z) : Res (bool * cursor) :=
  a <- peek c ;; if a =? x then (c <- next c ;; Ok (true, c)) else Ok (false, c).
(** [while (p(peek(lexer))) next(lexer);] *)
Fixpoint while_next (fuel : nat) (p : Z -> bool) (c : cursor) : Res cursor :=
  match fuel with
  | O => Fuel
  | S f => a <- peek c ;; if p a then (c <- next c ;; while_next f p c) else Ok c
  end.

(** ** Comments and white space *)
(** lexer.c:196-204. *)
Definition line_comment (fuel : nat) (c : cursor) : Res cursor :=
  c <- while_next fuel (fun a => negb (a =? 0) && negb (a =? 10)) c ;;
  a <- peek c ;; if a =? 10 then next c else Ok c.
(** lexer.c:209-244; [nesting] is an int, so opening comment number 2^31 is undefined. *)
Fixpoint block_comment (fuel : nat) (nesting : Z) (c : cursor) : Res cursor :=
  match fuel with
  | O => Fuel
  | S f =>
    a <- peek c ;;
    if a =? 42 then
      b <- peekn c 1 ;;
      if b =? 47 then (c <- skip 2 c ;; if nesting - 1 =? 0 then Ok c else block_comment f (nesting - 1) c)
      else (c <- next c ;; block_comment f nesting c)
    else if a =? 47 then
      b <- peekn c 1 ;;
      if b =? 42 then (c <- skip 2 c ;; if nesting =? 2147483647 then Oob else block_comment f (nesting + 1) c)
      else (c <- next c ;; block_comment f nesting c)
    else if a =? 0 then Ok c
    else (c <- next c ;; block_comment f nesting c)
  end.
(** lexer.c:250-289; [contracts] is lexer->mode == LEX_CONTRACTS; '\r' is UNREACHABLE. *)
Fixpoint skip_whitespace (fuel inner : nat) (contracts : bool) (c : cursor) : Res cursor :=
  match fuel with
  | O => Fuel
  | S f =>
    a <- peek c ;;
    if a =? 47 then
      if contracts then Ok c else
      b <- peekn c 1 ;;
      if b =? 47 then (c <- skip 2 c ;; c <- line_comment inner c ;; skip_whitespace f inner contracts c)
      else if b =? 42 then (c <- skip 2 c ;; c <- block_comment inner 1 c ;; skip_whitespace f inner contracts c)
      else Ok c
    else if a =? 10 then (if contracts then Ok c else c <- next c ;; skip_whitespace f inner contracts c)
    else if (a =? 32) || (a =? 9) || (a =? 12) then (c <- next c ;; skip_whitespace f inner contracts c)
    else if a =? 13 then Oob
    else Ok c
  end.

(** ** Tokens *)
Inductive iclass := CNormal | CConst | CType.
Inductive tok :=
| TOp (text : list Z)                       (* punctuation; the text identifies the token type *)
| TIdent (prefix : Z) (k : iclass)          (* [prefix] is 0, '@', '#' or '$' *)
| TUnderscore | TBuiltin
| TInteger | TReal
| TString (bytes : list Z)
| TChar (v width : Z)
| TBytes (base64 : bool) (len : Z)
| TDocsStart (text_len : Z) | TDocsEol | TDocsEnd
| TEof.
(** A scan ends with a token or (after reporting an error) without; both leave the cursor somewhere. *)
Inductive scan := Tok (t : tok) (c : cursor) | Err (c : cursor).

(** lexer.c:292-354.  State: the class so far. *)
Fixpoint ident_loop (fuel : nat) (ty : option iclass) (c : cursor) : Res (option (option iclass) * cursor) :=
  match fuel with
  | O => Fuel
  | S f =>
    a <- peek c ;;
    if is_lower a then
      c <- next c ;; ident_loop f (match ty with None => Some CNormal | Some CConst => Some CType | t => t end) c
    else if is_upper a then
      c <- next c ;; ident_loop f (match ty with None => Some CConst | t => t end) c
    else if is_digit a then
      match ty with None => Ok (None, c) | _ => c <- next c ;; ident_loop f ty c end
    else if is_us a then (c <- next c ;; ident_loop f ty c)
    else Ok (Some ty, c)
  end.
(** [start] is the cursor at lexing_start; [prefix] as in the code (0 for none). *)
Definition scan_ident (fuel : nat) (start : cursor) (prefix : Z) (c : cursor) : Res scan :=
  c <- while_next fuel is_us c ;;
  '(ty, c) <- ident_loop fuel None c ;;
  match ty with
  | None => Ok (Err c)                                     (* "A letter must precede any digit" *)
  | Some None =>
    let len := zlen (c_rest start) - zlen (c_rest c) in
    if (prefix =? 0) && (len =? 1) then Ok (Tok TUnderscore c) else Ok (Err c)
  | Some (Some k) => Ok (Tok (TIdent prefix k) c)
  end.

(** ** Numbers *)
(** lexer.c:418-421: step; false when "__" was seen. *)
Definition next_no_multiple (c : cursor) : Res (bool * cursor) :=
  c <- next c ;; a <- peek c ;; p <- prevc c ;; Ok (negb ((a =? 95) && (p =? 95)), c).
Fixpoint digits_loop (fuel : nat) (p : Z -> bool) (c : cursor) : Res (bool * cursor) :=
  match fuel with
  | O => Fuel
  | S f =>
    a <- peek c ;;
    if p a || is_us a then ('(ok, c) <- next_no_multiple c ;; if ok then digits_loop f p c else Ok (false, c))
    else Ok (true, c)
  end.
(** lexer.c:365-416: (ok, is_float, cursor). *)
Definition number_suffix (fuel : nat) (is_float : bool) (c : cursor) : Res (bool * bool * cursor) :=
  p <- prevc c ;;
  if p =? 95 then (c <- backtrack c ;; Ok (false, is_float, c)) else
  a <- peek c ;;
  if negb (is_alphanum_ a) then Ok (true, is_float, c) else
  let l := Z.lor a 32 in
  let finish (isf : bool) (x : Z) (c : cursor) : Res (bool * bool * cursor) :=
    if is_alphanum_ x then (c <- next c ;; Ok (false, isf, c)) else Ok (true, isf, c) in
  if l =? 108 then
    c <- next c ;; if is_float then Ok (false, is_float, c) else x <- peek c ;; finish is_float x c
  else if l =? 117 then
    if is_float then Ok (false, is_float, c) else
    c <- next c ;; x <- peek c ;;
    if Z.lor x 32 =? 108 then (c <- next c ;; x <- peek c ;; finish is_float x c)
    else (c <- while_next fuel is_digit c ;; x <- peek c ;; finish is_float x c)
  else if l =? 105 then
    if is_float then Ok (false, is_float, c) else
    c <- next c ;; c <- while_next fuel is_digit c ;; x <- peek c ;; finish is_float x c
  else if l =? 102 then
    c <- next c ;; c <- while_next fuel is_digit c ;; x <- peek c ;; finish true x c
  else finish is_float a c.
(** lexer.c:427-446 and 451-470. *)
Definition scan_pow2 (fuel : nat) (p : Z -> bool) (c : cursor) : Res scan :=
  a <- peek c ;;
  if negb (p a) then Ok (Err c) else
  c <- next c ;;
  '(ok, c) <- digits_loop fuel p c ;;
  if negb ok then Ok (Err c) else
  a <- peek c ;;
  if is_digit a then Ok (Err c) else
  '(ok, isf, c) <- number_suffix fuel false c ;;
  if negb ok then Ok (Err c) else if isf then Ok (Err c) else Ok (Tok TInteger c).
(** lexer.c:477-503. *)
Definition scan_exponent (fuel : nat) (c : cursor) : Res (bool * cursor) :=
  c <- next c ;;
  a <- peek c ;;
  c <- next c ;;
  '(a, c) <- (if (a =? 43) || (a =? 45) then (b <- peek c ;; c <- next c ;; Ok (b, c)) else Ok (a, c)) ;;
  if negb (is_digit a) then
    if a =? 0 then (c <- backtrack c ;; Ok (false, c)) else Ok (false, c)
  else c <- while_next fuel is_digit c ;; Ok (true, c).
Definition finish_number (fuel : nat) (is_float : bool) (c : cursor) : Res scan :=
  '(ok, isf, c) <- number_suffix fuel is_float c ;;
  if ok then Ok (Tok (if isf then TReal else TInteger) c) else Ok (Err c).
(** lexer.c:509-536. *)
Definition scan_hex (fuel : nat) (c : cursor) : Res scan :=
  a <- peek c ;;
  if negb (is_hex a) then Ok (Err c) else
  c <- next c ;;
  '(ok, c) <- digits_loop fuel is_hex c ;;
  if negb ok then Ok (Err c) else
  a <- peek c ;;
  dot <- (if a =? 46 then (b <- peekn c 1 ;; Ok (negb (b =? 46))) else Ok false) ;;
  '(ok, c) <- (if dot : bool then
      c <- next c ;;
      a <- peek c ;;
      if a =? 95 then Ok (false, c) else
      c <- (if is_hex a then next c else Ok c) ;;
      digits_loop fuel is_hex c
    else Ok (true, c)) ;;
  if negb ok then Ok (Err c) else
  a <- peek c ;;
  if (a =? 112) || (a =? 80) then
    '(ok, c) <- scan_exponent fuel c ;; if ok then finish_number fuel true c else Ok (Err c)
  else finish_number fuel dot c.
(** lexer.c:541-579. *)
Definition scan_dec (fuel : nat) (c : cursor) : Res scan :=
  '(ok, c) <- digits_loop fuel is_digit c ;;
  if negb ok then Ok (Err c) else
  a <- peek c ;;
  dot <- (if a =? 46 then (b <- peekn c 1 ;; Ok (negb (b =? 46))) else Ok false) ;;
  '(ok, c) <- (if dot : bool then
      c <- next c ;;
      a <- peek c ;;
      if a =? 95 then Ok (false, c) else digits_loop fuel is_digit c
    else Ok (true, c)) ;;
  if negb ok then Ok (Err c) else
  a <- peek c ;;
  if (a =? 101) || (a =? 69) then
    '(ok, c) <- scan_exponent fuel c ;; if ok then finish_number fuel true c else Ok (Err c)
  else finish_number fuel dot c.
(** lexer.c:592-616. *)
Definition scan_digit (fuel : nat) (c : cursor) : Res scan :=
  a <- peek c ;;
  if a =? 48 then
    b <- peekn c 1 ;;
    if (b =? 120) || (b =? 88) then (c <- skip 2 c ;; scan_hex fuel c)
    else if (b =? 111) || (b =? 79) then (c <- skip 2 c ;; scan_pow2 fuel is_oct c)
    else if (b =? 98) || (b =? 66) then (c <- skip 2 c ;; scan_pow2 fuel is_bin c)
    else scan_dec fuel c
  else scan_dec fuel c.

(** ** Character literals *)
(** lexer.c:620-635: None is -1. *)
Fixpoint hex_literal (n : nat) (hex : Z) (c : cursor) : Res (option Z * cursor) :=
  match n with
  | O => Ok (Some hex, c)
  | S m => a <- peek c ;; i <- nibble a ;; if i <? 0 then Ok (None, c) else c <- next c ;; hex_literal m (hex * 16 + i) c
  end.
(** lexer.c:637-685. *)
Fixpoint utf8_tail (n : nat) (result : Z) (c : cursor) : Res (option Z * cursor) :=
  match n with
  | O => Ok (Some result, c)
  | S m =>
    a <- peek c ;;
    if a =? 0 then Ok (Some 65533, c) else
    c <- next c ;;
    if negb (Z.land a 192 =? 128) then Ok (None, c) else utf8_tail m (result * 64 + Z.land a 63) c
  end.
Definition scan_utf8 (a : Z) (c : cursor) : Res (option Z * cursor) :=
  if a <? 192 then Ok (None, c)
  else if a <=? 223 then utf8_tail 1 (Z.land a 31) c
  else if a <=? 239 then utf8_tail 2 (Z.land a 15) c
  else if a <=? 247 then utf8_tail 3 (Z.land a 7) c
  else if a <=? 251 then utf8_tail 4 (Z.land a 3) c
  else if a <=? 253 then utf8_tail 5 (Z.land a 1) c
  else Ok (None, c).
(** lexer.c:708-825: the loop; [w] the width and [b] the value so far. *)
Fixpoint char_loop (fuel : nat) (w b : Z) (c : cursor) : Res scan :=
  match fuel with
  | O => Fuel
  | S f =>
    '(done, c) <- matchc c 39 ;;
    if done : bool then Ok (Tok (TChar b w) c) else
    a <- peek c ;;
    c <- next c ;;
    if a =? 0 then Ok (Err c) else
    if 15 <? w then Ok (Err c) else
    if 128 <=? a then
      if negb (w =? 0) then Ok (Err c) else
      '(u, c) <- scan_utf8 a c ;;
      match u with
      | None => Ok (Err c)
      | Some v =>
        '(done, c) <- matchc c 39 ;;
        if done : bool then Ok (Tok (TChar v (if 65535 <? v then 4 else 2)) c)
        else e <- peek c ;; if e =? 0 then char_loop f w b c else (c <- backtrack c ;; Ok (Err c))
      end
    else if a =? 10 then Ok (Err c)
    else if a =? 92 then
      e <- peek c ;;
      let esc := if 128 <=? e then -1 else valid_escape e in
      if esc =? -1 then
        (if (32 <? e) && (e <=? 127) then c <- next c ;; Ok (Err c) else Ok (Err c))
      else
      c <- next c ;;
      if esc =? 120 then
        '(h, c) <- hex_literal 2 0 c ;;
        match h with None => Ok (Err c) | Some v => char_loop f (w + 1) (b * 256 + v) c end
      else if (esc =? 117) || (esc =? 85) then
        if negb (w =? 0) then Ok (Err c) else
        '(h, c) <- hex_literal (if esc =? 85 then 8 else 4) 0 c ;;
        match h with
        | None => Ok (Err c)
        | Some v =>
          '(done, c) <- matchc c 39 ;;
          if done : bool then Ok (Tok (TChar v (if esc =? 85 then 4 else 2)) c)
          else e <- peek c ;; if e =? 0 then char_loop f w b c else Ok (Err c)
        end
      else char_loop f (w + 1) (b * 256 + esc) c
    else char_loop f (w + 1) (b * 256 + a) c
  end.
(** lexer.c:699-707. *)
Definition scan_char (fuel : nat) (c : cursor) : Res scan :=
  '(empty, c) <- matchc c 39 ;;
  if empty : bool then Ok (Err c) else char_loop fuel 0 0 c.

(** ** Strings *)
(** The output buffer: its capacity and the bytes written (in order). *)
Definition put (cap : Z) (dest : list Z) (x : Z) : Res (list Z) := if zlen dest <? cap then Ok (dest ++ [x]) else Oob.
Fixpoint puts (cap : Z) (dest : list Z) (xs : list Z) : Res (list Z) :=
  match xs with [] => Ok dest | x :: r => d <- put cap dest x ;; puts cap d r end.
(** lexer.c:887-908: a code point as UTF-8, each byte truncated to 8 bits. *)
Definition utf8_bytes (u : Z) : list Z :=
  if u <? 128 then [u mod 256]
  else if u <? 2048 then [Z.lor 192 (Z.shiftr u 6) mod 256; Z.lor 128 (Z.land u 63) mod 256]
  else if u <? 65536 then [Z.lor 224 (Z.shiftr u 12) mod 256; Z.lor 128 (Z.land (Z.shiftr u 6) 63) mod 256; Z.lor 128 (Z.land u 63) mod 256]
  else [Z.lor 240 (Z.shiftr u 18) mod 256; Z.lor 128 (Z.land (Z.shiftr u 12) 63) mod 256;
        Z.lor 128 (Z.land (Z.shiftr u 6) 63) mod 256; Z.lor 128 (Z.land u 63) mod 256].
(** [n] hex digits from [src[i]] on: None is "return -1". *)
Fixpoint esc_hex (n : nat) (i : Z) (acc : Z) (src : list Z) : Res (option Z) :=
  match n with
  | O => Ok (Some acc)
  | S m => a <- get src i ;; h <- nibble a ;; if h <? 0 then Ok None else esc_hex m (i + 1) (acc * 16 + h) src
  end.
(** lexer.c:828-910: the characters scanned (None for -1) and the output. *)
Definition append_esc (cap : Z) (dest : list Z) (src : list Z) : Res (option nat * list Z) :=
  a <- get src 0 ;;
  let e := if 128 <=? a then -1 else valid_escape a in
  if e <? 0 then Ok (None, dest) else
  let hex (n : nat) :=
    u <- esc_hex n 1 0 src ;;
    match u with
    | None => Ok (None, dest)
    | Some u => d <- puts cap dest (utf8_bytes u) ;; Ok (Some (S n), d)
    end in
  if e =? 120 then hex 2%nat else if e =? 117 then hex 4%nat else if e =? 85 then hex 8%nat
  else d <- put cap dest e ;; Ok (Some 1%nat, d).
(** lexer.c:926-938: how many characters lie between the cursor and [end]. *)
Fixpoint string_end (fuel : nat) (s : list Z) (i : Z) : Res Z :=
  match fuel with
  | O => Fuel
  | S f =>
    a <- get s i ;;
    if a =? 34 then Ok i
    else if (a =? 10) || (a =? 0) then Ok (i + 1)
    else if a =? 92 then
      b <- get s (i + 1) ;;
      if (b =? 10) || (b =? 0) then string_end f s (i + 1) else string_end f s (i + 2)
    else string_end f s (i + 1)
  end.
(** lexer.c:912-919. *)
Definition to_end_quote (fuel : nat) (c : cursor) : Res cursor := while_next fuel (fun a => negb (a =? 0) && negb (a =? 34)) c.
(** lexer.c:941-979; [stop] is the length of the rest at [end]. *)
Fixpoint string_loop (fuel inner : nat) (stop cap : Z) (dest : list Z) (c : cursor) : Res scan :=
  match fuel with
  | O => Fuel
  | S f =>
    if stop <? zlen (c_rest c) then
      a <- peek c ;;
      c <- next c ;;
      b <- (if a =? 92 then peek c else Ok 1) ;;
      if (a =? 0) || ((a =? 92) && (b =? 0)) then
        c <- (if a =? 0 then backtrack c else Ok c) ;; c <- to_end_quote inner c ;; Ok (Err c)
      else if (a =? 10) || ((a =? 92) && (b =? 10)) then
        c <- backtrack c ;; c <- to_end_quote inner c ;; Ok (Err c)
      else if a =? 92 then
        '(n, dest) <- append_esc cap dest (c_rest c) ;;
        match n with
        | None => c <- to_end_quote inner c ;; Ok (Err c)
        | Some n => c <- skip n c ;; string_loop f inner stop cap dest c
        end
      else d <- put cap dest a ;; string_loop f inner stop cap d c
    else
      c <- next c ;;
      _ <- put cap dest 0 ;;
      Ok (Tok (TString dest) c)
  end.
(** lexer.c:922-985. *)
Definition scan_string (fuel : nat) (c : cursor) : Res scan :=
  n <- string_end fuel (c_rest c) 0 ;;
  string_loop fuel fuel (zlen (c_rest c) - n) (n + 1) [] c.
(** lexer.c:990-1003: find the end of a raw string. *)
Fixpoint raw_end (fuel : nat) (c : cursor) : Res (bool * cursor) :=
  match fuel with
  | O => Fuel
  | S f =>
    a <- peek c ;;
    c <- next c ;;
    b <- (if a =? 96 then peek c else Ok 0) ;;
    if (a =? 96) && negb (b =? 96) then Ok (true, c)
    else if a =? 0 then Ok (false, c)
    else if a =? 96 then (c <- next c ;; raw_end f c)
    else raw_end f c
  end.
(** lexer.c:1008-1017: copy [n] characters, halving doubled back-quotes. *)
Fixpoint raw_copy (fuel : nat) (n cap : Z) (s : list Z) (i : Z) (dest : list Z) : Res (list Z) :=
  match fuel with
  | O => Fuel
  | S f =>
    if i <? n then
      a <- get s i ;;
      b <- (if a =? 96 then get s (i + 1) else Ok 0) ;;
      d <- put cap dest a ;;
      raw_copy f n cap s (if (a =? 96) && (b =? 96) then i + 2 else i + 1) d
    else Ok dest
  end.
(** lexer.c:987-1021; [c] is just after the opening back-quote. *)
Definition scan_raw_string (fuel : nat) (c : cursor) : Res scan :=
  '(ok, e) <- raw_end fuel c ;;
  if ok : bool then
    let n := zlen (c_rest c) - zlen (c_rest e) - 1 in
    d <- raw_copy fuel n (n + 1) (c_rest c) 0 [] ;;
    _ <- put (n + 1) d 0 ;;
    Ok (Tok (TString d) e)
  else Ok (Err e).

(** ** Byte literals *)
(** lexer.c:1028-1056. *)
Fixpoint hex_array_loop (fuel : nat) (quote len : Z) (c : cursor) : Res (option Z * cursor) :=
  match fuel with
  | O => Fuel
  | S f =>
    a <- peek c ;;
    if a =? 0 then Ok (None, c)
    else if a =? quote then Ok (Some len, c)
    else if is_hex a then (c <- next c ;; hex_array_loop f quote (len + 1) c)
    else w <- is_white a ;; if w : bool then (c <- next c ;; hex_array_loop f quote len c) else Ok (None, c)
  end.
(** lexer.c:1023-1066. *)
Definition scan_hex_array (fuel : nat) (c : cursor) : Res scan :=
  q <- peek c ;;
  c <- next c ;;
  '(len, c) <- hex_array_loop fuel q 0 c ;;
  match len with
  | None => Ok (Err c)
  | Some len => c <- next c ;; if len mod 2 =? 0 then Ok (Tok (TBytes false (len / 2)) c) else Ok (Err c)
  end.
(** lexer.c:1077-1112: (characters, '=' signs). *)
Fixpoint base64_loop (fuel : nat) (quote len endl : Z) (c : cursor) : Res (option (Z * Z) * cursor) :=
  match fuel with
  | O => Fuel
  | S f =>
    a <- peek c ;;
    if a =? 0 then Ok (None, c) else
    c <- next c ;;
    if a =? quote then Ok (Some (len, endl), c)
    else if is_base64 a then (if endl =? 0 then base64_loop f quote (len + 1) endl c else Ok (None, c))
    else if a =? 61 then (if 1 <? endl then Ok (None, c) else base64_loop f quote len (endl + 1) c)
    else w <- is_white a ;; if w : bool then base64_loop f quote len endl c else Ok (None, c)
  end.
(** lexer.c:1068-1146. *)
Definition scan_base64 (fuel : nat) (c : cursor) : Res scan :=
  c <- skip 2 c ;;
  q <- peek c ;;
  c <- next c ;;
  '(r, c) <- base64_loop fuel q 0 0 c ;;
  match r with
  | None => Ok (Err c)
  | Some (len, endl) =>
    let endl := if (endl =? 0) && negb (len mod 4 =? 0) then (if len mod 4 =? 2 then 2 else if len mod 4 =? 3 then 1 else 0) else endl in
    if (len + endl) mod 4 =? 0 then Ok (Tok (TBytes true ((3 * len - endl) mod 2 ^ 64 / 4)) c) else Ok (Err c)
  end.

(** ** Documentation comments *)
(** lexer.c:1157-1193: [start] is the cursor at the first text character, if any. *)
Fixpoint doc_loop (fuel : nat) (may : bool) (start : option Z) (c : cursor) : Res (option Z * cursor) :=
  match fuel with
  | O => Fuel
  | S f =>
    a <- peek c ;;
    if a =? 0 then Ok (start, c)
    else if a =? 10 then (c <- next c ;; doc_loop f true start c)
    else if (a =? 32) || (a =? 9) then (c <- next c ;; doc_loop f may start c)
    else if a =? 42 then
      b <- peekn c 1 ;;
      if b =? 62 then Ok (start, c) else c <- next c ;; doc_loop f false start c
    else
      stop <- (if (a =? 64) && may then (b <- peekn c 1 ;; Ok (is_lower b)) else Ok false) ;;
      if stop : bool then Ok (start, c)
      else let start := match start with None => Some (zlen (c_rest c)) | s => s end in c <- next c ;; doc_loop f false start c
  end.
(** lexer.c:1203-1206: trim white space from the end: [last] counts characters after [comment_start]. *)
Fixpoint trim_end (l : list Z) (last : Z) : Res Z :=
  match l with
  | [] => Ok last
  | a :: r => if 0 <? last then (w <- is_white a ;; if w : bool then trim_end r (last - 1) else Ok last) else Ok last
  end.
(** lexer.c:1153-1209. *)
Definition doc_start (fuel : nat) (c : cursor) : Res scan :=
  '(start, e) <- doc_loop fuel true None c ;;
  match start with
  | None => Ok (Tok (TDocsStart 0) e)
  | Some s => n <- trim_end (c_prev e) (s - zlen (c_rest e) - 1) ;; Ok (Tok (TDocsStart (n + 1)) e)
  end.

(** ** The scanner *)
Definition op1 (t : list Z) (c : cursor) : Res scan := Ok (Tok (TOp t) c).
(** [match(lexer, x) ? a : b] *)
Definition alt (c : cursor) (x : Z) (a b : cursor -> Res scan) : Res scan :=
  '(m, c) <- matchc c x ;; if m : bool then a c else b c.
(** lexer.c:1212-1376.  [contracts] is the mode before, and the mode after is returned with the token. *)
Definition scan_token (fuel : nat) (contracts : bool) (c : cursor) : Res (bool * scan) :=
  c <- skip_whitespace fuel fuel contracts c ;;
  a <- peek c ;;
  if a =? 0 then Ok (contracts, Tok TEof c) else
  let start := c in
  c <- next c ;;
  let same (r : Res scan) : Res (bool * scan) := s <- r ;; Ok (contracts, s) in
  let ident (_ : unit) := same (c <- backtrack c ;; scan_ident fuel start 0 c) in
  if a =? 10 then (if contracts then Ok (contracts, Tok TDocsEol c) else Oob)
  else if a =? 64 then same (b <- peek c ;; if is_letter b || is_us b then scan_ident fuel start 64 c else op1 [64] c)
  else if a =? 39 then same (scan_char fuel c)
  else if a =? 96 then same (scan_raw_string fuel c)
  else if a =? 34 then same (scan_string fuel c)
  else if a =? 35 then same (scan_ident fuel start 35 c)
  else if a =? 36 then same (alt c 36 (fun c => b <- peek c ;; if is_letter b then Ok (Tok TBuiltin c) else Ok (Err c)) (scan_ident fuel start 36))
  else if (a =? 44) || (a =? 59) || (a =? 123) || (a =? 125) || (a =? 40) || (a =? 41) || (a =? 93) || (a =? 126) then same (op1 [a] c)
  else if a =? 91 then same (alt c 60 (op1 [91; 60]) (op1 [91]))
  else if a =? 46 then same (alt c 46 (fun c => alt c 46 (op1 [46; 46; 46]) (op1 [46; 46])) (op1 [46]))
  else if a =? 58 then same (alt c 58 (op1 [58; 58]) (op1 [58]))
  else if a =? 33 then same (alt c 33 (op1 [33; 33]) (fun c => alt c 61 (op1 [33; 61]) (op1 [33])))
  else if a =? 47 then same (alt c 61 (op1 [47; 61]) (op1 [47]))
  else if a =? 42 then
    '(d, c) <- (if contracts then matchc c 62 else Ok (false, c)) ;;
    if d : bool then Ok (false, Tok TDocsEnd c) else same (alt c 61 (op1 [42; 61]) (op1 [42]))
  else if a =? 61 then same (alt c 62 (op1 [61; 62]) (fun c => alt c 61 (op1 [61; 61]) (op1 [61])))
  else if a =? 94 then same (alt c 61 (op1 [94; 61]) (op1 [94]))
  else if a =? 63 then same (alt c 63 (op1 [63; 63]) (fun c => alt c 58 (op1 [63; 58]) (op1 [63])))
  else if a =? 60 then
    '(m, c) <- matchc c 60 ;;
    if m : bool then same (alt c 61 (op1 [60; 60; 61]) (op1 [60; 60])) else
    '(d, c) <- (if contracts then Ok (false, c) else matchc c 42) ;;
    if d : bool then (s <- doc_start fuel c ;; Ok (true, s)) else same (alt c 61 (op1 [60; 61]) (op1 [60]))
  else if a =? 62 then
    same (alt c 62 (fun c => alt c 61 (op1 [62; 62; 61]) (op1 [62; 62]))
      (fun c => alt c 93 (op1 [62; 93]) (fun c => alt c 61 (op1 [62; 61]) (op1 [62]))))
  else if a =? 37 then same (alt c 61 (op1 [37; 61]) (op1 [37]))
  else if a =? 38 then
    same (alt c 38 (fun c => alt c 38 (op1 [38; 38; 38]) (op1 [38; 38])) (fun c => alt c 61 (op1 [38; 61]) (op1 [38])))
  else if a =? 124 then
    same (alt c 124 (fun c => alt c 124 (op1 [124; 124; 124]) (op1 [124; 124])) (fun c => alt c 61 (op1 [124; 61]) (op1 [124])))
  else if a =? 43 then
    same (alt c 43 (fun c => alt c 43 (op1 [43; 43; 43]) (op1 [43; 43])) (fun c => alt c 61 (op1 [43; 61]) (op1 [43])))
  else if a =? 45 then
    same (alt c 62 (op1 [45; 62]) (fun c => alt c 45 (op1 [45; 45]) (fun c => alt c 61 (op1 [45; 61]) (op1 [45]))))
  else if a =? 120 then
    b <- peek c ;;
    if (b =? 34) || (b =? 39) || (b =? 96) then same (scan_hex_array fuel c) else ident tt
  else if a =? 98 then
    b <- peek c ;;
    six4 <- (if b =? 54 then (d <- peekn c 1 ;; if d =? 52 then (q <- peekn c 2 ;; Ok ((q =? 39) || (q =? 34) || (q =? 96))) else Ok false) else Ok false) ;;
    if six4 : bool then same (scan_base64 fuel c) else ident tt
  else if a =? 95 then ident tt
  else if is_digit a then same (c <- backtrack c ;; scan_digit fuel c)
  else if is_letter a then ident tt
  else Ok (contracts, Err c).

(** lexer.c:1446-1466: after an error, the rest of the file is scanned for more errors.
    The result is the token, or None when an error was reported. *)
Fixpoint recover (fuel inner : nat) (contracts ok : bool) (c : cursor) : Res (option tok * bool * cursor) :=
  match fuel with
  | O => Fuel
  | S f =>
    c <- (if ok then Ok c else while_next inner (fun a => negb (a =? 0) && negb (a =? 10)) c) ;;
    '(m, s) <- scan_token inner contracts c ;;
    let '(ok, c) := match s with Tok TEof c => (false, c) | Tok _ c => (true, c) | Err c => (false, c) end in
    a <- peek c ;;
    if a =? 0 then Ok (None, m, c) else recover f inner m ok c
  end.
Definition next_token (fuel : nat) (contracts : bool) (c : cursor) : Res (option tok * bool * cursor) :=
  '(m, s) <- scan_token fuel contracts c ;;
  match s with
  | Tok TEof c => a <- peek c ;; if a =? 0 then Ok (Some TEof, m, c) else recover fuel fuel m false c
  | Tok t c => Ok (Some t, m, c)
  | Err c => a <- peek c ;; if a =? 0 then Ok (None, m, c) else recover fuel fuel m false c
  end.

(** ** Bidirectional markers (lexer.c:1380-1425): the balance when the loop ends. *)
Fixpoint bidi_loop (fuel : nat) (s : list Z) (balance : Z) : Res Z :=
  match fuel with
  | O => Fuel
  | S f =>
    a <- get s 0 ;;
    let s := tl s in
    if a =? 0 then Ok balance else
    if negb (a =? 226) then bidi_loop f s balance else
    n <- get s 0 ;;
    if n =? 0 then Ok balance else
    t <- get s 1 ;;
    if n =? 128 then
      let b1 := if t =? 172 then balance - 1 else balance in
      if (t =? 172) && (b1 <? 0) then Ok b1 else
      bidi_loop f s (if (170 <=? t) && (t <=? 174) then b1 + 1 else b1)
    else if n =? 129 then
      if (166 <=? t) && (t <=? 168) then bidi_loop f s (balance + 1)
      else if t =? 169 then (if balance - 1 <? 0 then Ok (balance - 1) else bidi_loop f s (balance - 1))
      else bidi_loop f s balance
    else bidi_loop f s balance
  end.
(** Whether the file is accepted. *)
Definition bidi_ok (s : list Z) : Res bool := b <- bidi_loop (S (length s)) s 0 ;; Ok (b =? 0).

(** ** Cleaning the file buffer (file_utils.c:227-259)
    The loop at lines 242-255, with [i] a size_t that may wrap on [i--].  [None] is error_exit. *)
Fixpoint clean_loop (fuel : nat) (buf : list Z) (size offset i : Z) : Res (list Z * Z) :=
  match fuel with
  | O => Fuel
  | S f =>
    if i <? size - offset then
      c <- get buf (i + offset) ;;
      if c =? 13 then clean_loop f buf size (offset + 1) (((i - 1) mod 2 ^ 64 + 1) mod 2 ^ 64)
      else buf <- (if offset =? 0 then Ok buf else set buf i c) ;; clean_loop f buf size offset (i + 1)
    else Ok (buf, offset)
  end.
Definition clean_buffer (fuel : nat) (buf : list Z) (size : Z) : Res (option (list Z * Z)) :=
  if size =? 0 then Ok (Some (buf, 0)) else
  b0 <- get buf 0 ;;
  b1 <- get buf 1 ;;
  if (b0 =? 255) || (b1 =? 254) then Ok None else
  bom <- (if (b0 =? 239) && (b1 =? 187) then (b2 <- get buf 2 ;; Ok (b2 =? 191)) else Ok false) ;;
  '(buf, offset) <- clean_loop fuel buf size (if bom : bool then 3 else 0) 0 ;;
  buf <- set buf (size - offset) 0 ;;
  Ok (Some (buf, size - offset)).
