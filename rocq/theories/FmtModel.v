(** Model of the formatter (lib/std/io/formatter.c3, formatter_private.c3, io.c3) for all conversions but the floating-point ones.
    The arguments are the values a program can pass without user-defined printing: integers, booleans, strings, slices.  Out is the bytes
    written so far; the output function accepts every byte (no cap), or as many as the buffer of bprintf holds. *)
From Coq Require Import String Ascii ZArith List Bool.
From Verif Require Import Mach.
Import ListNotations.
Open Scope Z_scope.

(** The texts of the source. *)
Definition lit (s : string) : list Z := map (fun c => Z.of_nat (nat_of_ascii c)) (list_ascii_of_string s).
(** faultdef (formatter.c3:13-14, formatter_private.c3:7). *)
Inductive fault := BUFFER_EXCEEDED | INTERNAL_BUFFER_EXCEEDED | INVALID_FORMAT | NOT_ENOUGH_ARGUMENTS | INVALID_ARGUMENT | BAD_FORMAT.
(** PrintFlags (formatter.c3:77-86) and Formatter (63-75); muted: out_fn is out_null_fn. *)
Record flags := Flags { zeropad : bool; left : bool; plus : bool; space : bool; hash : bool; upper : bool; precision : bool }.
Definition no_flags : flags := Flags false false false false false false false.
Record fm := Fm { fl : flags; width : Z; prec : Z; first : option fault; muted : bool }.
(** The arguments. *)
Inductive arg := AInt (signed : bool) (bits v : Z) | ABool (b : bool) | AStr (s : list Z) | AList (l : list arg).

(** A computation: the formatter, the bytes written, and a value, a fault, or neither (a read outside of the format, or a conversion that is not
    modelled). *)
Inductive ans (A : Type) := Val (a : A) | Flt (e : fault) | Stuck.
Arguments Val {A} a. Arguments Flt {A} e. Arguments Stuck {A}.
Definition M (A : Type) : Type := option Z -> fm -> list Z -> fm * list Z * ans A.
Definition ret {A} (a : A) : M A := fun _ f o => (f, o, Val a).
Definition fail {A} (e : fault) : M A := fun _ f o => (f, o, Flt e).
Definition stuck {A} : M A := fun _ f o => (f, o, Stuck).
Definition andThen {A B} (m : M A) (k : A -> M B) : M B :=
  fun cap f o => match m cap f o with (f, o, Val a) => k a cap f o | (f, o, Flt e) => (f, o, Flt e) | (f, o, Stuck) => (f, o, Stuck) end.
Notation "x <- m ;; k" := (andThen m (fun x => k)) (at level 61, m at next level, right associativity).
Notation "m ;;; k" := (andThen m (fun _ => k)) (at level 61, right associativity).
(** m ?? k, with the fault. *)
Definition catch {A} (m : M A) (h : fault -> M A) : M A := fun cap f o => match m cap f o with (f, o, Flt e) => h e cap f o | r => r end.
Definition look : M fm := fun _ f o => (f, o, Val f).
Definition put (f : fm) : M unit := fun _ _ o => (f, o, Val tt).
Definition with_flags (g : flags) (f : fm) : fm := Fm g (width f) (prec f) (first f) (muted f).
Definition with_width (w : Z) (f : fm) : fm := Fm (fl f) w (prec f) (first f) (muted f).
Definition with_prec (p : Z) (f : fm) : fm := Fm (fl f) (width f) p (first f) (muted f).
Definition with_first (e : option fault) (f : fm) : fm := Fm (fl f) (width f) (prec f) e (muted f).
Definition with_muted (b : bool) (f : fm) : fm := Fm (fl f) (width f) (prec f) (first f) b.
(** Reading a byte of the format. *)
Definition read (s : list Z) (i : Z) : M Z := match get s i with Ok c => ret c | _ => stuck end.
(** An assignment of flags and width that a defer takes back (formatter.c3, out_str). *)
Definition plainly {A} (m : M A) : M A :=
  fun cap f o => match m cap (with_width 0 (with_flags no_flags f)) o with (f', o, r) => (with_width (width f) (with_flags (fl f) f'), o, r) end.

(** Formatter.out (formatter.c3:93-102), with out_buffer_fn (io.c3:328-333) or an output function that never faults. *)
Definition full (cap : option Z) (o : list Z) : bool := match cap with Some n => n <=? zlen o | None => false end.
Definition out (c : Z) : M Z := fun cap f o =>
  if muted f then (f, o, Val 1)
  else if full cap o then match first f with Some e => (f, o, Flt e) | None => (with_first (Some BUFFER_EXCEEDED) f, o, Flt BUFFER_EXCEEDED) end
  else (f, o ++ [c], Val 1).
(** Formatter.out_chars (formatter_private.c3:190-194) and the loops that print a row of bytes. *)
Fixpoint out_all (s : list Z) : M Z := match s with [] => ret 0 | c :: r => out c ;;; n <- out_all r ;; ret (1 + n) end.
(** Formatter.pad (formatter_private.c3:176-181). *)
Definition pad (c w len : Z) : M Z := out_all (repeat c (Z.to_nat (w - len))) ;;; ret (Z.max 0 (w - len)).
(** Formatter.adjust (formatter_private.c3:32-36). *)
Definition adjust (len : Z) : M Z := f <- look ;; if left (fl f) then pad 32 (width f) len else ret 0.
(** Formatter.out_substr (formatter_private.c3:157-174): a byte that is not a continuation byte ends the text if no characters are left. *)
Definition is_cont (c : Z) : bool := (128 <=? c) && (c <? 192).
Fixpoint cut_chars (n : Z) (s : list Z) : list Z :=
  match s with [] => [] | c :: r => if is_cont c then c :: cut_chars n r else if n =? 0 then [] else c :: cut_chars (n - 1) r end.
Definition out_substr (s : list Z) : M Z := f <- look ;; out_all (if precision (fl f) then cut_chars (prec f) s else s).
(** first_err (formatter_private.c3:25-30): the fault it answers. *)
Definition first_err (e : fault) : M fault := f <- look ;; match first f with Some e => ret e | None => put (with_first (Some e) f) ;;; ret e end.
(** @report_fault (formatter.c3:325-329), @wrap_bad (331-347). *)
Definition report_fault (t : string) : M Z := catch (out_substr (lit t)) (fun _ => ret 0) ;;; fail INVALID_FORMAT.
Definition wrap_bad (m : M Z) : M Z :=
  catch m (fun e => match e with
    | BUFFER_EXCEEDED | INTERNAL_BUFFER_EXCEEDED => e <- first_err e ;; fail e
    | _ => e <- first_err INVALID_ARGUMENT ;; out_substr (lit "<INVALID>") ;;; fail e
    end).

(** Formatter.ntoa (formatter_private.c3:527-549): the do-while loop; 256 is PRINTF_NTOA_BUFFER_SIZE.  buf is the part of the buffer written. *)
Definition digit (up : bool) (d : Z) : Z := d + (if d <? 10 then 48 else if up then 65 - 10 else 97 - 10).
Fixpoint ntoa_digits (k : nat) (up : bool) (base value : Z) (buf : list Z) : ans (list Z) :=
  match k with
  | O => Stuck
  | S k' =>
    if 256 <=? zlen buf then Flt INTERNAL_BUFFER_EXCEEDED else
    let buf := buf ++ [digit up (value mod base)] in
    if value / base =? 0 then Val buf else ntoa_digits k' up base (value / base) buf
  end.
Definition lift {A} (r : ans A) : M A := match r with Val a => ret a | Flt e => fail e | Stuck => stuck end.
(** The loops that add leading zeros (formatter_private.c3:557-566). *)
Fixpoint zeros (k : nat) (lim : Z) (buf : list Z) : ans (list Z) :=
  match k with
  | O => Stuck
  | S k' => if zlen buf <? lim then if 256 <=? zlen buf then Flt INTERNAL_BUFFER_EXCEEDED else zeros k' lim (buf ++ [48]) else Val buf
  end.
(** Formatter.out_reverse (formatter_private.c3:652-668). *)
Definition out_reverse (buf : list Z) : M Z :=
  f <- look ;;
  n <- (if negb (zeropad (fl f)) && negb (left (fl f)) then pad 32 (width f) (zlen buf) else ret 0) ;;
  m <- out_all (rev buf) ;;
  a <- adjust (n + m) ;; ret (n + m + a).
(** Formatter.ntoa_format (formatter_private.c3:551-609). *)
Definition push (b : list Z) (c : Z) : M (list Z) := if 256 <=? zlen b then fail INTERNAL_BUFFER_EXCEEDED else ret (b ++ [c]).
Definition ntoa_format (buf : list Z) (negative : bool) (base : Z) : M Z :=
  f <- look ;;
  buf <- (if left (fl f) then ret buf else
    (if negb (width f =? 0) && zeropad (fl f) && (negative || plus (fl f) || space (fl f)) then put (with_width (width f - 1) f) else ret tt) ;;;
    buf <- lift (zeros 258 (prec f) buf) ;;
    f <- look ;;
    if zeropad (fl f) then lift (zeros 258 (width f) buf) else ret buf) ;;
  f <- look ;;
  buf <- (if hash (fl f) && negb (base =? 10) then
    let len := zlen buf in
    let buf := if negb (precision (fl f)) && negb (len =? 0) && (len =? prec f) && (len =? width f) then firstn (Z.to_nat (len - 2)) buf else buf in
    if 256 <=? zlen buf + 1 then fail INTERNAL_BUFFER_EXCEEDED
    else if base =? 16 then ret (buf ++ [if upper (fl f) then 88 else 120; 48])
    else if base =? 8 then ret (buf ++ [if upper (fl f) then 79 else 111; 48])
    else if base =? 2 then ret (buf ++ [if upper (fl f) then 66 else 98; 48])
    else stuck
    else ret buf) ;;
  buf <- (if negative then push buf 45 else if plus (fl f) then push buf 43 else if space (fl f) then push buf 32 else ret buf) ;;
  (if zlen buf =? 0 then ret 0 else out_reverse buf) ;;; ret (zlen buf).
Definition set_hash (b : bool) (g : flags) : flags := Flags (zeropad g) (left g) (plus g) (space g) b (upper g) (precision g).
Definition ntoa (value : Z) (negative : bool) (base : Z) : M Z :=
  f <- look ;;
  (if value =? 0 then put (with_flags (set_hash false (fl f)) f) else ret tt) ;;;
  buf <- (if negb (precision (fl f)) || negb (value =? 0) then lift (ntoa_digits 257 (upper (fl f)) base value []) else ret []) ;;
  ntoa_format buf negative base.

(** int_from_any (formatter_private.c3:38-89): the value without its sign, and the sign. *)
Definition int_from_any (a : arg) : M (Z * bool) :=
  match a with AInt _ _ v => ret (Z.abs v, v <? 0) | ABool b => ret ((if b then 1 else 0), false) | _ => fail BAD_FORMAT end.
(** types::any_to_int (types.c3:21-77): the value if the type asked for has it. *)
Definition any_to_int (sgn : bool) (v : Z) : option Z :=
  if (if sgn then (- 2 ^ 31 <=? v) && (v <? 2 ^ 31) else (0 <=? v) && (v <? 2 ^ 32)) then Some v else None.
(** Formatter.out_char (formatter_private.c3:618-649). *)
Definition char_bytes (c : Z) : list Z :=
  if c <? 127 then [c mod 256]
  else if c <? 2047 then [Z.lor 192 (Z.shiftr c 6) mod 256; Z.lor 128 (Z.land c 63) mod 256]
  else if c <? 65535 then [Z.lor 224 (Z.shiftr c 12) mod 256; Z.lor 128 (Z.land (Z.shiftr c 6) 63) mod 256; Z.lor 128 (Z.land c 63) mod 256]
  else [Z.lor 240 (Z.shiftr c 18) mod 256; Z.lor 128 (Z.land (Z.shiftr c 12) 63) mod 256; Z.lor 128 (Z.land (Z.shiftr c 6) 63) mod 256; Z.lor 128 (Z.land c 63) mod 256].
Definition out_char (a : arg) : M Z :=
  match a with
  | AInt _ _ v =>
    let c := match any_to_int false v with Some c => c | None => 65533 end in
    a <- adjust 1 ;; out_all (char_bytes c) ;;; b <- adjust 1 ;; ret (1 + a + b)
  | _ => out_substr (lit "<NOT CHAR>")
  end.
(** Formatter.out_str (formatter.c3:143-318) for the arguments modelled. *)
Fixpoint out_str (a : arg) : M Z :=
  match a with
  | AInt _ _ v => plainly (catch (ntoa (Z.abs v) (v <? 0) 10) (fun _ => out_substr (lit "<INVALID>")))
  | ABool b => out_substr (lit (if b then "true" else "false"))
  | AStr s => out_substr s
  | AList l =>
    plainly (a <- out 91 ;;
             n <- (fix items (sep : bool) (l : list arg) : M Z :=
                     match l with
                     | [] => ret 0
                     | x :: r => s <- (if sep then out_substr (lit ", ") else ret 0) ;; n <- out_str x ;; m <- items true r ;; ret (s + n + m)
                     end) false l ;;
             b <- out 93 ;; ret (a + n + b))
  end.
(** print_hex_chars (formatter_private.c3:9-23). *)
Definition hex_chars (up : bool) (s : list Z) : list Z := flat_map (fun c => [digit up (c / 16); digit up (c mod 16)]) s.
(** The bytes of a char[] or ichar[] (formatter.c3:464-478). *)
Fixpoint bytes_of (l : list arg) : option (list Z) :=
  match l with
  | [] => Some []
  | AInt sgn bits v :: r => if bits =? 8 then match bytes_of r with Some s => Some (v mod 256 :: s) | None => None end else None
  | _ => None
  end.

(** simple_atoi (formatter_private.c3:142-155), in 32 bits. *)
Fixpoint simple_atoi (k : nat) (s : list Z) (i v : Z) : M (Z * Z) :=
  match k with
  | O => stuck
  | S k' => if i <? zlen s then c <- read s i ;; if (48 <=? c) && (c <=? 57) then simple_atoi k' s (i + 1) ((v * 10 + c - 48) mod 2 ^ 32) else ret (v, i) else ret (v, i)
  end.
Definition to_int (u : Z) : Z := if u <? 2 ^ 31 then u else u - 2 ^ 32.
(** printf_parse_format_field (formatter_private.c3:671-685): the value, the index in the format, the index of the next argument.
    The argument list holds the arguments left. *)
Definition parse_field (s : list Z) (i : Z) (args : list arg) : M (Z * Z * list arg) :=
  c <- read s i ;;
  if (48 <=? c) && (c <=? 57) then r <- simple_atoi (S (length s)) s i 0 ;; ret (to_int (fst r), snd r, args)
  else if negb (c =? 42) then ret (0, i, args)
  else if zlen s <=? i + 1 then fail BAD_FORMAT
  else match args with
       | AInt _ _ v :: rest => match any_to_int true v with Some w => ret (w, i + 1, rest) | None => fail BAD_FORMAT end
       | _ => fail BAD_FORMAT
       end.
(** The flags (formatter.c3:377-390). *)
Definition flag_of (c : Z) (g : flags) : option flags :=
  if c =? 48 then Some (Flags true (left g) (plus g) (space g) (hash g) (upper g) (precision g))
  else if c =? 45 then Some (Flags (zeropad g) true (plus g) (space g) (hash g) (upper g) (precision g))
  else if c =? 43 then Some (Flags (zeropad g) (left g) true (space g) (hash g) (upper g) (precision g))
  else if c =? 32 then Some (Flags (zeropad g) (left g) (plus g) true (hash g) (upper g) (precision g))
  else if c =? 35 then Some (Flags (zeropad g) (left g) (plus g) (space g) true (upper g) (precision g))
  else None.
Fixpoint flag_eval (k : nat) (s : list Z) (i : Z) (g : flags) : M (option (Z * flags)) :=
  match k with
  | O => stuck
  | S k' => c <- read s i ;; match flag_of c g with None => ret (Some (i, g)) | Some g => if zlen s <=? i + 1 then ret None else flag_eval k' s (i + 1) g end
  end.
Definition set_left (g : flags) : flags := Flags (zeropad g) true (plus g) (space g) (hash g) (upper g) (precision g).
Definition set_upper (g : flags) : flags := Flags (zeropad g) (left g) (plus g) (space g) (hash g) true (precision g).
Definition set_precision (g : flags) : flags := Flags (zeropad g) (left g) (plus g) (space g) (hash g) (upper g) true.
Definition set_pointer (g : flags) : flags := Flags true (left g) (plus g) (space g) true (upper g) (precision g).
Definition drop_signs (g : flags) : flags := Flags (zeropad g) (left g) false false (hash g) (upper g) (precision g).
Definition drop_zeropad (g : flags) : flags := Flags false (left g) (plus g) (space g) (hash g) (upper g) (precision g).
Definition change (h : flags -> flags) : M unit := f <- look ;; put (with_flags (h (fl f)) f).
(** Integers (formatter.c3:519-531). *)
Definition int_conv (base : Z) (a : arg) : M Z :=
  (if base =? 10 then ret tt else change drop_signs) ;;;
  f <- look ;;
  (if precision (fl f) then change drop_zeropad else ret tt) ;;;
  wrap_bad (r <- int_from_any a ;; ntoa (fst r) (snd r) base).
(** %s (formatter.c3:494-511): with a width the text is measured with the null output function first. *)
Definition str_conv (a : arg) : M Z :=
  f <- look ;;
  if left (fl f) then n <- out_str a ;; p <- pad 32 (width f) n ;; ret (n + p)
  else
    p <- (if width f =? 0 then ret 0 else
      put (with_muted true f) ;;;
      n <- out_str a ;;
      g <- look ;; put (with_muted (muted f) g) ;;;
      pad 32 (width f) n) ;;
    n <- out_str a ;; ret (p + n).
(** %h (formatter.c3:462-492). *)
Definition hex_conv (a : arg) : M Z :=
  match (match a with AList l => bytes_of l | _ => None end) with
  | None => out_substr (lit "<INVALID>")
  | Some s =>
    f <- look ;;
    if left (fl f) then n <- out_all (hex_chars (upper (fl f)) s) ;; p <- pad 32 (width f) n ;; ret (n + p)
    else p <- (if width f =? 0 then ret 0 else pad 32 (width f) (zlen s * 2)) ;; n <- out_all (hex_chars (upper (fl f)) s) ;; ret (p + n)
  end.
(** The switch over the conversion (formatter.c3:418-518). *)
Definition conversion (c : Z) (a : arg) : M Z :=
  if c =? 100 then change (set_hash false) ;;; int_conv 10 a
  else if c =? 88 then change set_upper ;;; int_conv 16 a
  else if c =? 120 then int_conv 16 a
  else if c =? 79 then change set_upper ;;; int_conv 8 a
  else if c =? 111 then int_conv 8 a
  else if c =? 66 then change set_upper ;;; int_conv 2 a
  else if c =? 98 then int_conv 2 a
  else if existsb (Z.eqb c) (lit "AaFfEeGg") then stuck
  else if c =? 99 then out_char a
  else if c =? 72 then change set_upper ;;; hex_conv a
  else if c =? 104 then hex_conv a
  else if c =? 115 then str_conv a
  else if c =? 112 then change set_pointer ;;; int_conv 16 a
  else first_err INVALID_FORMAT ;;; out_substr (lit "<BAD FORMAT>").
(** One directive, from the byte behind the % on (formatter.c3:370-531): the index of its last byte, the arguments left, the count. *)
Definition as_option {A} (m : M A) : M (option A) := catch (r <- m ;; ret (Some r)) (fun _ => ret None).
Definition directive (s : list Z) (i : Z) (args : list arg) : M (Z * list arg * Z) :=
  change (fun _ => no_flags) ;;;
  r <- flag_eval (S (length s)) s i no_flags ;;
  match r with
  | None => report_fault "%ERR" ;;; stuck
  | Some (i, g) =>
    change (fun _ => g) ;;;
    r <- as_option (parse_field s i args) ;;
    match r with
    | None => report_fault "%ERR" ;;; stuck
    | Some (w, i, args) =>
      c <- read s i ;;
      (if w <? 0 then change set_left else ret tt) ;;;
      f <- look ;; put (with_prec 0 (with_width (Z.abs w) f)) ;;;
      r <- (if c =? 46 then
        change set_precision ;;;
        if zlen s <=? i + 1 then ret None else
        r <- as_option (parse_field s (i + 1) args) ;;
        match r with
        | None => ret None
        | Some (p, i, args) => f <- look ;; put (with_prec (if p <? 0 then 0 else p) f) ;;; c <- read s i ;; ret (Some (i, c, args))
        end
        else ret (Some (i, c, args))) ;;
      match r with
      | None => report_fault "<BAD FORMAT>" ;;; stuck
      | Some (i, c, args) =>
        match args with
        | [] => first_err NOT_ENOUGH_ARGUMENTS ;;; n <- out_substr (lit "<MISSING>") ;; ret (i, [], n)
        | a :: args => n <- conversion c a ;; ret (i, args, n)
        end
      end
    end
  end.
(** Formatter.vprintf (formatter.c3:349-538).  The flags of a directive are kept local until all are read (no byte is written meanwhile, except by
    report_fault, which looks at the precision flag only, cleared at the start of the directive).  A slice of unsigned or signed bytes is an AList
    of 8-bit integers; the element type of an empty slice is not kept.  The count is not reduced modulo 2^64. *)
Fixpoint loop (k : nat) (s : list Z) (i : Z) (args : list arg) (total : Z) : M Z :=
  match k with
  | O => stuck
  | S k' =>
    if i <? zlen s then
      c <- read s i ;;
      if negb (c =? 37) then n <- out c ;; loop k' s (i + 1) args (total + n)
      else if zlen s <=? i + 1 then report_fault "%ERR"
      else
        c <- read s (i + 1) ;;
        if c =? 37 then n <- out c ;; loop k' s (i + 2) args (total + n)
        else r <- directive s (i + 1) args ;; let '(i, args, n) := r in loop k' s (i + 1) args (total + n)
    else f <- look ;; match first f with Some e => fail e | None => ret total end
  end.
Definition fresh : fm := Fm no_flags 0 0 None false.
Definition vprintf (s : list Z) (args : list arg) : M Z := f <- look ;; put (with_first None f) ;;; loop (S (length s)) s 0 args 0.
(** printf to an output that accepts everything; bprintf (io.c3:318-325) to a buffer of n bytes: what the buffer holds, and the slice or fault. *)
Definition printf (s : list Z) (args : list arg) : list Z * ans Z := let '(_, o, r) := vprintf s args None fresh [] in (o, r).
Definition bprintf (n : Z) (s : list Z) (args : list arg) : list Z * ans (list Z) :=
  let '(_, o, r) := vprintf s args (Some n) fresh [] in (o, match r with Val _ => Val o | Flt e => Flt e | Stuck => Stuck end).
