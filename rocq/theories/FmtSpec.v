(** What a printf format means. *)
From Coq Require Import String Ascii ZArith List Bool.
From Verif Require Import LexSpec UtfSpec StrSpec.
From Verif Require FmtModel.
Import ListNotations.
Open Scope Z_scope.
Notation arg := FmtModel.arg.
Notation AInt := FmtModel.AInt. Notation ABool := FmtModel.ABool. Notation AStr := FmtModel.AStr. Notation AList := FmtModel.AList.
Definition tx (s : string) : list Z := map (fun c => Z.of_nat (nat_of_ascii c)) (list_ascii_of_string s).

(** The pieces of a format: a byte, %%, or a directive with its flags, width, precision and conversion; their spelling. *)
Inductive field := Nothing | Digits (ds : list Z) | Star.
Inductive piece := Byte (c : Z) | Percent | Dir (fs : list Z) (w : field) (p : option field) (c : Z).
Definition spell_field (f : field) : list Z := match f with Nothing => [] | Digits ds => ds | Star => [42] end.
Definition spell (p : piece) : list Z :=
  match p with
  | Byte c => [c]
  | Percent => [37; 37]
  | Dir fs w p c => 37 :: fs ++ spell_field w ++ match p with None => [] | Some f => 46 :: spell_field f end ++ [c]
  end.
Definition is_flag (c : Z) : Prop := In c (tx "0-+ #").
Definition is_digit (c : Z) : Prop := 48 <= c <= 57.
Definition conversions : list Z := tx "dxXoObBcshHp".
(** Well-formed: flags are flags; a width does not start with a 0, which would be a flag. *)
Definition wf_field (f : field) : Prop := match f with Digits ds => ds <> [] /\ Forall is_digit ds | _ => True end.
Definition wf (p : piece) : Prop :=
  match p with
  | Byte c => c <> 37
  | Percent => True
  | Dir fs w p c => Forall is_flag fs /\ wf_field w /\ (forall ds, w = Digits (48 :: ds) -> False) /\ match p with Some f => wf_field f | None => True end /\ In c conversions
  end.

(** The value of a width or precision; a star takes it from the arguments. *)
Definition value (ds : list Z) : Z := fold_left (fun n c => n * 10 + (c - 48)) ds 0.
Inductive Field : field -> list arg -> Z -> list arg -> Prop :=
| Field_nothing args : Field Nothing args 0 args
| Field_digits ds args : value ds < 2 ^ 31 -> Field (Digits ds) args (value ds) args
| Field_star s b v args : - 2 ^ 31 <= v < 2 ^ 31 -> Field Star (AInt s b v :: args) v args.

(** How to print: the flags, the width, the precision if there is one. *)
Record how := How { zero : bool; left : bool; plus : bool; space : bool; alt : bool; width : Z; prec : option Z }.
Definition has (c : Z) (fs : list Z) : bool := existsb (Z.eqb c) fs.
Definition how_of (fs : list Z) (w : Z) (p : option Z) : how := How (has 48 fs) (has 45 fs || (w <? 0)) (has 43 fs) (has 32 fs) (has 35 fs) (Z.abs w) p.
(** Filled up with spaces to the width. *)
Definition gap (h : how) (t : list Z) : list Z := repeat 32 (Z.to_nat (width h - len t)).
Definition padded (h : how) (t : list Z) : list Z := if left h then t ++ gap h t else gap h t ++ t.

(** The digits of a number: they denote it, there is no leading zero, and letters have the case asked for. *)
Definition casing (up : bool) (ds : list Z) : Prop := Forall (fun c => if up then ~ 97 <= c <= 102 else ~ 65 <= c <= 70) ds.
Definition Numeral (base : Z) (up : bool) (n : Z) (ds : list Z) : Prop :=
  Number (digit_is base) base ds n /\ casing up ds /\ ds <> [] /\ (forall r, ds = 48 :: r -> r = []).
(** An integer: sign, prefix, zeros, digits.  A zero with a precision has no digits of its own.  Zeros fill up to the precision, or to the width. *)
Definition sign (h : how) (base v : Z) : list Z := if v <? 0 then tx "-" else if (base =? 10) && plus h then tx "+" else if (base =? 10) && space h then tx " " else [].
Definition prefix (h : how) (base : Z) (up : bool) (v : Z) : list Z :=
  if alt h && negb (v =? 0) then
    if base =? 16 then tx (if up then "0X" else "0x") else if base =? 8 then tx (if up then "0O" else "0o") else if base =? 2 then tx (if up then "0B" else "0b") else []
  else [].
Definition OwnDigits (h : how) (base : Z) (up : bool) (v : Z) (ds : list Z) : Prop :=
  match prec h with Some _ => if v =? 0 then ds = [] else Numeral base up (Z.abs v) ds | None => Numeral base up (Z.abs v) ds end.
Definition fill (h : how) (sg pre ds : list Z) : Z :=
  match prec h with Some p => p - len ds | None => if zero h && negb (left h) then width h - len sg - len pre - len ds else 0 end.
Definition number (h : how) (base : Z) (up : bool) (v : Z) (ds : list Z) : list Z :=
  sign h base v ++ prefix h base up v ++ repeat 48 (Z.to_nat (fill h (sign h base v) (prefix h base up v) ds)) ++ ds.
(** The base and case of a conversion to an integer; %p is %x with zeros and prefix. *)
Definition int_base (c : Z) : option (Z * bool) :=
  if c =? 100 then Some (10, false) else if c =? 120 then Some (16, false) else if c =? 88 then Some (16, true) else if c =? 111 then Some (8, false)
  else if c =? 79 then Some (8, true) else if c =? 98 then Some (2, false) else if c =? 66 then Some (2, true) else if c =? 112 then Some (16, false) else None.
Definition adapt (c : Z) (h : how) : how := if c =? 112 then How true (left h) (plus h) (space h) true (width h) (prec h) else h.

(** The first n characters of a text: bytes up to, and without, the one that would start character n + 1. *)
Definition starts (c : Z) : bool := negb ((128 <=? c) && (c <? 192)).
Definition chars (s : list Z) : Z := len (filter starts s).
Definition First (n : Z) (s t : list Z) : Prop :=
  exists r, s = t ++ r /\ chars t <= n /\ match r with [] => True | c :: _ => starts c = true /\ chars t = n end.
(** An integer fits in its type. *)
Definition in_range (v : Z) : Prop := - 2 ^ 127 <= v < 2 ^ 128.
(** The text of a value. *)
Inductive Shown : arg -> list Z -> Prop :=
| Shown_int s b v ds : in_range v -> Numeral 10 false (Z.abs v) ds -> Shown (AInt s b v) ((if v <? 0 then tx "-" else []) ++ ds)
| Shown_bool b : Shown (ABool b) (tx (if b then "true" else "false"))
| Shown_str s : Shown (AStr s) s
| Shown_list l ts : Shown_all l ts -> Shown (AList l) (tx "[" ++ glue (tx ", ") ts ++ tx "]")
with Shown_all : list arg -> list (list Z) -> Prop :=
| Shown_none : Shown_all [] []
| Shown_more a l t ts : Shown a t -> Shown_all l ts -> Shown_all (a :: l) (t :: ts).
(** Bytes as hex digits. *)
Inductive Hexed (up : bool) : list arg -> list Z -> Prop :=
| Hexed_nil : Hexed up [] []
| Hexed_cons s v l a b t : Number (digit_is 16) 16 [a; b] (v mod 256) -> casing up [a; b] -> Hexed up l t -> Hexed up (AInt s 8 v :: l) (a :: b :: t).

(** The text of a directive; the last number is how many of its bytes printf leaves out of its count (C109).
    Left out: %c with a width or of the characters 0x7F, 0x7FF, 0xFFFF; integers of more than 256 bytes; an integer with a width of which nothing
    is printed (a zero with precision 0); a precision that would add zeros together
    with the flag -; zeros up to a width together with a prefix; a precision for %s of an integer or a slice. *)
Inductive Directive (h : how) : Z -> arg -> list Z -> Z -> Prop :=
| D_int c base up s b v ds : int_base c = Some (base, up) -> OwnDigits (adapt c h) base up v ds ->
    (left h = true -> match prec h with Some p => p <= len ds | None => True end) ->
    (prefix (adapt c h) base up v <> [] -> zero (adapt c h) = true -> left h = false -> prec h = None -> width h = 0) ->
    (number (adapt c h) base up v ds = [] -> width h = 0) -> len (number (adapt c h) base up v ds) <= 256 ->
    Directive h c (AInt s b v) (padded (adapt c h) (number (adapt c h) base up v ds)) (len (gap (adapt c h) (number (adapt c h) base up v ds)))
| D_char s b v : scalar v -> v <> 127 -> v <> 2047 -> v <> 65535 -> width h = 0 -> Directive h 99 (AInt s b v) (utf8 v) (len (utf8 v) - 1)
| D_str a t : prec h = None -> Shown a t -> Directive h 115 a (padded h t) 0
| D_cut s n t : prec h = Some n -> First n s t -> Directive h 115 (AStr s) (padded h t) 0
| D_hex c l t : c = 104 \/ c = 72 -> Hexed (c =? 72) l t -> Directive h c (AList l) (padded h t) 0.

(** The text of a format with its arguments. *)
Inductive Prints : list piece -> list arg -> list Z -> Z -> Prop :=
| Prints_nil args : Prints [] args [] 0
| Prints_byte c ps args t n : Prints ps args t n -> Prints (Byte c :: ps) args (c :: t) n
| Prints_percent ps args t n : Prints ps args t n -> Prints (Percent :: ps) args (37 :: t) n
| Prints_dir fs w c ps args wv a rest u m t n : Field w args wv (a :: rest) ->
    Directive (how_of fs wv None) c a u m -> Prints ps rest t n -> Prints (Dir fs w None c :: ps) args (u ++ t) (m + n)
| Prints_prec fs w p c ps args wv args1 pv a rest u m t n : Field w args wv args1 -> Field p args1 pv (a :: rest) -> 0 <= pv ->
    Directive (how_of fs wv (Some pv)) c a u m -> Prints ps rest t n -> Prints (Dir fs w (Some p) c :: ps) args (u ++ t) (m + n).
