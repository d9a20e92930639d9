(** Model of integer literal parsing: /repo/src/compiler/parse_expr.c:1356-1611. *)
From Coq Require Import ZArith Bool List.
From Verif Require Import Word Int128Model.
Import ListNotations.
Open Scope Z_scope.

(** Characters are byte codes; the token text is a NUL-terminated string. *)
Definition lower (c : Z) : Z := Z.lor c 32.           (* ch | 32 *)

(** parse_expr.c:1356-1368: [rest] is the text after the suffix letter.  An empty
    rest reads the terminating NUL and gives 0. *)
Fixpoint num_loop (i : Z) (s : list Z) : Z :=
  match s with
  | [] => i
  | c :: r => let i := i * 10 in if 1024 <? i then i else num_loop (i + (c - 48)) r
  end.
Definition read_num_type (rest : list Z) : Z :=
  match rest with 48 :: _ => -1 | _ => num_loop 0 rest end.

(** parse_expr.c:1370-1385 *)
Definition read_int_suffix (c : Z) (rest : list Z) : Z :=
  if lower c =? 105 then read_num_type rest                       (* i *)
  else if lower c =? 108 then match rest with [] => 64 | _ => -1 end   (* l *)
  else if lower c =? 117 then                                     (* u *)
    match rest with
    | [d] => if lower d =? 108 then 64 else read_num_type rest
    | _ => read_num_type rest
    end
  else -1.

(** lib.h:500-541: char_hex_to_nibble, table value minus one (-1 for non-digits). *)
Definition hex_nibble (c : Z) : Z :=
  if (48 <=? c) && (c <=? 57) then c - 48
  else if (65 <=? c) && (c <=? 70) then c - 55
  else if (97 <=? c) && (c <=? 102) then c - 87
  else -1.

(** State after the digit loop: the value, [wrapped], the number of digits, and
    the suffix found ([None] when the text ended): (is_unsigned, type_bits). *)
Record Scan := mkScan { sc_i : Int128; sc_wrapped : bool; sc_count : Z; sc_suffix : option (bool * Z) }.

(** parse_expr.c:1404-1519: the four loops differ only in the digit step
    [step i wrapped ch]. *)
Fixpoint scan_digits (step : Int128 -> bool -> Z -> Int128 * bool) (s : list Z) (i : Int128) (wrapped : bool) (n : Z) : Scan :=
  match s with
  | [] => mkScan i wrapped n None
  | ch :: r =>
    let l := lower ch in
    if l =? 117 then mkScan i wrapped n (Some (true, read_int_suffix ch r))
    else if (l =? 108) || (l =? 105) then mkScan i wrapped n (Some (false, read_int_suffix ch r))
    else if l =? 127 then scan_digits step r i wrapped n          (* '_' | 32 *)
    else let '(i', w') := step i wrapped ch in scan_digits step r i' w' (n + 1)
  end.

(** Power-of-two bases: parse_expr.c:1406-1432 (hex), 1434-1460 (octal), 1462-1488 (binary). *)
Definition step_pow2 (bits : Z) (digit : Z -> Z) (i : Int128) (wrapped : bool) (ch : Z) : Int128 * bool :=
  let w := wrapped || (wshr (W - 1) bits <? high i) in
  (i128_add64 (i128_shl64 i bits) (w64 (digit ch)), w).
(** Decimal: parse_expr.c:1490-1518 *)
Definition step_dec (i : Int128) (wrapped : bool) (ch : Z) : Int128 * bool :=
  let i' := i128_add64 (i128_mult64 i 10) (w64 (ch - 48)) in
  (i', wrapped || (high i' <? high i)).

(** lib.h:436-439, 460-470 (uint32_t; the arguments are below 2^31). *)
Definition is_power_of_two (x : Z) : bool := negb (x =? 0) && (Z.land x (x - 1) =? 0).
Definition next_pow2 (v : Z) : Z :=
  let v := v - 1 in
  let v := Z.lor v (Z.shiftr v 1) in
  let v := Z.lor v (Z.shiftr v 2) in
  let v := Z.lor v (Z.shiftr v 4) in
  let v := Z.lor v (Z.shiftr v 8) in
  let v := Z.lor v (Z.shiftr v 16) in
  v + 1.

Inductive LitRes := LCrash | LError | LOk (i : Int).

(** types.c:77-100: FATAL_ERROR on any other width. *)
Definition kind_by_bitsize (is_unsigned : bool) (b : Z) : option IKind :=
  if b =? 8 then Some (if is_unsigned then U8 else I8)
  else if b =? 16 then Some (if is_unsigned then U16 else I16)
  else if b =? 32 then Some (if is_unsigned then U32 else I32)
  else if b =? 64 then Some (if is_unsigned then U64 else I64)
  else if b =? 128 then Some (if is_unsigned then U128 else I128)
  else None.

(** parse_expr.c:1571-1585: the smallest type at least as wide as C int that
    holds the value; C int itself when none does. *)
Fixpoint pick_kind (i : Int128) (min_bits : Z) (ks : list IKind) : option IKind :=
  match ks with
  | [] => None
  | k :: r => if kbits k <? min_bits then pick_kind i min_bits r
              else if int_fits (mkInt i k) k then Some k else pick_kind i min_bits r
  end.
Definition kinds_of (is_unsigned : bool) : list IKind :=
  if is_unsigned then [U8; U16; U32; U64; U128] else [I8; I16; I32; I64; I128].

(** parse_expr.c:1586-1606 *)
Definition finish (i : Int128) (k : IKind) : LitRes :=
  let c := mkInt i k in if int_fits c k then LOk c else LError.

(** parse_expr.c:1521-1611.  [bits_per_digit] is 4, 3, 1, or 0 for decimal;
    [base_unsigned] is the initial is_unsigned.  [cint] is the width of C int. *)
Definition finish_lit (cint bits_per_digit : Z) (base_unsigned : bool) (sc : Scan) : LitRes :=
  if sc_wrapped sc then LError
  else
    let '(is_unsigned, type_bits) := match sc_suffix sc with Some p => p | None => (base_unsigned, 0) end in
    let pick :=
      match pick_kind (sc_i sc) cint (kinds_of is_unsigned) with
      | Some k => finish (sc_i sc) k
      | None => match kind_by_bitsize is_unsigned cint with Some k => finish (sc_i sc) k | None => LCrash end
      end in
    let sized b := match kind_by_bitsize is_unsigned b with Some k => finish (sc_i sc) k | None => LCrash end in
    if negb (type_bits =? 0) then
      if (type_bits <? 0) || negb (is_power_of_two type_bits) || (128 <? type_bits) then LError
      else sized type_bits
    else
      let tb := bits_per_digit * sc_count sc in
      if tb =? 0 then pick
      else if 128 <? tb then LError
      else
        let tb := if tb <? 8 then 8 else tb in
        let tb := if is_power_of_two tb then tb else next_pow2 tb in
        sized tb.

(** parse_expr.c:1387-1404: the base is chosen by the second character. *)
Definition parse_integer (cint : Z) (s : list Z) : LitRes :=
  let c := match s with _ :: c1 :: _ :: _ => lower c1 | _ => 48 end in
  let body := match s with _ :: _ :: r => r | _ => [] end in
  if c =? 120 then finish_lit cint 4 true (scan_digits (step_pow2 4 hex_nibble) body zero128 false 0)
  else if c =? 111 then finish_lit cint 3 true (scan_digits (step_pow2 3 (fun ch => ch - 48)) body zero128 false 0)
  else if c =? 98 then finish_lit cint 1 true (scan_digits (step_pow2 1 (fun ch => ch - 48)) body zero128 false 0)
  else finish_lit cint 0 false (scan_digits step_dec s zero128 false 0).
