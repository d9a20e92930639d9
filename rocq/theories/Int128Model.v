(** Model of the compiler's 128-bit constants: /repo/src/compiler/bigint.c.
    [Int128] is [struct { uint64_t high, low }] (compiler_internal.h). *)
From Coq Require Import ZArith Bool List Ascii String.
From Verif Require Import Word.
Import ListNotations.
Open Scope Z_scope.

(** compiler_internal.h, [Int128_]: two unsigned 64-bit halves. *)
Record Int128 := mk128 { high : Z; low : Z }.

Definition zero128 := mk128 0 0.

(** bigint.c:138-144 *)
Definition i128_add (op1 op2 : Int128) : Int128 :=
  let l := wadd (low op1) (low op2) in
  let h := wadd (high op1) (high op2) in
  mk128 (if l <? low op1 then wadd h 1 else h) l.

(** bigint.c:146-150 *)
Definition i128_add64 (op1 : Int128) (op2 : Z) : Int128 :=
  let l := wadd (low op1) op2 in
  mk128 (if l <? low op1 then wadd (high op1) 1 else high op1) l.

(** bigint.c:152-159 *)
Definition i128_sub (op1 op2 : Int128) : Int128 :=
  let l := wsub (low op1) (low op2) in
  let h := wsub (high op1) (high op2) in
  mk128 (if low op1 <? l then wsub h 1 else h) l.

(** bigint.c:161-165 *)
Definition i128_sub64 (op1 : Int128) (op2 : Z) : Int128 :=
  let l := wsub (low op1) op2 in
  mk128 (if low op1 <? l then wsub (high op1) 1 else high op1) l.

(** bigint.c:181-194 *)
Definition i128_and (a b : Int128) := mk128 (Z.land (high a) (high b)) (Z.land (low a) (low b)).
Definition i128_or (a b : Int128) := mk128 (Z.lor (high a) (high b)) (Z.lor (low a) (low b)).
Definition i128_xor (a b : Int128) := mk128 (Z.lxor (high a) (high b)) (Z.lxor (low a) (low b)).

(** bigint.c:202-205 *)
Definition i128_not (a : Int128) := mk128 (wnot (high a)) (wnot (low a)).

(** bigint.c:196-200 *)
Definition i128_neg (a : Int128) : Int128 :=
  if (low a =? 0) && (high a =? 0) then a else i128_add64 (i128_not a) 1.

(** bigint.c:37-38, HI32 / LO32 *)
Definition HI32 (x : Z) := wshr x 32.
Definition LO32 (x : Z) := Z.land x 0xffffffff.

(** bigint.c:207-224; the reuse of the C variables u, v, t, k is renamed. *)
Definition int64_mult (u v : Z) : Int128 :=
  let u1 := LO32 u in
  let v1 := LO32 v in
  let t := wmul u1 v1 in
  let w3 := LO32 t in
  let k := HI32 t in
  let uh := wshr u 32 in
  let t := wadd (wmul uh v1) k in
  let k := LO32 t in
  let w1 := HI32 t in
  let vh := wshr v 32 in
  let t := wadd (wmul u1 vh) k in
  mk128 (wadd (wadd (wmul uh vh) w1) (HI32 t)) (wadd (wshl t 32) w3).

(** bigint.c:226-231 *)
Definition i128_mult (op1 op2 : Int128) : Int128 :=
  let lm := int64_mult (low op1) (low op2) in
  mk128 (wadd (high lm) (wadd (wmul (high op1) (low op2)) (wmul (low op1) (high op2)))) (low lm).

(** bigint.c:233-238 *)
Definition i128_mult64 (op1 : Int128) (op2 : Z) : Int128 :=
  let lm := int64_mult (low op1) op2 in
  mk128 (wadd (high lm) (wmul (high op1) op2)) (low lm).

Inductive CmpRes := CMP_LT | CMP_EQ | CMP_GT.

(** bigint.c:274-280 *)
Definition i128_ucomp (a b : Int128) : CmpRes :=
  if high b <? high a then CMP_GT
  else if high a <? high b then CMP_LT
  else if low a =? low b then CMP_EQ
  else if low b <? low a then CMP_GT else CMP_LT.

(** bigint.c:372-384; the sign test is [high & INT64_MIN]. *)
Definition i128_scomp (a b : Int128) : CmpRes :=
  let ls := negb (Z.land (high a) (2 ^ 63) =? 0) in
  let rs := negb (Z.land (high b) (2 ^ 63) =? 0) in
  if negb (Bool.eqb ls rs) then (if ls then CMP_LT else CMP_GT)
  else if high b <? high a then CMP_GT
  else if high a <? high b then CMP_LT
  else if low a =? low b then CMP_EQ
  else if low b <? low a then CMP_GT else CMP_LT.

(** bigint.c:39, 362-365 *)
Definition ISNEG (x : Z) : bool := negb (wshr x 63 =? 0).
Definition i128_is_neg (a : Int128) := ISNEG (high a).

(** bigint.c:320-323 *)
Definition i128_is_zero (a : Int128) := (high a =? 0) && (low a =? 0).

(** bigint.c:282-289 *)
Definition i128_shl64 (a : Int128) (n : Z) : Int128 :=
  if n =? 0 then a
  else if 127 <? n then mk128 0 0
  else if n =? 64 then mk128 (low a) 0
  else if 64 <? n then mk128 (wshl (low a) (n - 64)) 0
  else mk128 (Z.lor (wshl (high a) n) (wshr (low a) (64 - n))) (wshl (low a) n).

(** bigint.c:297-307 *)
Definition i128_lshr64 (a : Int128) (n : Z) : Int128 :=
  if n =? 0 then a
  else if 127 <? n then mk128 0 0
  else if n =? 64 then mk128 0 (high a)
  else if 64 <? n then mk128 0 (wshr (high a) (n - 64))
  else mk128 (wshr (high a) n) (Z.lor (wshr (low a) n) (wshl (high a) (64 - n))).

(** bigint.c:331-339; [>>] on int64_t is the arithmetic shift (implementation
    defined in C, arithmetic on all compilers supported), cast back to uint64_t. *)
Definition i128_ashr64 (a : Int128) (n : Z) : Int128 :=
  if n =? 0 then a
  else if negb (ISNEG (high a)) then i128_lshr64 a n
  else if 127 <? n then mk128 (W - 1) (W - 1)
  else if n =? 64 then mk128 (W - 1) (high a)
  else if 64 <? n then mk128 (W - 1) (w64 (Z.shiftr (s64 (high a)) (n - 64)))
  else mk128 (w64 (Z.shiftr (s64 (high a)) n))
             (Z.lor (wshr (low a) n) (wshl (high a) (64 - n))).

(** bigint.c:291-295, 325-329, 341-345: 128-bit shift amounts. *)
Definition i128_shl (a n : Int128) : Int128 :=
  if negb (high n =? 0) then mk128 0 0 else i128_shl64 a (low n).
Definition i128_lshr (a n : Int128) : Int128 :=
  if negb (high n =? 0) then mk128 0 0 else i128_lshr64 a (low n).
Definition i128_ashr (a n : Int128) : Int128 :=
  if negb (high n =? 0) then (if ISNEG (high a) then mk128 (W - 1) (W - 1) else mk128 0 0)
  else i128_ashr64 a (low n).

(** One "halving" step of clz64 (bigint.c:442-465): [m] is 2^(window), the
    windows being n>>32, n>>48, n>>56, n>>60, n>>62 with masks 0xffffffff.. 3. *)
Definition clz_step (sh mask top dn : Z) (cn : Z * Z) : Z * Z :=
  let '(c, n) := cn in
  let k := wadd (wshr n sh) mask in
  let k := wshr (Z.lxor (Z.land k top) top) dn in
  (c + k, wshl n k).

(** bigint.c:437-470 *)
Definition clz64 (n : Z) : Z :=
  let neg := wnot n in
  let c := wshr (Z.land (Z.lxor neg (wadd neg 1)) neg) 63 in
  let '(c, n) := clz_step 62 3 4 1
                (clz_step 60 0xf 0x10 2
                (clz_step 56 0xff 0x100 5
                (clz_step 48 0xffff 0x10000 12
                (clz_step 32 0xffffffff 0x100000000 27 (c, n))))) in
  c + Z.lxor (wshr n 63) 1.

(** bigint.c:472-475 *)
Definition i128_clz (a : Int128) : Z :=
  if negb (high a =? 0) then clz64 (high a) else clz64 (low a) + 64.

(** bigint.c:511-521: the do-while loop; it runs shift+1 times.  [shift] is the
    remaining count as a nat; the C loop decrements an int32_t until it is 0. *)
Fixpoint udivrem_loop (shift : nat) (op1 op2 div : Int128) : Int128 * Int128 :=
  let div := i128_shl64 div 1 in
  let '(op1, div) :=
    match i128_ucomp op1 op2 with
    | CMP_LT => (op1, div)
    | _ => (i128_sub op1 op2, mk128 (high div) (Z.lor (low div) 1))
    end in
  let op2 := i128_lshr64 op2 1 in
  match shift with
  | O => (div, op1)
  | S s => udivrem_loop s op1 op2 div
  end.

(** bigint.c:501-524.  clz results are <= 128, so the uint32_t subtraction
    reinterpreted as int32_t is the plain difference.  Division by zero:
    clz(0) = 128, shift >= 0 in every case and the loop runs with op2 = 0 (the
    C function has no check; callers reject a zero divisor). *)
Definition i128_udivrem (op1 op2 : Int128) : Int128 * Int128 :=
  let shift := i128_clz op2 - i128_clz op1 in
  if shift <? 0 then (zero128, op1)
  else udivrem_loop (Z.to_nat shift) op1 (i128_shl64 op2 shift) zero128.

(** bigint.c:526-538 *)
Definition i128_udiv a b := fst (i128_udivrem a b).
Definition i128_urem a b := snd (i128_udivrem a b).

(** bigint.c:540-552: topbit1/topbit2 are [high & 0x8000000000000000]. *)
Definition topbit (a : Int128) : bool := negb (Z.land (high a) 0x8000000000000000 =? 0).
Definition i128_srem (a b : Int128) : Int128 :=
  let t1 := topbit a in
  let t2 := topbit b in
  let a := if t1 then i128_neg a else a in
  let b := if t2 then i128_neg b else b in
  let res := i128_urem a b in
  if xorb t2 t1 then i128_neg res else res.

(** bigint.c:564-576 *)
Definition i128_sdiv (a b : Int128) : Int128 :=
  let t1 := topbit a in
  let t2 := topbit b in
  let a := if t1 then i128_neg a else a in
  let b := if t2 then i128_neg b else b in
  let res := i128_udiv a b in
  if xorb t2 t1 then i128_neg res else res.

(** bigint.c:554-562 *)
Definition i128_from_signed (i : Z) : Int128 := mk128 (if i <? 0 then W - 1 else 0) (w64 i).
Definition i128_from_int (i : Z) : Int128 := mk128 0 i.

(** Integer type kinds (enums.h: TYPE_I8 .. TYPE_U128). *)
Inductive IKind := I8 | I16 | I32 | I64 | I128 | U8 | U16 | U32 | U64 | U128.

(** types.c: type_kind_bitsize, type_kind_is_signed, type_kind_is_unsigned *)
Definition kbits (k : IKind) : Z :=
  match k with I8 | U8 => 8 | I16 | U16 => 16 | I32 | U32 => 32 | I64 | U64 => 64 | I128 | U128 => 128 end.
Definition ksigned (k : IKind) : bool :=
  match k with I8 | I16 | I32 | I64 | I128 => true | _ => false end.

(** bigint.c:167-179 *)
Definition i128_extend (op : Int128) (k : IKind) : Int128 :=
  if kbits k =? 128 then op
  else
    let shift := 128 - kbits k in
    let op := i128_shl64 op shift in
    if ksigned k then i128_ashr64 op shift else i128_lshr64 op shift.

(** compiler_internal.h, [Int]: a constant with its type kind. *)
Record Int := mkInt { ival : Int128; itype : IKind }.

(** bigint.c:749-775, 857-865.  ASSERT(op1.type == op2.type) is modelled by
    using op1's type only (the theorems assume equal types). *)
Definition int_add (a b : Int) := mkInt (i128_extend (i128_add (ival a) (ival b)) (itype a)) (itype a).
Definition int_add64 (a : Int) (b : Z) := mkInt (i128_extend (i128_add64 (ival a) b) (itype a)) (itype a).
Definition int_sub (a b : Int) := mkInt (i128_extend (i128_sub (ival a) (ival b)) (itype a)) (itype a).
Definition int_sub64 (a : Int) (b : Z) := mkInt (i128_extend (i128_sub64 (ival a) b) (itype a)) (itype a).
Definition int_mul (a b : Int) := mkInt (i128_extend (i128_mult (ival a) (ival b)) (itype a)) (itype a).
Definition int_neg (a : Int) := int_sub (mkInt zero128 (itype a)) a.
Definition int_not (a : Int) := mkInt (i128_extend (i128_not (ival a)) (itype a)) (itype a).

(** bigint.c:839-855 *)
Definition int_and (a b : Int) := mkInt (i128_and (ival a) (ival b)) (itype a).
Definition int_or (a b : Int) := mkInt (i128_or (ival a) (ival b)) (itype a).
Definition int_xor (a b : Int) := mkInt (i128_xor (ival a) (ival b)) (itype a).

(** bigint.c:809-837 *)
Definition int_div (a b : Int) : Int :=
  mkInt (if ksigned (itype a) then i128_sdiv (ival a) (ival b) else i128_udiv (ival a) (ival b)) (itype a).
Definition int_rem (a b : Int) : Int :=
  mkInt (if ksigned (itype a) then i128_srem (ival a) (ival b) else i128_urem (ival a) (ival b)) (itype a).

(** bigint.c:867-883 *)
Definition int_shr64 (a : Int) (n : Z) : Int :=
  mkInt (i128_extend (if negb (ksigned (itype a)) then i128_lshr64 (ival a) n else i128_ashr64 (ival a) n) (itype a)) (itype a).
Definition int_shl64 (a : Int) (n : Z) : Int :=
  mkInt (i128_extend (i128_shl64 (ival a) n) (itype a)) (itype a).

(** bigint.c:894-898 *)
Definition int_is_neg (a : Int) : bool :=
  if negb (ksigned (itype a)) then false else i128_is_neg (ival a).

(** bigint.c:619-629 *)
Definition int_compare (a b : Int) : CmpRes :=
  if ksigned (itype a) then
    if ksigned (itype b) then i128_scomp (ival a) (ival b)
    else if int_is_neg a then CMP_LT
    else i128_ucomp (ival a) (ival b)
  else if int_is_neg b then CMP_GT
  else i128_ucomp (ival a) (ival b).

(** Comparison operators (enums.h, BinaryOp) and bigint.c:589-608 *)
Inductive CmpOp := OpGT | OpGE | OpLT | OpLE | OpNE | OpEQ.
Definition binary_op_matches_res (op : CmpOp) (r : CmpRes) : bool :=
  match op, r with
  | OpGT, CMP_GT => true | OpGT, _ => false
  | OpGE, CMP_LT => false | OpGE, _ => true
  | OpLT, CMP_LT => true | OpLT, _ => false
  | OpLE, CMP_GT => false | OpLE, _ => true
  | OpNE, CMP_EQ => false | OpNE, _ => true
  | OpEQ, CMP_EQ => true | OpEQ, _ => false
  end.

(** bigint.c:631-634 *)
Definition int_comp (a b : Int) (op : CmpOp) : bool := binary_op_matches_res op (int_compare a b).

(** bigint.c:578-587: [op1.i.low > op2] compares uint64_t with int64_t (op2 >= 0
    there), i.e. as unsigned. *)
Definition int_signed_compare (a : Int) (op2 : Z) : CmpRes :=
  if ksigned (itype a) then i128_scomp (ival a) (i128_from_signed op2)
  else if negb (high (ival a) =? 0) || (op2 <? 0) || (w64 op2 <? low (ival a)) then CMP_GT
  else if low (ival a) <? w64 op2 then CMP_LT
  else CMP_EQ.
(** bigint.c:611-617 *)
Definition int_unsigned_compare (a : Int) (op2 : Z) : CmpRes :=
  if ksigned (itype a) && i128_is_neg (ival a) then CMP_LT
  else if negb (high (ival a) =? 0) || (op2 <? low (ival a)) then CMP_GT
  else if low (ival a) <? op2 then CMP_LT
  else CMP_EQ.
(** bigint.c:636-644 *)
Definition int_icomp a op2 op := binary_op_matches_res op (int_signed_compare a op2).
Definition int_ucomp a op2 op := binary_op_matches_res op (int_unsigned_compare a op2).

(** bigint.c:646-695: the limit table of int_fits.  INT128_MIN etc. are defined
    in compiler_internal.h as the obvious bit patterns. *)
Definition fits_min (k : IKind) : Int128 :=
  match k with
  | I128 => mk128 (2 ^ 63) 0
  | I64 => i128_from_signed (- 2 ^ 63)
  | I32 => i128_from_signed (- 2 ^ 31)
  | I16 => i128_from_signed (- 2 ^ 15)
  | I8 => i128_from_signed (- 2 ^ 7)
  | _ => zero128
  end.
Definition fits_max (k : IKind) : Int128 :=
  match k with
  | I128 => mk128 (2 ^ 63 - 1) (2 ^ 64 - 1)
  | I64 => i128_from_signed (2 ^ 63 - 1)
  | I32 => i128_from_signed (2 ^ 31 - 1)
  | I16 => i128_from_signed (2 ^ 15 - 1)
  | I8 => i128_from_signed (2 ^ 7 - 1)
  | U128 => mk128 (2 ^ 64 - 1) (2 ^ 64 - 1)
  | U64 => mk128 0 (2 ^ 64 - 1)
  | U32 => mk128 0 (2 ^ 32 - 1)
  | U16 => mk128 0 (2 ^ 16 - 1)
  | U8 => mk128 0 (2 ^ 8 - 1)
  end.
(** bigint.c:696-716 *)
Definition int_fits (a : Int) (k : IKind) : bool :=
  let mn := fits_min k in
  let mx := fits_max k in
  let op_signed := ksigned (itype a) in
  if ksigned k then
    if op_signed then
      match i128_scomp (ival a) mn with
      | CMP_LT => false
      | _ => match i128_scomp (ival a) mx with CMP_GT => false | _ => true end
      end
    else match i128_ucomp (ival a) mx with CMP_GT => false | _ => true end
  else if op_signed then
    if i128_is_neg (ival a) then false
    else match i128_ucomp (ival a) mx with CMP_GT => false | _ => true end
  else match i128_ucomp (ival a) mx with CMP_GT => false | _ => true end.

(** bigint.c:777-807 *)
Definition int_conv (a : Int) (k : IKind) : Int :=
  let bitsize := kbits (itype a) in
  let to_bitsize := kbits k in
  if to_bitsize =? 128 then mkInt (ival a) k
  else
    let from_signed := ksigned (itype a) in
    let to_signed := ksigned k in
    if bitsize <? to_bitsize then
      if to_signed || Bool.eqb to_signed from_signed then mkInt (ival a) k
      else
        let shift := 128 - to_bitsize in
        mkInt (i128_lshr64 (i128_shl64 (ival a) shift) shift) k
    else
      let shift := 128 - to_bitsize in
      let without_top := i128_lshr64 (i128_shl64 (ival a) shift) shift in
      if to_signed then mkInt (i128_ashr64 (i128_shl64 without_top shift) shift) k
      else mkInt without_top k.

(** bigint.c:733-747 *)
Definition int_bits_needed (a : Int) : Z :=
  let i := ival a in
  if ksigned (itype a) then
    let i := if i128_is_neg i then i128_sub64 (i128_neg i) 1 else i in
    1 + 128 - i128_clz i
  else 128 - i128_clz i.

(** bigint.c:41-55: digit generation of i128_to_string (least significant
    first, as in [buffer]).  The do-while runs at most 128 times for base >= 2;
    [fuel] counts iterations and running out is [None].  The C buffer holds 130
    characters. *)
Fixpoint to_digits (fuel : nat) (op : Int128) (base : Z) : option (list Z) :=
  match fuel with
  | O => None
  | S f =>
    let rem := i128_urem op (mk128 0 base) in
    let d := low rem in
    let op := i128_udiv op (mk128 0 base) in
    if i128_is_zero op then Some [d]
    else match to_digits f op base with Some ds => Some (d :: ds) | None => None end
  end.

(** Character codes are Z (bytes). *)
Definition digit_char (d : Z) : Z := if d <? 10 then 48 + d else 55 + d. (* "0123456789ABCDEF" *)

(** bigint.c:41-85 without allocation: the produced string as byte list.
    The prefix chars are '0' and 'b'/'o'/'x'. *)
Definition i128_to_string (op : Int128) (base : Z) (is_signed use_prefix : bool) : option (list Z) :=
  let minus := is_signed && ISNEG (high op) in
  let op := if minus then i128_neg op else op in
  match to_digits 130 op base with
  | None => None
  | Some ds =>
    let prefix := if use_prefix then
                    (if base =? 2 then [48; 98] else if base =? 8 then [48; 111]
                     else if base =? 16 then [48; 120] else [])
                  else [] in
    Some ((if minus then [45] else []) ++ prefix ++ map digit_char (rev ds))
  end.

(** bigint.c:88-91 *)
Definition int_to_str (a : Int) (radix : Z) (use_prefix : bool) :=
  i128_to_string (ival a) radix (ksigned (itype a)) use_prefix.

(** bigint.c:105-114: c - '0' converted to uint64_t (wraps for c < '0'). *)
Definition i128_from_str (s : list Z) : Int128 :=
  fold_left (fun x c => i128_add64 (i128_mult64 x 10) (w64 (c - 48))) s zero128.
