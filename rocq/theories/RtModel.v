(** The 128-bit runtime of lib/std/math/runtime/i128.c3: the routines the compiled program calls where the machine has no 128-bit
    instruction.  A `ulong` is an integer in [0, 2^64), a `uint128` one in [0, 2^128), an `int128` one in [-2^127, 2^127).
    [Oob] is an operation that is undefined or stops the program: a division by zero or a shift by the width of the type or more.
    Simplifications: little-endian layout of the union [Int128bits] (its first member is the lower half); the operations on
    `int128` and `uint128` that the routines use themselves (addition, subtraction, comparison, bit operations, shifts by
    constants) are those of the machine integers. *)
From Coq Require Import ZArith Bool List.
From Verif Require Import Mach.
Open Scope Z_scope.

Definition u32 (x : Z) : Z := x mod 2 ^ 32.
Definition u64 (x : Z) : Z := x mod 2 ^ 64.
Definition u128 (x : Z) : Z := x mod 2 ^ 128.
Definition i128 (x : Z) : Z := let r := x mod 2 ^ 128 in if r <? 2 ^ 127 then r else r - 2 ^ 128.
(** Shifts of a `ulong`; [>>] of an `int128` is arithmetic, of a `ulong` or `uint128` logical. *)
Definition shl64 (a n : Z) : Res Z := if (0 <=? n) && (n <? 64) then Ok (u64 (Z.shiftl a n)) else Oob.
Definition shr64 (a n : Z) : Res Z := if (0 <=? n) && (n <? 64) then Ok (Z.shiftr a n) else Oob.
Definition div64 (a b : Z) : Res Z := if b =? 0 then Oob else Ok (a / b).
Definition mod64 (a b : Z) : Res Z := if b =? 0 then Oob else Ok (a mod b).
(** [$$clz], [$$ctz] of a `ulong` that is not zero, and [$$clz] of a 128-bit number. *)
Definition clz64 (a : Z) : Z := 63 - Z.log2 a.
Fixpoint ctz_pos (p : positive) : Z := match p with xO q => 1 + ctz_pos q | _ => 0 end.
Definition ctz64 (a : Z) : Z := match a with Zpos p => ctz_pos p | _ => 64 end.
Definition clz128 (a : Z) : Z := 127 - Z.log2 (u128 a).
(** i128.c3:205-213: [union Int128bits]. *)
Definition low (a : Z) : Z := u64 a.
Definition high (a : Z) : Z := u64 (Z.shiftr a 64).
Definition all (l h : Z) : Z := h * 2 ^ 64 + l.

(** i128.c3:159-177: the loop, [n] the iterations left; the words of r and q, and carry. *)
Fixpoint div_loop (n : nat) (d rl rh ql qh carry : Z) : Res (Z * Z * Z) :=
  match n with
  | O => Ok (all rl rh, all ql qh, carry)
  | S m =>
    let rh' := Z.lor (u64 (Z.shiftl rh 1)) (Z.shiftr rl 63) in
    let rl' := Z.lor (u64 (Z.shiftl rl 1)) (Z.shiftr qh 63) in
    let qh' := Z.lor (u64 (Z.shiftl qh 1)) (Z.shiftr ql 63) in
    let ql' := Z.lor (u64 (Z.shiftl ql 1)) carry in
    let r := all rl' rh' in
    let s := Z.shiftr (i128 (d - r - 1)) 127 in
    let carry' := Z.land s 1 in
    let r' := u128 (r - Z.land d (u128 s)) in
    div_loop m d (low r') (high r') ql' qh' carry'
  end.
(** i128.c3:152-183: from the loop to the end. *)
Definition div_tail (rem : bool) (d sr rl rh ql qh : Z) : Res Z :=
  '(r, q, carry) <- div_loop (Z.to_nat sr) d rl rh ql qh 0 ;;
  if rem then Ok r else Ok (Z.lor (u128 (Z.shiftl q 1)) carry).
(** i128.c3:13-183: [@__udivmodti4]. *)
Definition udivmod (rem : bool) (a b : Z) : Res Z :=
  let nl := low a in let nh := high a in let dl := low b in let dh := high b in
  if nh =? 0 then
    if dh =? 0 then (if rem then mod64 nl dl else div64 nl dl)
    else Ok (if rem then nl else 0)
  else if dl =? 0 then
    if dh =? 0 then (if rem then mod64 nh dl else div64 nh dl)
    else if nl =? 0 then
      if rem then (h <- mod64 nh dh ;; Ok (all 0 h)) else div64 nh dh
    else if Z.land dh (u64 (dh - 1)) =? 0 then
      if rem then Ok (all nl (Z.land nh (u64 (dh - 1)))) else shr64 nh (ctz64 dh)
    else
      let sr := u32 (clz64 dh - clz64 nh) in
      if 62 <? sr then Ok (if rem then a else 0) else
      let sr := u32 (sr + 1) in
      qh <- shl64 nl (u32 (64 - sr)) ;;
      rh <- shr64 nh sr ;;
      t <- shl64 nh (u32 (64 - sr)) ;; v <- shr64 nl sr ;;
      div_tail rem b sr (Z.lor t v) rh 0 qh
  else if dh =? 0 then
    if Z.land dl (u64 (dl - 1)) =? 0 then
      if rem then Ok (Z.land nl (u64 (dl - 1)))
      else if dl =? 1 then Ok a else
        let sr := ctz64 dl in
        qh <- shr64 nh sr ;;
        t <- shl64 nh (u32 (64 - sr)) ;; v <- shr64 nl sr ;;
        Ok (all (Z.lor t v) qh)
    else
      let sr := u32 (1 + 64 + clz64 dl - clz64 nh) in
      if sr =? 64 then div_tail rem b sr nh 0 0 nl
      else if sr <? 64 then
        qh <- shl64 nl (u32 (64 - sr)) ;;
        rh <- shr64 nh sr ;;
        t <- shl64 nh (u32 (64 - sr)) ;; v <- shr64 nl sr ;;
        div_tail rem b sr (Z.lor t v) rh 0 qh
      else
        ql <- shl64 nl (u32 (128 - sr)) ;;
        t <- shl64 nh (u32 (128 - sr)) ;; v <- shr64 nl (u32 (sr - 64)) ;;
        rl <- shr64 nh (u32 (sr - 64)) ;;
        div_tail rem b sr rl 0 ql (Z.lor t v)
  else
    let sr := u32 (clz64 dh - clz64 nh) in
    if 63 <? sr then Ok (if rem then a else 0) else
    let sr := u32 (sr + 1) in
    if sr =? 64 then div_tail rem b sr nh 0 0 nl
    else
      rh <- shr64 nh sr ;;
      t <- shl64 nh (u32 (64 - sr)) ;; v <- shr64 nl sr ;;
      qh <- shl64 nl (u32 (64 - sr)) ;;
      div_tail rem b sr (Z.lor t v) rh 0 qh.
(** i128.c3:185-193: [__umodti3], [__udivti3]. *)
Definition udivti3 (a b : Z) : Res Z := udivmod false a b.
Definition umodti3 (a b : Z) : Res Z := udivmod true a b.
(** i128.c3:3-11: [__divti3]; [^] binds tighter than [+]. *)
Definition divti3 (a b : Z) : Res Z :=
  let sign_a := Z.shiftr a 127 in let sign_b := Z.shiftr b 127 in
  let ua := u128 (u128 (Z.lxor a sign_a) + i128 (- sign_a)) in
  let ub := u128 (u128 (Z.lxor b sign_b) + i128 (- sign_b)) in
  let s := Z.lxor sign_a sign_b in
  q <- udivti3 ua ub ;; Ok (i128 (Z.lxor q (u128 s) + (- s))).
(** i128.c3:195-203: [__modti3]. *)
Definition modti3 (a b : Z) : Res Z :=
  let sign_b := Z.shiftr b 127 in
  let ub := u128 (u128 (Z.lxor b sign_b) + i128 (- sign_b)) in
  let s := Z.shiftr a 127 in
  let ua := u128 (u128 (Z.lxor a s) + i128 (- s)) in
  r <- umodti3 ua ub ;; Ok (i128 (Z.lxor r (u128 s) + (- s))).

(** i128.c3:215-231: [__lshrti3]. *)
Definition lshrti3 (a b : Z) : Res Z :=
  if 64 <=? b then (l <- shr64 (high a) (b - 64) ;; Ok (all l 0))
  else if b =? 0 then Ok a else
  t <- shl64 (high a) (64 - b) ;; v <- shr64 (low a) b ;; h <- shr64 (high a) b ;; Ok (all (Z.lor t v) h).
(** i128.c3:233-249: [__ashrti3]; the members of the union are of type `ulong`. *)
Definition ashrti3 (a b : Z) : Res Z :=
  if 64 <=? b then (l <- shr64 (high a) (b - 64) ;; h <- shr64 (high a) 63 ;; Ok (i128 (all l h)))
  else if b =? 0 then Ok a else
  t <- shl64 (high a) (64 - b) ;; v <- shr64 (low a) b ;; h <- shr64 (high a) b ;; Ok (i128 (all (Z.lor t v) h)).
(** i128.c3:251-267: [__ashlti3]; the lower half is cleared before it is used. *)
Definition ashlti3 (a b : Z) : Res Z :=
  if 64 <=? b then (let l := 0 in h <- shl64 l (b - 64) ;; Ok (i128 (all l h)))
  else if b =? 0 then Ok a else
  t <- shl64 (high a) b ;; v <- shr64 (low a) (64 - b) ;; l <- shl64 (low a) b ;; Ok (i128 (all l (Z.lor t v))).

(** i128.c3:271-288: [__mulddi3]. *)
Definition mulddi3 (a b : Z) : Z :=
  let mask := 2 ^ 32 - 1 in
  let rl := u64 (Z.land a mask * Z.land b mask) in
  let t := Z.shiftr rl 32 in
  let rl := Z.land rl mask in
  let t := u64 (t + u64 (Z.shiftr a 32 * Z.land b mask)) in
  let rl := u64 (rl + u64 (Z.shiftl (Z.land t mask) 32)) in
  let rh := Z.shiftr t 32 in
  let t := Z.shiftr rl 32 in
  let rl := Z.land rl mask in
  let t := u64 (t + u64 (Z.shiftr b 32 * Z.land a mask)) in
  let rl := u64 (rl + u64 (Z.shiftl (Z.land t mask) 32)) in
  let rh := u64 (rh + Z.shiftr t 32) in
  let rh := u64 (rh + u64 (Z.shiftr a 32 * Z.shiftr b 32)) in
  all rl rh.
(** i128.c3:290-297: [__multi3]. *)
Definition multi3 (a b : Z) : Z :=
  let r := mulddi3 (low a) (low b) in
  i128 (all (low r) (u64 (high r + u64 (u64 (high a * low b) + u64 (low a * high b))))).

(** The formats of [float_from_i128], [float_from_u128], [fixuint] and [fixint]: i128.c3:311-333, 425-442. *)
Record fmt := Fmt { mant : Z; sig : Z; bias : Z; ebits : Z }.
Definition float_fmt : fmt := Fmt 24 23 127 8.
Definition double_fmt : fmt := Fmt 53 52 1023 11.
Definition width (f : fmt) : Z := ebits f + sig f + 1.
Definition bit (b : bool) : Z := if b then 1 else 0.
(** i128.c3:338-364 and 391-417: the digits and the exponent; [w] wraps to the type of the argument, `int128` or `uint128`. *)
Definition round_digits (f : fmt) (w : Z -> Z) (a : Z) : Z * Z :=
  let sd := 128 - clz128 a in
  let e := sd - 1 in
  if mant f <? sd then
    let a := if sd =? mant f + 1 then w (Z.shiftl a 1)
             else if sd =? mant f + 2 then a
             else Z.lor (Z.shiftr a (sd - (mant f + 2))) (bit (negb (Z.land a (Z.shiftr (2 ^ 128 - 1) (128 + mant f + 2 - sd)) =? 0))) in
    let a := Z.lor a (bit (negb (Z.land a 4 =? 0))) in
    let a := w (a + 1) in
    let a := Z.shiftr a 2 in
    if negb (Z.land a (Z.shiftl 1 (mant f)) =? 0) then (Z.shiftr a 1, e + 1) else (a, e)
  else (w (Z.shiftl a (mant f - sd)), e).
Definition rep (f : fmt) (x : Z) : Z := x mod 2 ^ width f.
Definition pack (f : fmt) (sign e a : Z) : Z :=
  Z.lor (Z.lor (Z.land (rep f sign) (2 ^ (width f - 1))) (rep f (Z.shiftl (rep f (rep f e + bias f)) (sig f)))) (Z.land (rep f a) (2 ^ sig f - 1)).
(** i128.c3:309-366: [float_from_i128]; the result is the bits of the float. *)
Definition float_from_i128 (f : fmt) (a : Z) : Z :=
  if a =? 0 then 0 else
  let sign := Z.shiftr a 127 in
  let a := i128 (Z.lxor a sign - sign) in
  let '(m, e) := round_digits f i128 a in pack f sign e m.
(** i128.c3:368-420: [float_from_u128]. *)
Definition float_from_u128 (f : fmt) (a : Z) : Z :=
  if a =? 0 then 0 else let '(m, e) := round_digits f u128 a in pack f 0 e m.

(** i128.c3:423-465: [fixuint], of the bits of a float; an `int` is 32 bits. *)
Definition int32 (x : Z) : Z := let r := x mod 2 ^ 32 in if r <? 2 ^ 31 then r else r - 2 ^ 32.
Definition abs_rep (f : fmt) (r : Z) : Z := Z.land r (2 ^ (width f - 1) - 1).
Definition neg_rep (f : fmt) (r : Z) : bool := negb (Z.land r (2 ^ (width f - 1)) =? 0).
Definition exp_rep (f : fmt) (r : Z) : Z := int32 (rep f (Z.shiftr (abs_rep f r) (sig f) - bias f)).
Definition sig_rep (f : fmt) (r : Z) : Z := Z.lor (Z.land (abs_rep f r) (2 ^ sig f - 1)) (2 ^ sig f).
Definition fixuint (f : fmt) (r : Z) : Z :=
  let e := exp_rep f r in
  if neg_rep f r || (e <? 0) then 0
  else if 128 <=? e then 2 ^ 128 - 1
  else if e <? sig f then Z.shiftr (sig_rep f r) (sig f - e) else u128 (Z.shiftl (sig_rep f r) (e - sig f)).
(** i128.c3:467-510: [fixint]. *)
Definition fixint (f : fmt) (r : Z) : Z :=
  let e := exp_rep f r in
  let sign := if neg_rep f r then -1 else 1 in
  if e <? 0 then 0
  else if 128 <=? e then (if sign =? 1 then 2 ^ 127 - 1 else - 2 ^ 127)
  else if e <? sig f then i128 (sign * Z.shiftr (sig_rep f r) (sig f - e)) else i128 (sign * i128 (Z.shiftl (sig_rep f r) (e - sig f))).
