(** What the 128-bit runtime must compute, in whole numbers and without the model's helpers. *)
From Coq Require Import ZArith Bool List.
Open Scope Z_scope.

Definition is_uint128 (x : Z) : Prop := 0 <= x < 2 ^ 128.
Definition is_int128 (x : Z) : Prop := - 2 ^ 127 <= x < 2 ^ 127.
(** The number in the range of `int128` that agrees with [x] modulo 2^128. *)
Definition wraps_to (x r : Z) : Prop := is_int128 r /\ exists k, r = x + k * 2 ^ 128.

(** An IEEE 754 number with [p] digits and [eb] bits of exponent, as its bits: sign, exponent, and the digits but the first. *)
Definition fraction_field (p b : Z) : Z := b mod 2 ^ (p - 1).
Definition exponent_field (p eb b : Z) : Z := (b / 2 ^ (p - 1)) mod 2 ^ eb.
Definition sign_field (p eb b : Z) : Z := b / 2 ^ (p - 1 + eb).
Definition finite (p eb b : Z) : Prop := 0 <= b < 2 ^ (p + eb) /\ exponent_field p eb b <> 2 ^ eb - 1.
(** Its value is m * 2^e. *)
Definition ieee_mantissa (p eb b : Z) : Z :=
  (if sign_field p eb b =? 0 then 1 else -1) * ((if exponent_field p eb b =? 0 then 0 else 2 ^ (p - 1)) + fraction_field p b).
Definition ieee_exponent (p eb b : Z) : Z := Z.max 1 (exponent_field p eb b) - (2 ^ (eb - 1) - 1) - (p - 1).
(** [a * 2^e] and [b * 2^d] without fractions: both sides scaled up by [scale]. *)
Definition up (e : Z) : Z := 2 ^ Z.max 0 e.
Definition down (e : Z) : Z := 2 ^ Z.max 0 (- e).
(** The bits [b] mean the whole number [y]; beyond the range they are the infinity of that sign. *)
Definition means (p eb b y : Z) : Prop :=
  if 2 ^ 2 ^ (eb - 1) <=? Z.abs y then b = (if y <? 0 then 2 ^ (p - 1 + eb) else 0) + (2 ^ eb - 1) * 2 ^ (p - 1)
  else finite p eb b /\ ieee_mantissa p eb b * up (ieee_exponent p eb b) = y * down (ieee_exponent p eb b).
(** No number m * 2^e of [p] digits is closer to [x] than [y] is; where another is as close, [b] ends in a 0. *)
Definition closest (p x y b : Z) : Prop :=
  forall m e, Z.abs m < 2 ^ p ->
    down e * Z.abs (x - y) <= Z.abs (x * down e - m * up e) /\
    (down e * Z.abs (x - y) = Z.abs (x * down e - m * up e) -> m * up e <> y * down e -> Z.even b = true).
Definition rounds_to (p eb x b : Z) : Prop := exists y, means p eb b y /\ closest p x y b.
(** The value without its fraction: m * 2^e rounded towards zero. *)
Definition truncated (p eb b : Z) : Z := Z.quot (ieee_mantissa p eb b * up (ieee_exponent p eb b)) (down (ieee_exponent p eb b)).
