(** Specification: the mathematical value of a bit pattern of a type, and the
    situations in which the operand widening sees the builtin type. *)
From Coq Require Import ZArith Bool.
From Verif Require Import Word Int128Model Int128Spec CmpModel.
Open Scope Z_scope.

Definition bits_value (k : IKind) (v : Z) : Z := if ksigned k then swrap (kbits k) v else v.
Definition is_bits (k : IKind) (v : Z) : Prop := 0 <= v < 2 ^ kbits k.

(** In a mixed comparison of different widths the narrower signed operand has
    the builtin type itself rather than an alias. *)
Definition narrow_signed_is_plain (l r : OpTy) : Prop :=
  (ksigned (kind l) = true -> ksigned (kind r) = false -> kbits (kind l) < kbits (kind r) -> plain l = true) /\
  (ksigned (kind r) = true -> ksigned (kind l) = false -> kbits (kind r) < kbits (kind l) -> plain r = true).
