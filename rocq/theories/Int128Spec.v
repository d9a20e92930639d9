(** Independent specification of integer constants: values of a type and
    reduction into its range. *)
From Coq Require Import ZArith Bool List.
From Verif Require Import Word Int128Model.
Open Scope Z_scope.

(** Number denoted by a pair of words, unsigned and two's complement. *)
Definition uval (a : Int128) : Z := high a * 2 ^ 64 + low a.
Definition sval (a : Int128) : Z := if uval a <? 2 ^ 127 then uval a else uval a - 2 ^ 128.
Definition wf128 (a : Int128) : Prop := word (high a) /\ word (low a).

(** The value range of an integer type. *)
Definition kmin (k : IKind) : Z := if ksigned k then - 2 ^ (kbits k - 1) else 0.
Definition kmax (k : IKind) : Z := if ksigned k then 2 ^ (kbits k - 1) - 1 else 2 ^ kbits k - 1.
Definition in_kind (k : IKind) (z : Z) : Prop := kmin k <= z <= kmax k.

(** Reduction modulo 2^bits into the range of the type. *)
Definition wrap (k : IKind) (z : Z) : Z :=
  if ksigned k then swrap (kbits k) z else uwrap (kbits k) z.

(** The mathematical value of a constant, and constants holding a value of their type. *)
Definition value (a : Int) : Z := if ksigned (itype a) then sval (ival a) else uval (ival a).
Definition valid (a : Int) : Prop := wf128 (ival a) /\ in_kind (itype a) (value a).

(** The constant of type [k] holding [z] (used in examples). *)
Definition const (k : IKind) (z : Z) : Int :=
  mkInt (mk128 ((z mod 2 ^ 128) / 2 ^ 64) (z mod 2 ^ 64)) k.

Definition zcmp (op : CmpOp) (x y : Z) : bool :=
  match op with
  | OpGT => y <? x | OpGE => y <=? x | OpLT => x <? y | OpLE => x <=? y
  | OpNE => negb (x =? y) | OpEQ => x =? y
  end.

(** Positional notation, most significant digit first: characters '0'-'9' and
    'A'-'F' as byte codes; 45 is the minus sign. *)
Definition char_digit (c : Z) : option Z :=
  if (48 <=? c) && (c <=? 57) then Some (c - 48)
  else if (65 <=? c) && (c <=? 70) then Some (c - 55) else None.
Fixpoint read_digits (base acc : Z) (s : list Z) : option Z :=
  match s with
  | nil => Some acc
  | cons c r => match char_digit c with
              | Some d => if d <? base then read_digits base (acc * base + d) r else None
              | None => None
              end
  end.
(** A numeral without redundant zeros: "0", or digits not starting with '0'. *)
Definition canonical_digits (s : list Z) : Prop :=
  s = cons 48 nil \/ (s <> nil /\ hd 0 s <> 48).
Definition prefix_of (base : Z) : list Z :=
  if base =? 2 then cons 48 (cons 98 nil) else if base =? 8 then cons 48 (cons 111 nil)
  else if base =? 16 then cons 48 (cons 120 nil) else nil.

(** The mathematical operations the folded operators stand for. *)
Inductive ArithOp := OpAdd | OpSub | OpMul | OpAnd | OpOr | OpXor.
Definition zarith (op : ArithOp) : Z -> Z -> Z :=
  match op with
  | OpAdd => Z.add | OpSub => Z.sub | OpMul => Z.mul
  | OpAnd => Z.land | OpOr => Z.lor | OpXor => Z.lxor
  end.
(** The operator of the constant folder under test for each of them
    (sema_expr.c dispatches exactly like this). *)
Definition fold_arith (op : ArithOp) : Int -> Int -> Int :=
  match op with
  | OpAdd => int_add | OpSub => int_sub | OpMul => int_mul
  | OpAnd => int_and | OpOr => int_or | OpXor => int_xor
  end.
