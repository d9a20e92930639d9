(** Machine words: unsigned 64-bit arithmetic as used by the C sources.
    C's [uint64_t] operations wrap modulo 2^64; a word is a [Z] in [0, 2^64). *)
From Coq Require Import ZArith Bool List Lia.
From Coq Require Import ZifyBool.
Open Scope Z_scope.

Definition W : Z := 2 ^ 64.
Definition w64 (x : Z) : Z := x mod W.
Definition wadd (a b : Z) : Z := w64 (a + b).
Definition wsub (a b : Z) : Z := w64 (a - b).
Definition wmul (a b : Z) : Z := w64 (a * b).
Definition wnot (a : Z) : Z := W - 1 - a.           (* ~a on uint64_t *)
Definition wshl (a n : Z) : Z := w64 (Z.shiftl a n).  (* a << n, 0 <= n < 64 *)
Definition wshr (a n : Z) : Z := Z.shiftr a n.        (* a >> n *)
Definition word (x : Z) : Prop := 0 <= x < W.

(** Reinterpretation of a uint64_t as int64_t. *)
Definition s64 (a : Z) : Z := if a <? 2 ^ 63 then a else a - W.

(** Wrapping into [bits] bits, unsigned and signed (two's complement). *)
Definition uwrap (bits x : Z) : Z := x mod 2 ^ bits.
Definition swrap (bits x : Z) : Z :=
  let r := x mod 2 ^ bits in if r <? 2 ^ (bits - 1) then r else r - 2 ^ bits.
