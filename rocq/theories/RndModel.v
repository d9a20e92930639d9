(** Model of lib/std/math/random.c3 and lib/std/math/random/*.c3. *)
From Coq Require Import ZArith Bool List.
Import ListNotations.
Local Open Scope Z_scope.

Definition wrap (k x : Z) : Z := x mod 2 ^ k.
(** The builtin rotr of a value of [k] bits. *)
Definition rotr (k x n : Z) : Z := wrap k (Z.lor (Z.shiftr x (n mod k)) (Z.shiftl x (k - n mod k))).
(** Math constants: math.lcg.c3:4-12, math.mcg.c3:3-6, math.sfc.c3:8, math.simple_random.c3:32-34. *)
Definition ODD_PHI128 := 0x9e3779b97f4a7c15f39cc0605cedc835.
Definition ODD_PHI64 := 0x9e3779b97f4a7c15.
Definition ODD_PHI32 := 0x9e3779b9.
Definition ODD_PHI16 := 0x9e37.
Definition ODD_PHI8 := 0x9f.
Definition MUL_LCG128 := 0xdb36357734e34abb0050d0761fcdfc15.
Definition MUL_LCG64 := 0xd1342543de82ef95.
Definition MUL_LCG32 := 0x915f77f5.
Definition MUL_LCG16 := 0x915d.
Definition MUL_MCG128 := 0x9e3779b97f4a7c15f39cc0605cedc835.
Definition MUL_MCG64 := 0xf1357aea2e62a9c5.
Definition MUL_MCG32 := 0x93d765dd.
Definition MUL_MCG16 := 0x93d5.

(** A generator with its own width of output: one call gives a value and changes the state. *)
Definition gen (S : Type) := S -> Z * S.
(** math.lcg.c3:24-30, 51-57, 77-83, 100-106: the upper half of the state; the state has [k] bits. *)
Definition lcg (k mul add : Z) : gen Z := fun s => (Z.shiftr s (k / 2), wrap k (wrap k (s * mul) + add)).
(** math.mcg.c3:25-31, 58-64, 81-87, 107-113. *)
Definition mcg (k mul : Z) : gen Z := fun s => (Z.shiftr s (k / 2), wrap k (s * mul)).
(** math.pcg.c3:26-34, 54-62, 83-91, 111-119; [r] is the number of bits of the rotation. *)
Definition pcg (k r mul add : Z) : gen Z := fun s =>
  let shift := k / 2 - r in
  let x := Z.lxor s (Z.shiftr s ((k - shift) / 2)) in
  (rotr (k / 2) (wrap (k / 2) (Z.shiftr x shift)) (wrap 8 (Z.shiftr s (k - r))), wrap k (wrap k (s * mul) + add)).
(** math.simple_random.c3:16-21. *)
Definition simple : gen Z := fun s => let n := Z.land (wrap 64 (wrap 64 (s * 0x5DEECE66D) + 0xB)) (2 ^ 48 - 1) in (wrap 32 (Z.shiftr n 16), n).
Definition four := (Z * Z * Z * Z)%type.
(** math.sfc.c3:20-29, 50-59, 79-88, 109-118, 139-148. *)
Definition sfc (k r l q phi : Z) : gen four := fun '(s0, s1, s2, s3) =>
  let result := wrap k (s0 + s1 + s3) in
  (result, (Z.lxor s1 (Z.shiftr s1 r), wrap k (s2 + wrap k (Z.shiftl s2 l)), wrap k (rotr k s2 q + result), wrap k (s3 + phi))).
(** math.msws.c3:23-36, 60-73, 97-110, 135-148, 171-184; the state is state0, state1, weyl0, weyl1. *)
Definition msws (k phi : Z) : gen four := fun '(a, b, v, w) =>
  let b' := wrap k (wrap k (b * b) + w) in
  (wrap k (a + b'), (rotr k (wrap k (wrap k (a * a) + v)) (k / 2), rotr k b' (k / 2), wrap k (v + phi), wrap k (w - phi))).
Definition Lcg128 := lcg 128 MUL_LCG128 ODD_PHI128.
Definition Lcg64 := lcg 64 MUL_LCG64 ODD_PHI64.
Definition Lcg32 := lcg 32 MUL_LCG32 ODD_PHI32.
Definition Lcg16 := lcg 16 MUL_LCG16 ODD_PHI16.
Definition Pcg128 := pcg 128 6 MUL_LCG128 ODD_PHI128.
Definition Pcg64 := pcg 64 5 MUL_LCG64 ODD_PHI64.
Definition Pcg32 := pcg 32 4 MUL_LCG32 ODD_PHI32.
Definition Pcg16 := pcg 16 3 MUL_LCG16 ODD_PHI16.
Definition Mcg128 := mcg 128 MUL_MCG128.
Definition Mcg64 := mcg 64 MUL_MCG64.
Definition Mcg32 := mcg 32 MUL_MCG32.
Definition Mcg16 := mcg 16 MUL_MCG16.
Definition Sfc128 := sfc 128 11 3 40 ODD_PHI128.
Definition Sfc64 := sfc 64 11 3 40 ODD_PHI64.
Definition Sfc32 := sfc 32 9 3 11 ODD_PHI32.
Definition Sfc16 := sfc 16 2 3 12 ODD_PHI16.
Definition Sfc8 := sfc 8 1 2 3 ODD_PHI8.
Definition Msws128 := msws 128 ODD_PHI128.
Definition Msws64 := msws 64 ODD_PHI64.
Definition Msws32 := msws 32 ODD_PHI32.
Definition Msws16 := msws 16 ODD_PHI16.
Definition Msws8 := msws 8 ODD_PHI8.
(** math.mcg.c3:14, 47, 78, 104: the seed of an Mcg. *)
Definition mcg_seed (x : Z) : Z := Z.lor x 1.

Section Widths.
Context {S : Type} (g : gen S) (b : Z).
(** random.c3:138-141: a value of twice the width is made of two, [d] times; [b] is the width of the generator. *)
Fixpoint wide (d : nat) : gen S :=
  match d with
  | O => g
  | Datatypes.S d => fun s => let (x, s) := wide d s in let (y, s) := wide d s in (Z.shiftl x (b * 2 ^ Z.of_nat d) + y, s)
  end.
(** The casts, e.g. math.lcg.c3:37-39. *)
Definition narrow (t : Z) : gen S := fun s => let (x, s) := g s in (wrap t x, s).
Fixpoint le_bytes (n : nat) (x : Z) : list Z := match n with O => [] | Datatypes.S n => x mod 256 :: le_bytes n (x / 256) end.
(** random.c3:143-161 @random_value_to_bytes: [size] is the number of bytes of a value; [None] when the fuel is used up or nothing was asked for. *)
Fixpoint to_bytes (fuel : nat) (size len : nat) (s : S) : option (list Z * S) :=
  match fuel with
  | O => None
  | Datatypes.S fuel =>
    match len with
    | O => None
    | _ =>
      let (v, s) := g s in
      if (len <=? size)%nat then Some (firstn len (le_bytes size v), s)
      else match to_bytes fuel size (len - size) s with Some (r, s) => Some (le_bytes size v ++ r, s) | None => None end
    end
  end.
End Widths.
(** math.sfc.c3:35: next_long of Sfc128Random. *)
Definition Sfc128_next_long : gen four := narrow Sfc128 32.

Section Range.
Context {S : Type} (next_int : gen S).
(** The mask of random.c3:41-43: the ones from the highest bit of [r] down; ~0 >> clz r for r > 0. *)
Definition mask (r : Z) : Z := Z.shiftr (2 ^ 32 - 1) (31 - Z.log2 r).
(** random.c3:44-49. *)
Fixpoint pick_loop (fuel : nat) (r : Z) (s : S) : option (Z * S) :=
  match fuel with
  | O => None
  | Datatypes.S fuel => let (v, s) := next_int s in let x := Z.land v (mask r) in if r <? x then pick_loop fuel r s else Some (x, s)
  end.
(** random.c3:38-50 next; the result is a 32-bit pattern. *)
Definition pick (fuel : nat) (range : Z) (s : S) : option (Z * S) := if range =? 1 then Some (0, s) else pick_loop fuel (wrap 32 (range - 1)) s.
Definition int32 (x : Z) : Z := let y := x mod 2 ^ 32 in if y <? 2 ^ 31 then y else y - 2 ^ 32.
Inductive picked := Value (x : Z) (s : S) | Loops | Contract.
(** random.c3:58-61 next_in_range, with the contract of next (range > 0). *)
Definition pick_in_range (fuel : nat) (lo hi : Z) (s : S) : picked :=
  let range := wrap 32 (hi - lo + 1) in
  if range =? 0 then Contract else
  match pick fuel range s with Some (x, s) => Value (int32 (int32 x + lo)) s | None => Loops end.
End Range.

(** math.seeder.c3:20-68 seeder. *)
Definition xs25 (w : Z) : Z := Z.lxor w (Z.shiftr w 25).
Fixpoint put (j : nat) (x : Z) (w : list Z) : list Z :=
  match w, j with
  | [], _ => []
  | _ :: r, O => x :: r
  | y :: r, S j => y :: put j x r
  end.
Definition word (w : list Z) (j : nat) : Z := nth j w 0.
Fixpoint le_word (l : list Z) : Z := match l with [] => 0 | x :: r => x + 256 * le_word r end.
Definition absorb (w : list Z) (j : nat) (x : Z) : list Z := put j (xs25 (wrap 64 (word w j - wrap 64 (x * MUL_LCG64)))) w.
(** lines 33-39 *)
Fixpoint absorb_words (n i : nat) (input : list Z) (w : list Z) : list Z :=
  match n with
  | O => w
  | S n => absorb_words n (S i) input (absorb w (i mod length w) (le_word (firstn 8 (skipn (i * 8) input))))
  end.
(** lines 41-49 *)
Definition absorb_rest (input w : list Z) : list Z :=
  let m := (length input / 8 * 8)%nat in
  let rest := skipn m input in
  if (length rest =? 0)%nat then w else absorb w (length w - 1) (le_word (rest ++ skipn (length rest) (le_bytes 8 MUL_MCG64))).
(** lines 51-57; the loop runs down from [n - 1]. *)
Fixpoint mix_between (n : nat) (w : list Z) : list Z :=
  match n with
  | O => w
  | S i => let j := (i mod length w)%nat in mix_between i (put j (xs25 (wrap 64 (word w j - wrap 64 (word w (S i mod length w) * MUL_LCG64)))) w)
  end.
(** lines 59-65 *)
Fixpoint mix_within (n i : nat) (w : list Z) : list Z :=
  match n with
  | O => w
  | S n => let j := (i mod length w)%nat in mix_within n (S i) (put j (xs25 (wrap 64 (word w j * MUL_MCG64))) w)
  end.
Definition seed_words (input : list Z) (out_chars : nat) : list Z :=
  let w := repeat ODD_PHI64 ((out_chars + 7) / 8) in
  let n := (length w * 2)%nat in
  mix_within n 0 (mix_between n (absorb_rest input (absorb_words (length input / 8) 0 input w))).
Definition seeder (input : list Z) (out_chars : nat) : list Z := firstn out_chars (concat (map (le_bytes 8) (seed_words input out_chars))).
(** The seeding of a Sfc64Random (math.sfc.c3:45-48), the default (random.c3:71-75). *)
Definition srand (seed : Z) : four := match seed_words (le_bytes 8 seed) 32 with [a; b; c; d] => (a, b, c, d) | _ => (0, 0, 0, 0) end.
