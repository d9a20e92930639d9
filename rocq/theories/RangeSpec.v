(** What a range of integers is: the values between its ends, in order. *)
From Coq Require Import ZArith Bool List.
From Verif Require Import Mach RangeModel.
Import ListNotations.
Local Open Scope Z_scope.

(** The values of a type of 8, 16, 32 or 64 bits. *)
Definition value (t : int_type) (v : Z) : Prop :=
  match t with
  | Int false b => In b [8; 16; 32; 64] /\ 0 <= v < 2 ^ b
  | Int true b => In b [8; 16; 32; 64] /\ - 2 ^ (b - 1) <= v < 2 ^ (b - 1)
  end.
(** The ends are so far apart that their difference is not a value of int. *)
Definition too_far (t : int_type) (d : Z) : Prop := t = Int true 32 /\ 2 ^ 31 <= d.
(** A length [n] and a function [f] from indices number the values of type [t] between [lo] and [hi], in increasing order, and other indices are refused. *)
Definition numbers (t : int_type) (lo hi : Z) (mem : Z -> bool) (n : Z) (f : Z -> Res Z) : Prop :=
  n = Z.max 0 (hi - lo + 1) /\
  (forall v, value t v -> (mem v = true <-> lo <= v <= hi)) /\
  (forall v, value t v -> (mem v = true <-> exists i, 0 <= i < n /\ f i = Ok v)) /\
  (forall i j, 0 <= i -> i < j -> j < n -> exists v w, f i = Ok v /\ f j = Ok w /\ v < w) /\
  (forall i, n <= i -> f i = Oob).
