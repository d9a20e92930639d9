(** What indexing and slicing mean, from the language alone. *)
From Coq Require Import ZArith Bool List.
From Verif Require Import SliceModel.
Import ListNotations.
Local Open Scope Z_scope.

(** The values of a 64-bit integer type. *)
Definition typed (sg : bool) (v : Z) : Prop := if sg then - 2 ^ 63 <= v < 2 ^ 63 else 0 <= v < 2 ^ 64.
(** A range as the parser makes it, on an object of [n] elements, of which [len] says what is known at compile time. *)
Definition well_formed (sg : bool) (len : option Z) (n : Z) (r : range) : Prop :=
  typed sg (val (start r)) /\ (forall o, stop r = Some o -> typed sg (val o)) /\
  0 <= n < 2 ^ 63 /\ (forall m, len = Some m -> m = n /\ n <= MAX) /\
  (stop r = None -> efe r = false /\ is_len r = false).
(** The first element meant by a range, and how many: [a..b] has b - a + 1 elements, [a:k] has k, [^k] is k places before the end. *)
Definition first (n : Z) (r : range) : Z := if sfe r then n - val (start r) else val (start r).
Definition count (n : Z) (r : range) : Z :=
  match stop r with
  | None => n - first n r
  | Some o => let v := if efe r then n - val o else val o in if is_len r then v else v - first n r + 1
  end.
(** The range lies inside: only a range with a length or without an end may be empty. *)
Definition inside (n : Z) (r : range) : Prop :=
  0 <= first n r /\ first n r + count n r <= n /\
  (if is_len r then 0 <= count n r else match stop r with Some _ => 1 <= count n r | None => 0 <= count n r end).
(** What the compiler gets wrong, and the theorems exclude: a constant start counted from the end of a known length when the end is not
    constant; and a constant start, or a number of elements between two constants, of more than 31 bits. *)
Definition folded_tail (len : option Z) (r : range) : Prop := sfe r = true /\ cst (start r) = true /\ len <> None /\ (exists o, stop r = Some o /\ cst o = false).
Definition const_stop (r : range) : Prop := match stop r with Some o => cst o = true | None => True end.
Definition too_far (n : Z) (r : range) : Prop :=
  cst (start r) = true /\ (is_len r = true /\ MAX < val (start r) \/ is_len r = false /\ const_stop r /\ MAX < count n r).
(** A length that is negative, or so large that start plus length is no value of the type. *)
Definition sane_length (sg : bool) (n : Z) (r : range) : Prop := is_len r = true -> 0 <= count n r /\ first n r + count n r < (if sg then 2 ^ 63 else 2 ^ 64).
(** The offsets from [a], [k] of them. *)
Definition offsets (a k : Z) : list Z := map (fun j => a + Z.of_nat j) (seq 0 (Z.to_nat k)).
(** The part of a list from [a], [k] elements. *)
Definition part {T} (l : list T) (a k : Z) : list T := firstn (Z.to_nat k) (skipn (Z.to_nat a) l).
(** The number a word of [w] bits stands for. *)
Definition number (sg : bool) (w v : Z) : Z := if sg && (2 ^ (w - 1) <=? v) then v - 2 ^ w else v.
