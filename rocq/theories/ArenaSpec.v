(** What an allocator promises. *)
From Coq Require Import ZArith List Lia.
Import ListNotations.
Open Scope Z_scope.

(** Blocks are (address, size). *)
Definition disjoint (b c : Z * Z) : Prop := fst b + snd b <= fst c \/ fst c + snd c <= fst b.
Definition within (lo hi : Z) (b : Z * Z) : Prop := lo <= fst b /\ fst b + snd b <= hi.
Definition aligned (n : Z) (b : Z * Z) : Prop := (fst b) mod n = 0.
Definition pairwise_disjoint (l : list (Z * Z)) : Prop :=
  forall i j b c, i <> j -> nth_error l i = Some b -> nth_error l j = Some c -> disjoint b c.
(** The next multiple of 16. *)
Definition up16 (n : Z) : Z := 16 * ((n + 15) / 16).
Fixpoint sum (l : list Z) : Z := match l with [] => 0 | x :: r => x + sum r end.
