(** One text becomes another by single edits. *)
From Coq Require Import ZArith List.
From Verif Require Import NameModel.
Import ListNotations.

(** [Edits a b n]: [n] insertions, deletions, replacements or swaps of neighbours turn [a] into [b]. *)
Inductive Edits : text -> text -> nat -> Prop :=
| edits_end : Edits [] [] 0
| edits_keep c a b n : Edits a b n -> Edits (c :: a) (c :: b) n
| edits_insert c a b n : Edits a b n -> Edits a (c :: b) (S n)
| edits_delete c a b n : Edits a b n -> Edits (c :: a) b (S n)
| edits_replace c d a b n : Edits a b n -> Edits (c :: a) (d :: b) (S n)
| edits_swap c d a b n : Edits a b n -> Edits (c :: d :: a) (d :: c :: b) (S n).
(** The distance of two texts: the least number of edits. *)
Definition Distance (a b : text) (n : nat) : Prop := Edits a b n /\ forall m, Edits a b m -> (n <= m)%nat.
