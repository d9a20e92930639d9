(** What it means for a comparison to be an ordering and for a list to be sorted. *)
From Coq Require Import ZArith Bool List Permutation Sorting.Sorted.
Import ListNotations.
Open Scope Z_scope.

(** A comparison function that orders its arguments: a total preorder. *)
Record TotalPreorder {A} (cmp : A -> A -> Z) : Prop := {
  tp_anti : forall a b, Z.sgn (cmp b a) = - Z.sgn (cmp a b);
  tp_trans : forall a b c, cmp a b <= 0 -> cmp b c <= 0 -> cmp a c <= 0 }.

(** Ascending: every earlier element is at most every later one. *)
Definition Ascending {A} (cmp : A -> A -> Z) (l : list A) : Prop :=
  forall i j a b, (i < j)%nat -> nth_error l i = Some a -> nth_error l j = Some b -> cmp a b <= 0.
Definition Descending {A} (cmp : A -> A -> Z) (l : list A) : Prop :=
  forall i j a b, (i < j)%nat -> nth_error l i = Some a -> nth_error l j = Some b -> 0 <= cmp a b.

(** The elements equal to [x], in order. *)
Definition equals_of {A} (cmp : A -> A -> Z) (x : A) (l : list A) : list A := filter (fun y => cmp x y =? 0) l.
