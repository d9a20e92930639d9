(** Model of lib/std/collections/priorityqueue.c3.  The List under the heap is a sequence (C36).
    [before] is [less] for PriorityQueue and [greater] for PriorityQueueMax: the two versions of each test
    in the code are the same test on [before], since [greater(a, b)] is [less(b, a)] (builtin_comparison.c3:39-49). *)
From Coq Require Import ZArith Bool List.
From Verif Require Import Mach.
Import ListNotations.
Open Scope Z_scope.

Section Pq.
Context {A : Type}.
Variable before : A -> A -> bool.

(** list.c3:287-293: List.swap *)
Definition swap (l : list A) (i j : Z) : Res (list A) :=
  x <- get l i ;; y <- get l j ;; l <- set l i y ;; set l j x.
(** priorityqueue.c3:54-67 *)
Fixpoint sift_up (fuel : nat) (l : list A) (i : Z) : Res (list A) :=
  match fuel with
  | O => Fuel
  | S f =>
    if 0 <? i then
      let parent := (i - 1) / 2 in
      item <- get l i ;;
      pitem <- get l parent ;;
      if before item pitem then l <- swap l i parent ;; sift_up f l parent else Ok l
    else Ok l
  end.
(** priorityqueue.c3:50-68 *)
Definition pq_push (fuel : nat) (l : list A) (x : A) : Res (list A) :=
  let l := l ++ [x] in sift_up fuel l (zlen l - 1).
(** priorityqueue.c3:93-115 *)
Fixpoint sift_down (fuel : nat) (l : list A) (n i : Z) : Res (list A) :=
  match fuel with
  | O => Fuel
  | S f =>
    if 2 * i + 1 <? n then
      let j := 2 * i + 1 in
      left <- get l j ;;
      item <- get l i ;;
      let default := if before left item then l <- swap l i j ;; sift_down f l n j else Ok l in
      if j + 1 <? n then
        right <- get l (j + 1) ;;
        if before right left then
          if before right item then l <- swap l i (j + 1) ;; sift_down f l n (j + 1) else Ok l
        else default
      else default
    else Ok l
  end.
(** priorityqueue.c3:85-118; [None] is NO_MORE_ELEMENT. *)
Definition pq_pop (fuel : nat) (l : list A) : Res (option A * list A) :=
  let len := zlen l in
  if len =? 0 then Ok (None, l) else
  let n := len - 1 in
  l <- swap l 0 n ;;
  l <- sift_down fuel l n 0 ;;
  match rev l with [] => Ok (None, l) | x :: _ => Ok (Some x, removelast l) end.
(** priorityqueue.c3:70-81 *)
Definition pq_remove_at (fuel : nat) (l : list A) (index : Z) : Res (list A) :=
  if index =? 0 then ('(_, l) <- pq_pop fuel l ;; Ok l)
  else _ <- get l index ;; Ok (firstn (Z.to_nat index) l ++ skipn (Z.to_nat (index + 1)) l).
(** priorityqueue.c3:120-123 *)
Definition pq_first (l : list A) : option A := match l with [] => None | x :: _ => Some x end.
End Pq.
