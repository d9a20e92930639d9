(** Model of lib/std/sort: insertionsort.c3, sorted.c3, binarysearch.c3, quicksort.c3.
    A list is a Coq list; every element access is bounds-checked ([Oob]); loops take [fuel].
    The comparison is a function [cmp : A -> A -> Z]; the variants chosen at compile time
    (by value, by pointer, with context, default operators) all evaluate the same comparisons,
    so one model stands for all of them: [less a b] is [cmp a b < 0], [greater_eq a b] is
    [cmp a b >= 0].  Indices are unbounded integers: lists shorter than 2^63 keep every index in range. *)
From Coq Require Import ZArith Bool List Lia.
From Verif Require Import Word Mach.
Import ListNotations.
Open Scope Z_scope.

Section Sort.
Context {A : Type} (cmp : A -> A -> Z).

(** insertionsort.c3:29-71 [isort], the inner loop from position [j]. *)
Fixpoint isort_inner (fuel : nat) (l : list A) (low j : Z) : Res (list A) :=
  match fuel with
  | O => Fuel
  | S f =>
    if low <? j then
      rhs <- get l j ;;
      lhs <- get l (j - 1) ;;
      if 0 <=? cmp rhs lhs then Ok l
      else l1 <- set l j lhs ;; l2 <- set l1 (j - 1) rhs ;; isort_inner f l2 low (j - 1)
    else Ok l
  end.
(** insertionsort.c3:35 the outer loop. *)
Fixpoint isort_outer (inner fuel : nat) (l : list A) (low high i : Z) : Res (list A) :=
  match fuel with
  | O => Fuel
  | S f => if i <? high then l1 <- isort_inner inner l low i ;; isort_outer inner f l1 low high (i + 1) else Ok l
  end.
Definition isort (fuel : nat) (l : list A) (low high : Z) : Res (list A) := isort_outer fuel fuel l low high low.
(** insertionsort.c3:9 *)
Definition insertionsort (fuel : nat) (l : list A) : Res (list A) := isort fuel l 0 (zlen l).

(** sorted.c3:21-24: find the first non-zero comparison; returns (i, sort_order). *)
Fixpoint find_order (fuel : nat) (l : list A) (i en order : Z) : Res (Z * Z) :=
  match fuel with
  | O => Fuel
  | S f => if (i <? en) && (order =? 0) then
             a <- get l i ;; b <- get l (i + 1) ;; find_order f l (i + 1) en (cmp a b)
           else Ok (i, order)
  end.
(** sorted.c3:30-33: the product is an [int] multiplication, which wraps. *)
Fixpoint check_order (fuel : nat) (l : list A) (i en order : Z) : Res bool :=
  match fuel with
  | O => Fuel
  | S f => if i <? en then
             a <- get l i ;; b <- get l (i + 1) ;;
             if swrap 32 (order * cmp a b) <? 0 then Ok false else check_order f l (i + 1) en order
           else Ok true
  end.
(** sorted.c3:9-37 *)
Definition is_sorted (fuel : nat) (l : list A) : Res bool :=
  if zlen l <=? 1 then Ok true else
  '(i, order) <- find_order fuel l 0 (zlen l - 1) 0 ;;
  if order =? 0 then Ok true else check_order fuel l i (zlen l - 1) order.

(** binarysearch.c3:10-52; [cmp e x] compares an element with the key (the default operators
    [greater]/[less] are the sign of the same comparison). *)
Fixpoint bsearch_loop (fuel : nat) (l : list A) (x : A) (i j : Z) : Res Z :=
  match fuel with
  | O => Fuel
  | S f =>
    if i <? j then
      let half := i + (j - i) / 2 in
      e <- get l half ;;
      let res := cmp e x in
      if 0 <? res then bsearch_loop f l x i half
      else if res <? 0 then bsearch_loop f l x (half + 1) j
      else Ok half
    else Ok i
  end.
Definition binarysearch (fuel : nat) (l : list A) (x : A) : Res Z := bsearch_loop fuel l x 0 (zlen l).

(** quicksort.c3:125/129/133/137/141: [while (cmp(list[h], pivot) >= 0 && l < h) h--]. *)
Fixpoint scan_down (fuel : nat) (l : list A) (pivot : A) (lo h : Z) : Res Z :=
  match fuel with
  | O => Fuel
  | S f => e <- get l h ;; if (0 <=? cmp e pivot) && (lo <? h) then scan_down f l pivot lo (h - 1) else Ok h
  end.
(** quicksort.c3:127/...: [while (cmp(list[l], pivot) <= 0 && l < h) l++]. *)
Fixpoint scan_up (fuel : nat) (l : list A) (pivot : A) (lo h : Z) : Res Z :=
  match fuel with
  | O => Fuel
  | S f => e <- get l lo ;; if (cmp e pivot <=? 0) && (lo <? h) then scan_up f l pivot (lo + 1) h else Ok lo
  end.
(** quicksort.c3:121-146, the outer loop of [@partition]. *)
Fixpoint part_loop (inner fuel : nat) (l : list A) (pivot : A) (lo h : Z) : Res (list A * Z) :=
  match fuel with
  | O => Fuel
  | S f =>
    if lo <? h then
      h <- scan_down inner l pivot lo h ;;
      '(l, lo) <- (if lo <? h then e <- get l h ;; l1 <- set l lo e ;; Ok (l1, lo + 1) else Ok (l, lo)) ;;
      lo <- scan_up inner l pivot lo h ;;
      '(l, h) <- (if lo <? h then e <- get l lo ;; l1 <- set l h e ;; Ok (l1, h - 1) else Ok (l, h)) ;;
      part_loop inner f l pivot lo h
    else Ok (l, lo)
  end.
(** quicksort.c3:114-150 *)
Definition partition (fuel : nat) (l : list A) (lo h : Z) : Res (list A * Z) :=
  pivot <- get l lo ;;
  '(l, m) <- part_loop fuel fuel l pivot lo h ;;
  l <- set l m pivot ;;
  Ok (l, m).

(** quicksort.c3:60-80; [stack] is the 64-entry [Stack]. *)
Fixpoint qsort_loop (fuel : nat) (l : list A) (stack : list (Z * Z)) (i : Z) : Res (list A) :=
  match fuel with
  | O => Fuel
  | S f =>
    if 0 <=? i then
      '(lo, h) <- get stack i ;;
      if lo <? h then
        '(l, m) <- partition (S (length l)) l lo h ;;
        stack <- set stack (i + 1) (m + 1, h) ;;
        stack <- set stack i (lo, m) ;;
        let i := i + 1 in
        '(tl, th) <- get stack i ;;
        '(pl, ph) <- get stack (i - 1) ;;
        stack <- (if ph - pl <? th - tl
                  then s1 <- set stack i (pl, ph) ;; set s1 (i - 1) (tl, th)
                  else Ok stack) ;;
        qsort_loop f l stack i
      else qsort_loop f l stack (i - 1)
    else Ok l
  end.
(** quicksort.c3:50-82 *)
Definition qsort (fuel : nat) (l : list A) (low high : Z) : Res (list A) :=
  if (0 <=? low) && (0 <=? high) && (low <? high)
  then qsort_loop fuel l ((low, high) :: repeat (0, 0) 63) 0
  else Ok l.
(** quicksort.c3:10-19 *)
Definition quicksort (fuel : nat) (l : list A) : Res (list A) := qsort fuel l 0 (zlen l - 1).

(** quicksort.c3:97-109; [n] is max_retries.  [None] is NOT_FOUND. *)
Fixpoint qselect_loop (n : nat) (l : list A) (lo h k : Z) : Res (list A * option A) :=
  match n with
  | O => Ok (l, None)
  | S n' =>
    if lo <=? h then
      '(l, p) <- partition (S (length l)) l lo h ;;
      if k =? p then e <- get l k ;; Ok (l, Some e)
      else if k <? p then qselect_loop n' l lo (p - 1) k
      else qselect_loop n' l (p + 1) h k
    else Ok (l, None)
  end.
(** quicksort.c3:88-112; the contract [low <= k <= high] is a precondition of the theorems. *)
Definition qselect (l : list A) (low high k : Z) : Res (list A * option A) :=
  if (0 <=? low) && (0 <=? high) && (low <? high) then qselect_loop 64 l low high k else Ok (l, None).
(** quicksort.c3:30-34 *)
Definition quickselect (l : list A) (k : Z) : Res (list A * option A) := qselect l 0 (zlen l - 1) k.

End Sort.
