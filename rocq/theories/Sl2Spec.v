(** What a view of a two-dimensional array is: the rectangle of its rows and columns. *)
From Coq Require Import ZArith Bool List.
From Verif Require Import Mach Sl2Model.
Import ListNotations.
Local Open Scope Z_scope.

Section Spec.
Context {A : Type}.
(** Some rows of the same length. *)
Definition array (inner : Z) (rows : list (list A)) : Prop := Forall (fun r => zlen r = inner) rows.
Definition part (start n : Z) {B} (l : list B) : list B := firstn (Z.to_nat n) (skipn (Z.to_nat start) l).
(** The rectangle at (x, y) of the given width and height. *)
Definition rectangle (x w y h : Z) (rows : list (list A)) : list (list A) := map (part x w) (part y h rows).
(** A request (x, xlen, y, ylen) within a view of width [w] and height [h]. *)
Definition width (len whole : Z) : Z := if len <? 1 then whole + len else len.
Definition within (w h : Z) (q : Z * Z * Z * Z) : Prop :=
  let '(x, xl, y, yl) := q in 0 <= x < w /\ 0 <= y < h /\ 0 <= width xl w /\ 0 <= width yl h /\ x + width xl w <= w /\ y + width yl h <= h.
(** A chain of requests, each within the view before it, and the rectangle it leads to. *)
Fixpoint chain (w h : Z) (rows : list (list A)) (qs : list (Z * Z * Z * Z)) (v : list (list A)) (w' h' : Z) : Prop :=
  match qs with
  | [] => v = rows /\ w' = w /\ h' = h
  | (x, xl, y, yl) :: t => within w h (x, xl, y, yl) /\ chain (width xl w) (width yl h) (rectangle x (width xl w) y (width yl h) rows) t v w' h'
  end.
Fixpoint slices (s : slice2d) (qs : list (Z * Z * Z * Z)) : Res slice2d :=
  match qs with [] => Ok s | (x, xl, y, yl) :: t => s <- slice s x xl y yl ;; slices s t end.
Definition cell (v : list (list A)) (x y : Z) : option A := match nth_error v (Z.to_nat y) with Some r => nth_error r (Z.to_nat x) | None => None end.
(** The cells of a view with their coordinates (x, y), row after row. *)
Fixpoint numbered (y : Z) (v : list (list A)) : list (Z * Z * A) :=
  match v with [] => [] | r :: t => map (fun p => (Z.of_nat (fst p), y, snd p)) (combine (seq 0 (length r)) r) ++ numbered (y + 1) t end.
End Spec.
