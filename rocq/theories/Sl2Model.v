(** Model of lib/std/core/slice2d.c3 and of array::slice2d (array.c3:51-57): views of rectangles of a two-dimensional array.
    The memory is the array row after row, the pointer its start; an access outside of the array or a failed contract is [Oob].
    Simplification: sizes are unbounded integers (sums and products of sizes of an array in memory do not wrap). *)
From Coq Require Import ZArith Bool List.
From Verif Require Import Mach.
Import ListNotations.
Local Open Scope Z_scope.

(** slice2d.c3:7-15; the pointer is the start of the memory. *)
Record slice2d := Slice2d { inner_len : Z; ystart : Z; ylen : Z; xstart : Z; xlen : Z }.
(** array.c3:53-54, slice2d.c3:166-167: a length below 1 counts from the length there is. *)
Definition effective (len whole : Z) : Z := if len <? 1 then whole + len else len.
(** array.c3:51-57 slice2d, for an array of [rows] rows of [inner] elements. *)
Definition make (inner rows x xl y yl : Z) : slice2d := Slice2d inner y (effective yl rows) x (effective xl inner).
(** slice2d.c3:154-169 slice, with its contracts. *)
Definition slice (s : slice2d) (x xl y yl : Z) : Res slice2d :=
  if negb ((0 <=? y) && (y <? ylen s) && (0 <=? x) && (x <? xlen s)) then Oob else
  Ok (Slice2d (inner_len s) (y + ystart s) (effective yl (ylen s)) (x + xstart s) (effective xl (xlen s))).
(** slice2d.c3:20-31 len, count. *)
Definition len (s : slice2d) : Z := ylen s.
Definition count (s : slice2d) : Z := ylen s * xlen s.

Section Mem.
Context {A : Type}.
(** slice2d.c3:61-71 get_row, with its contract. *)
Definition get_row (m : list A) (s : slice2d) (idy : Z) : Res (list A) :=
  if negb ((0 <=? idy) && (idy <? ylen s)) then Oob else
  let start := inner_len s * (idy + ystart s) + xstart s in
  if (0 <=? start) && (0 <=? xlen s) && (start + xlen s <=? zlen m) then Ok (firstn (Z.to_nat (xlen s)) (skipn (Z.to_nat start) m)) else Oob.
(** slice2d.c3:112-125 get_xy_ref, with its contracts: the index of the cell. *)
Definition get_xy_ref (s : slice2d) (x y : Z) : Res Z :=
  if negb ((0 <=? y) && (y <? ylen s) && (0 <=? x) && (x <? xlen s)) then Oob else Ok (inner_len s * (y + ystart s) + xstart s + x).
(** slice2d.c3:73-111 get_coord, get_xy. *)
Definition get_xy (m : list A) (s : slice2d) (x y : Z) : Res A := i <- get_xy_ref s x y ;; get m i.
(** slice2d.c3:127-152 set_coord, set_xy. *)
Definition set_xy (m : list A) (s : slice2d) (x y : Z) (v : A) : Res (list A) := i <- get_xy_ref s x y ;; set m i v.
(** slice2d.c3:36-45 @each: the values with their coordinates, in the order of the calls. *)
Definition line_of (y : Z) (row : list A) : list (Z * Z * A) := map (fun p => (Z.of_nat (fst p), y, snd p)) (combine (seq 0 (length row)) row).
Fixpoint each_from (m : list A) (s : slice2d) (n : nat) (y : Z) : Res (list (Z * Z * A)) :=
  match n with O => Ok [] | S k => row <- get_row m s y ;; t <- each_from m s k (y + 1) ;; Ok (line_of y row ++ t) end.
Definition each (m : list A) (s : slice2d) : Res (list (Z * Z * A)) := each_from m s (Z.to_nat (ylen s)) 0.
End Mem.
