(** Model of lib/std/sort/countingsort.c3.
    [key] is the key function (the identity without one), [w] the size of the key type in
    bytes, [sgn] whether the key type is signed (an element list without a key function may be).
    The fallback sorts get as many steps as the theorems about them ask for. *)
From Coq Require Import ZArith Bool List Lia.
From Verif Require Import Word Mach SortModel.
Import ListNotations.
Open Scope Z_scope.

Section CSort.
Context {A : Type} (key : A -> Z) (w : Z) (sgn : bool).

(** countingsort.c3:79 and 142: [(char)((k >> (byte_idx * 8)) & 0xff)]. *)
Definition key_byte (byte_idx : Z) (a : A) : Z := Z.shiftr (key a) (8 * byte_idx) mod 256.
(** countingsort.c3:49-51 with builtin_comparison.c3:62. *)
Definition compare_keys (a b : A) : Z := (if key b <? key a then 1 else 0) - (if key a <? key b then 1 else 0).
(** Arithmetic in the key type wraps. *)
Definition kwrap (z : Z) : Z := if sgn then swrap (8 * w) z else uwrap (8 * w) z.

(** countingsort.c3:66-87.  State: counts, mn, mx, last_key, keys_ordered. *)
Fixpoint count_loop (fuel : nat) (byte_idx : Z) (l : list A) (i high : Z) (counts : list Z) (mn mx last_key : Z) (ordered : bool)
  : Res (list Z * Z * Z * bool) :=
  match fuel with
  | O => Fuel
  | S f =>
    if i <? high then
      a <- get l i ;;
      let k := key a in
      let kb := key_byte byte_idx a in
      c <- get counts kb ;;
      counts <- set counts kb (c + 1) ;;
      let mn := if k <? mn then k else mn in
      let mx := if mx <? k then k else mx in
      count_loop f byte_idx l (i + 1) high counts mn mx kb (ordered && (last_key <=? kb))
    else Ok (counts, mn, mx, ordered)
  end.

(** countingsort.c3:97-108, [n] iterations left, at index [i]. *)
Fixpoint offsets_loop (n : nat) (i : Z) (counts ranges indexs : list Z) (f0 rc total : Z)
  : Res (list Z * list Z * list Z * Z * Z * Z) :=
  match n with
  | O => Ok (counts, ranges, indexs, f0, rc, total)
  | S n' =>
    count <- get counts i ;;
    indexs <- set indexs f0 i ;;
    indexs <- set indexs (255 - rc) i ;;
    let f0 := if (1 <? count) && (count <=? 32) then f0 + 1 else f0 in
    let rc := if 128 <? count then rc + 1 else rc in
    counts <- set counts i total ;;
    ranges <- set ranges i total ;;
    offsets_loop n' (i + 1) counts ranges indexs f0 rc (total + count)
  end.

(** countingsort.c3:112-118, [n] = 256 - i iterations at most. *)
Fixpoint fallback1_loop (n : nat) (i : Z) (ranges indexs : list Z) (f0 f1 remaining : Z) : Res (list Z * Z) :=
  match n with
  | O => Ok (indexs, f1)
  | S n' =>
    if remaining =? 0 then Ok (indexs, f1) else
    indexs <- set indexs (f0 + f1) i ;;
    hi <- get ranges (i + 1) ;;
    lo <- get ranges i ;;
    let count := hi - lo in
    let within := if (32 <? count) && (count <=? 128) then 1 else 0 in
    fallback1_loop n' (i + 1) ranges indexs f0 (f1 + within) (remaining - within)
  end.

(** countingsort.c3:130-146: move the elements of one bucket to their places. *)
Fixpoint place_bucket (fuel : nat) (byte_idx low : Z) (l : list A) (counts : list Z) (s e : Z) : Res (list A * list Z) :=
  match fuel with
  | O => Fuel
  | S f =>
    if s <? e then
      a <- get l (low + s) ;;
      let kb := key_byte byte_idx a in
      target <- get counts kb ;;
      b <- get l (low + target) ;;
      l <- set l (low + s) b ;;
      l <- set l (low + target) a ;;
      counts <- set counts kb (target + 1) ;;
      place_bucket f byte_idx low l counts (s + 1) e
    else Ok (l, counts)
  end.
(** countingsort.c3:126-147: one pass over the buckets from [x]. *)
Fixpoint place_pass (n : nat) (fuel : nat) (byte_idx low x : Z) (l : list A) (counts ranges : list Z) (sorted : Z)
  : Res (list A * list Z * Z) :=
  match n with
  | O => Ok (l, counts, sorted)
  | S n' =>
    s <- get counts x ;;
    e <- get ranges (x + 1) ;;
    '(l, counts) <- place_bucket fuel byte_idx low l counts s e ;;
    place_pass n' fuel byte_idx low (x + 1) l counts ranges (sorted + (e - s))
  end.
(** countingsort.c3:124-148: the do-while loop. *)
Fixpoint place_loop (fuel inner : nat) (byte_idx low : Z) (l : list A) (counts ranges : list Z) (sorted : Z) : Res (list A) :=
  match fuel with
  | O => Fuel
  | S f =>
    '(l, counts, sorted) <- place_pass 256 inner byte_idx low 0 l counts ranges sorted ;;
    total <- get ranges 256 ;;
    if sorted <? total then place_loop f inner byte_idx low l counts ranges sorted else Ok l
  end.

(** countingsort.c3:153-179: one of the three loops over the index table; [pos p] is the table slot. *)
Fixpoint index_loop (n : nat) (p : Z) (pos : Z -> Z) (indexs ranges : list Z) (low : Z)
    (sort : list A -> Z -> Z -> Res (list A)) (l : list A) : Res (list A) :=
  match n with
  | O => Ok l
  | S n' =>
    i <- get indexs (pos p) ;;
    s <- get ranges i ;;
    e <- get ranges (i + 1) ;;
    l <- sort l (low + s) (low + e) ;;
    index_loop n' (p + 1) pos indexs ranges low sort l
  end.

(** countingsort.c3:45-181; [depth] bounds the recursion on [byte_idx]. *)
Fixpoint csort (depth : nat) (l : list A) (low high byte_idx : Z) : Res (list A) :=
  match depth with
  | O => Fuel
  | S d =>
    if high <=? low then Ok l else
    let byte_idx := if w <=? byte_idx then w - 1 else byte_idx in
    let n := S (length l) in
    '(counts, mn, mx, ordered) <- count_loop n byte_idx l low high (repeat 0 256) (kwrap (-1)) 0 0 true ;;
    if kwrap (mx - mn) =? 0 then Ok l else
    '(counts, ranges, indexs, f0, rc, total) <- offsets_loop 256 0 counts (repeat 0 257) (repeat 0 256) 0 0 0 ;;
    ranges <- set ranges 256 total ;;
    '(indexs, f1) <- fallback1_loop 256 0 ranges indexs f0 0 (256 - (f0 + rc)) ;;
    l <- (if ordered then Ok l else place_loop n n byte_idx low l counts ranges 0) ;;
    if byte_idx =? 0 then Ok l else
    l <- index_loop (Z.to_nat f0) 0 (fun p => p) indexs ranges low (fun l s e => isort compare_keys n l s e) l ;;
    l <- index_loop (Z.to_nat f1) 0 (fun p => f0 + p) indexs ranges low (fun l s e => qsort compare_keys (4 * n + 2) l s (e - 1)) l ;;
    index_loop (Z.to_nat rc) 0 (fun p => 255 - p) indexs ranges low (fun l s e => csort d l s e (byte_idx - 1)) l
  end.
(** countingsort.c3:11-15: the initial byte index is the largest uint. *)
Definition countingsort (l : list A) : Res (list A) := csort (S (Z.to_nat w)) l 0 (zlen l) (2 ^ 32 - 1).
End CSort.
