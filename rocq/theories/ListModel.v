(** Model of lib/std/collections/list.c3 and list_common.c3.
    The storage behind [entries] is a list of cells; a cell that was never written is [None], and reading it
    (like an access outside the storage, a failed contract or a failed assert) is the outcome [Oob].
    Simplifications: the allocator always succeeds, and [realloc] keeps the old cells and adds unwritten ones;
    the address sanitizer calls ([_update_size_change], [pre_free], [post_alloc]) have no effect; predicates are pure.
    Sums wrap only in [reserve]: every other sum of sizes stays below the capacity. *)
From Coq Require Import ZArith Bool List.
From Verif Require Import Mach.
Import ListNotations.
Open Scope Z_scope.

Section ListModel.
Context {A : Type}.
(** [equals] on the element type, and "is the null pointer" for lists of pointers. *)
Variable eqb : A -> A -> bool.
Variable null : A -> bool.

(** list.c3:18-24 *)
Record lst := mk { size : Z; cap : Z; cells : list (option A) }.

Definition rd (c : list (option A)) (i : Z) : Res A := o <- get c i ;; match o with Some x => Ok x | None => Oob end.
Definition wr (c : list (option A)) (i : Z) (x : A) : Res (list (option A)) := set c i (Some x).
(** A slice assignment inside the storage: memmove of [n] cells. *)
Definition move (c : list (option A)) (dst src n : Z) : Res (list (option A)) :=
  if (0 <=? dst) && (0 <=? src) && (0 <=? n) && (dst + n <=? zlen c) && (src + n <=? zlen c) then
    Ok (firstn (Z.to_nat dst) c ++ firstn (Z.to_nat n) (skipn (Z.to_nat src) c) ++ skipn (Z.to_nat (dst + n)) c)
  else Oob.
(** A slice assignment from another array. *)
Definition copy_in (c : list (option A)) (dst : Z) (xs : list A) : Res (list (option A)) :=
  if (0 <=? dst) && (dst + zlen xs <=? zlen c) then
    Ok (firstn (Z.to_nat dst) c ++ map Some xs ++ skipn (Z.to_nat (dst + zlen xs)) c)
  else Oob.

Definition w64 (x : Z) : Z := x mod 2 ^ 64.

(** math.c3:969-974: next_power_of_2.  [while (y < x) y += y] *)
Fixpoint np2_loop (fuel : nat) (y x : Z) : Res Z :=
  match fuel with O => Fuel | S f => if y <? x then np2_loop f (w64 (y + y)) x else Ok y end.
Definition next_power_of_2 (x : Z) : Res Z := np2_loop 70 1 x.
(** list.c3:327-355: ensure_capacity *)
Definition ensure_capacity (s : lst) (min_capacity : Z) : Res lst :=
  if min_capacity =? 0 then Ok s else
  if min_capacity <=? cap s then Ok s else
  c <- next_power_of_2 min_capacity ;;
  Ok (mk (size s) c (firstn (Z.to_nat c) (cells s) ++ repeat None (Z.to_nat c - length (cells s)))).
(** list.c3:385 [while (new_capacity < new_size) new_capacity *= 2U] *)
Fixpoint grow_loop (fuel : nat) (c n : Z) : Res Z :=
  match fuel with O => Fuel | S f => if c <? n then grow_loop f (w64 (c * 2)) n else Ok c end.
(** list.c3:378-387: reserve *)
Definition reserve (s : lst) (added : Z) : Res lst :=
  let new_size := w64 (size s + added) in
  if new_size <=? cap s then Ok s else
  if (2 ^ 64 - 1) / 2 <=? new_size then Oob else
  c <- grow_loop 70 (if cap s =? 0 then 16 else w64 (2 * cap s)) new_size ;;
  ensure_capacity s c.
(** list.c3:403-409: set_size, with its contract *)
Definition set_size (s : lst) (n : Z) : Res lst :=
  if (n =? 0) || negb (cap s =? 0) then Ok (mk n (cap s) (cells s)) else Oob.
Definition put (s : lst) (c : list (option A)) : lst := mk (size s) (cap s) c.

(** list.c3:30-38: init *)
Definition init (initial_capacity : Z) : Res lst := reserve (mk 0 0 []) initial_capacity.
(** list.c3:110-114: push *)
Definition push (s : lst) (x : A) : Res lst :=
  s <- reserve s 1 ;; let i := size s in s <- set_size s (size s + 1) ;; c <- wr (cells s) i x ;; Ok (put s c).
(** list.c3:116-121: pop; [None] is NO_MORE_ELEMENT *)
Definition pop (s : lst) : Res (option A * lst) :=
  if size s =? 0 then Ok (None, s) else x <- rd (cells s) (size s - 1) ;; s <- set_size s (size s - 1) ;; Ok (Some x, s).
(** list.c3:123-126: clear *)
Definition clear (s : lst) : Res lst := set_size s 0.
(** list.c3:135-143: remove_at, with its contract *)
Definition remove_at (s : lst) (i : Z) : Res lst :=
  if negb ((0 <=? i) && (i <? size s)) then Oob else
  s <- set_size s (size s - 1) ;;
  if (size s =? 0) || (i =? size s) then Ok s else
  c <- move (cells s) i (i + 1) (size s - i) ;; Ok (put s c).
(** list.c3:128-133: pop_first *)
Definition pop_first (s : lst) : Res (option A * lst) :=
  if size s =? 0 then Ok (None, s) else x <- rd (cells s) 0 ;; s <- remove_at s 0 ;; Ok (Some x, s).
(** list.c3:150-153, the loop of add_all: [from s] gives the cells of the other list. *)
Fixpoint add_loop (from : list (option A) -> list (option A)) (n : nat) (c : list (option A)) (k index : Z) : Res (list (option A)) :=
  match n with O => Ok c | S m => x <- rd (from c) k ;; c <- wr c index x ;; add_loop from m c (k + 1) (index + 1) end.
(** list.c3:145-154: add_all.  The length of the other list is read when the loop starts.  [alias]: the other list is this one. *)
Definition add_all (alias : bool) (s other : lst) : Res lst :=
  let osize := if alias then size s else size other in
  if osize =? 0 then Ok s else
  s <- reserve s osize ;;
  let index := size s in
  s <- set_size s (size s + osize) ;;
  let n := if alias then size s else size other in
  c <- add_loop (fun c => if alias then c else cells other) (Z.to_nat n) (cells s) 0 index ;; Ok (put s c).
(** list.c3:199-206: add_array (the array is not part of this list's storage) *)
Definition add_array (s : lst) (xs : list A) : Res lst :=
  if zlen xs =? 0 then Ok s else
  s <- reserve s (zlen xs) ;;
  let index := size s in
  s <- set_size s (size s + zlen xs) ;;
  c <- copy_in (cells s) index xs ;; Ok (put s c).
(** list.c3:58-63: init_with_array *)
Definition init_with_array (xs : list A) : Res lst := s <- init (zlen xs) ;; add_array s xs.
(** list.c3:219-224, the loop of insert_at: [for (i = size - 1; i > index; i--)] *)
Fixpoint ins_loop (n : nat) (c : list (option A)) (i : Z) : Res (list (option A)) :=
  match n with O => Ok c | S m => x <- rd c (i - 1) ;; c <- wr c i x ;; ins_loop m c (i - 1) end.
(** list.c3:213-225: insert_at, with its contract *)
Definition insert_at (s : lst) (index : Z) (x : A) : Res lst :=
  if negb ((0 <=? index) && (index <=? size s)) then Oob else
  s <- reserve s 1 ;;
  s <- set_size s (size s + 1) ;;
  c <- ins_loop (Z.to_nat (size s - 1 - index)) (cells s) (size s - 1) ;;
  c <- wr c index x ;; Ok (put s c).
(** list.c3:208-211: push_front *)
Definition push_front (s : lst) (x : A) : Res lst := insert_at s 0 x.
(** list.c3:227-233, 370-376: set_at, set, with their contract *)
Definition set_at (s : lst) (i : Z) (x : A) : Res lst :=
  if negb ((0 <=? i) && (i <? size s)) then Oob else c <- wr (cells s) i x ;; Ok (put s c).
(** list.c3:235-239: remove_last; [false] is NO_MORE_ELEMENT *)
Definition remove_last (s : lst) : Res (bool * lst) :=
  if size s =? 0 then Ok (false, s) else s <- set_size s (size s - 1) ;; Ok (true, s).
(** list.c3:241-245: remove_first *)
Definition remove_first (s : lst) : Res (bool * lst) :=
  if size s =? 0 then Ok (false, s) else s <- remove_at s 0 ;; Ok (true, s).
(** list.c3:247-257: first, last *)
Definition first (s : lst) : Res (option A) := if size s =? 0 then Ok None else x <- rd (cells s) 0 ;; Ok (Some x).
Definition last (s : lst) : Res (option A) := if size s =? 0 then Ok None else x <- rd (cells s) (size s - 1) ;; Ok (Some x).
(** list.c3:274-280, 357-368: get, with its contract *)
Definition get_at (s : lst) (i : Z) : Res A := if negb ((0 <=? i) && (i <? size s)) then Oob else rd (cells s) i.
(** list.c3:282-296: free *)
Definition free (s : lst) : lst := if cap s =? 0 then s else mk 0 0 [].
(** list.c3:298-304: swap *)
Definition swap_cells (c : list (option A)) (i j : Z) : Res (list (option A)) :=
  x <- rd c i ;; y <- rd c j ;; c <- wr c i y ;; wr c j x.
Definition swap (s : lst) (i j : Z) : Res lst :=
  if negb ((0 <=? i) && (i <? size s) && (0 <=? j) && (j <? size s)) then Oob else c <- swap_cells (cells s) i j ;; Ok (put s c).
(** list_common.c3:22-31: list_reverse *)
Fixpoint rev_loop (n : nat) (c : list (option A)) (i end_ : Z) : Res (list (option A)) :=
  match n with O => Ok c | S m => c <- swap_cells c i (end_ - i) ;; rev_loop m c (i + 1) end_ end.
Definition reverse (s : lst) : Res lst :=
  if size s <? 2 then Ok s else c <- rev_loop (Z.to_nat (size s / 2)) (cells s) 0 (size s - 1) ;; Ok (put s c).
(** list_common.c3:8-20: list_to_array, and list.c3:184 array_view *)
Definition to_array (s : lst) : Res (list A) :=
  (fix go (n : nat) (i : Z) : Res (list A) := match n with O => Ok [] | S m => x <- rd (cells s) i ;; t <- go m (i + 1) ;; Ok (x :: t) end)
    (Z.to_nat (size s)) 0.
(** list_common.c3:89-93 [while (i > 0 && p(&entries[i - 1])) i--] *)
Fixpoint scan (p : A -> bool) (c : list (option A)) (i : nat) : Res nat :=
  match i with O => Ok O | S j => x <- rd c (Z.of_nat j) ;; if p x then scan p c j else Ok i end.
(** list_common.c3:84-108: list_remove_if ([p] is the filter, negated when [$invert]); also 33-57 list_remove_using_test, where
    the context is part of [p] *)
Fixpoint remove_loop (fuel : nat) (p : A -> bool) (s : lst) (i : nat) : Res lst :=
  match fuel with
  | O => Fuel
  | S f =>
    if (i =? 0)%nat then Ok s else
    let k := i in
    i <- scan p (cells s) i ;;
    let n := size s - Z.of_nat k in
    c <- move (cells s) (Z.of_nat i) (Z.of_nat k) n ;;
    let s := mk (size s - (Z.of_nat k - Z.of_nat i)) (cap s) c in
    i <- scan (fun x => negb (p x)) (cells s) i ;;
    remove_loop f p s i
  end.
Definition list_remove_if (fuel : nat) (p : A -> bool) (s : lst) : Res (Z * lst) :=
  s' <- remove_loop fuel p s (Z.to_nat (size s)) ;; Ok (size s - size s', s').
(** list.c3:306-325: remove_if, retain_if *)
Definition remove_if (fuel : nat) (p : A -> bool) (s : lst) := list_remove_if fuel p s.
Definition retain_if (fuel : nat) (p : A -> bool) (s : lst) := list_remove_if fuel (fun x => negb (p x)) s.
(** list_common.c3:65-68, 79-82 [for (j = i; j < n; j++) entries[j - 1] = entries[j]] *)
Fixpoint shift_down (n : nat) (c : list (option A)) (j : Z) : Res (list (option A)) :=
  match n with O => Ok c | S m => x <- rd c j ;; c <- wr c (j - 1) x ;; shift_down m c (j + 1) end.
(** list_common.c3:59-72: list_compact *)
Fixpoint compact_loop (i : nat) (orig : Z) (s : lst) : Res lst :=
  match i with
  | O => Ok s
  | S k =>
    x <- rd (cells s) (Z.of_nat k) ;;
    if negb (null x) then compact_loop k orig s else
    c <- shift_down (Z.to_nat (orig - Z.of_nat i)) (cells s) (Z.of_nat i) ;;
    compact_loop k orig (mk (size s - 1) (cap s) c)
  end.
Definition compact (s : lst) : Res (Z * lst) := s' <- compact_loop (Z.to_nat (size s)) (size s) s ;; Ok (size s - size s', s').
(** list_common.c3:74-87: list_remove_item *)
Fixpoint item_loop (i : nat) (v : A) (s : lst) : Res lst :=
  match i with
  | O => Ok s
  | S k =>
    x <- rd (cells s) (Z.of_nat k) ;;
    if negb (eqb x v) then item_loop k v s else
    c <- shift_down (Z.to_nat (size s - Z.of_nat i)) (cells s) (Z.of_nat i) ;;
    item_loop k v (mk (size s - 1) (cap s) c)
  end.
Definition remove_item (s : lst) (v : A) : Res (Z * lst) := s' <- item_loop (Z.to_nat (size s)) v s ;; Ok (size s - size s', s').
(** list.c3:430-437: index_of *)
Fixpoint index_loop (n : nat) (c : list (option A)) (i : Z) (v : A) : Res (option Z) :=
  match n with O => Ok None | S m => x <- rd c i ;; if eqb x v then Ok (Some i) else index_loop m c (i + 1) v end.
Definition index_of (s : lst) (v : A) : Res (option Z) := index_loop (Z.to_nat (size s)) (cells s) 0 v.
(** list.c3:439-446: rindex_of *)
Fixpoint rindex_loop (n : nat) (c : list (option A)) (v : A) : Res (option Z) :=
  match n with O => Ok None | S m => x <- rd c (Z.of_nat m) ;; if eqb x v then Ok (Some (Z.of_nat m)) else rindex_loop m c v end.
Definition rindex_of (s : lst) (v : A) : Res (option Z) := rindex_loop (Z.to_nat (size s)) (cells s) v.
(** list.c3:448-456: equals *)
Fixpoint equals_loop (n : nat) (c d : list (option A)) (i : Z) : Res bool :=
  match n with O => Ok true | S m => x <- rd c i ;; y <- rd d i ;; if negb (eqb x y) then Ok false else equals_loop m c d (i + 1) end.
Definition equals (s other : lst) : Res bool :=
  if negb (size s =? size other) then Ok false else equals_loop (Z.to_nat (size s)) (cells s) (cells other) 0.
(** list.c3:465-472: contains *)
Definition contains (s : lst) (v : A) : Res bool := o <- index_of s v ;; Ok (match o with Some _ => true | None => false end).
(** list.c3:479-492: remove_last_item, remove_first_item *)
Definition remove_found (s : lst) (o : option Z) : Res (bool * lst) :=
  match o with None => Ok (false, s) | Some i => s <- remove_at s i ;; Ok (true, s) end.
Definition remove_last_item (s : lst) (v : A) : Res (bool * lst) := o <- rindex_of s v ;; remove_found s o.
Definition remove_first_item (s : lst) (v : A) : Res (bool * lst) := o <- index_of s v ;; remove_found s o.
(** list.c3:508-516: remove_all_from another list *)
Fixpoint remove_from_loop (n : nat) (s : lst) (d : list (option A)) (i : Z) : Res lst :=
  match n with O => Ok s | S m => x <- rd d i ;; '(_, s) <- remove_item s x ;; remove_from_loop m s d (i + 1) end.
Definition remove_all_from (s other : lst) : Res lst :=
  if size other =? 0 then Ok s else remove_from_loop (Z.to_nat (size other)) s (cells other) 0.
(** list.c3:522-527: compact_count *)
Fixpoint count_loop (n : nat) (c : list (option A)) (i vals : Z) : Res Z :=
  match n with O => Ok vals | S m => x <- rd c i ;; count_loop m c (i + 1) (if negb (null x) then vals + 1 else vals) end.
Definition compact_count (s : lst) : Res Z := count_loop (Z.to_nat (size s)) (cells s) 0 0.
End ListModel.
Arguments lst A : clear implicits.
