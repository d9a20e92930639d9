(** Model of lib/std/collections/elastic_array.c3: an array inside the struct, of at most MAX_SIZE elements.
    The struct is the record of ListModel with [cap] = MAX_SIZE and a cell per entry; a cell that was never written is [None].
    A failed contract and an access outside of the entries are [Oob].  The functions of list_common.c3, and
    index_of, rindex_of, equals, contains, remove_all_from and compact_count (333-375, 409-424), which read as those of list.c3, are those of ListModel.
    Not modelled: to_format, to_aligned_array, byte_size, get_ref. *)
From Coq Require Import ZArith Bool List.
From Verif Require Import Mach ListModel.
Import ListNotations.
Local Open Scope Z_scope.

Section Elas.
Context {A : Type}.
Variable eqb : A -> A -> bool.
Variable null : A -> bool.

(** elastic_array.c3:16-20: a zeroed array. *)
Definition empty (max : Z) : lst A := mk 0 max (repeat None (Z.to_nat max)).
(** [self.entries[self.size++] = element] *)
Definition append (s : lst A) (x : A) : Res (lst A) := c <- wr (cells s) (size s) x ;; Ok (mk (size s + 1) (cap s) c).
(** elastic_array.c3:47-51 push_try; [false] is OUT_OF_MEMORY. *)
Definition push_try (s : lst A) (x : A) : Res (bool * lst A) :=
  if size s =? cap s then Ok (false, s) else s <- append s x ;; Ok (true, s).
(** elastic_array.c3:53-59 push, with its contract. *)
Definition push (s : lst A) (x : A) : Res (lst A) := if negb (size s <? cap s) then Oob else append s x.
(** elastic_array.c3:61-65 pop; [None] is NO_MORE_ELEMENT. *)
Definition pop (s : lst A) : Res (option A * lst A) :=
  if size s =? 0 then Ok (None, s) else x <- rd (cells s) (size s - 1) ;; Ok (Some x, mk (size s - 1) (cap s) (cells s)).
(** elastic_array.c3:67-70 clear. *)
Definition clear (s : lst A) : lst A := mk 0 (cap s) (cells s).
(** elastic_array.c3:82-89 remove_at, with its contract. *)
Definition remove_at (s : lst A) (i : Z) : Res (lst A) :=
  if negb ((0 <=? i) && (i <? size s)) then Oob else
  let n := size s - 1 in
  if (n =? 0) || (i =? n) then Ok (mk n (cap s) (cells s)) else
  c <- move (cells s) i (i + 1) (n - i) ;; Ok (mk n (cap s) c).
(** elastic_array.c3:72-80 pop_first, with its contract. *)
Definition pop_first (s : lst A) : Res (option A * lst A) :=
  if negb (0 <? size s) then Oob else
  if size s =? 0 then Ok (None, s) else x <- rd (cells s) 0 ;; s <- remove_at s 0 ;; Ok (Some x, s).
(** elastic_array.c3:97-100, 145-148: the loops of add_all and add_array; [from] gives the cells of the source. *)
Fixpoint add_loop (from : list (option A) -> list (option A)) (n : nat) (s : lst A) (k : Z) : Res (lst A) :=
  match n with O => Ok s | S m => x <- rd (from (cells s)) k ;; s <- append s x ;; add_loop from m s (k + 1) end.
(** elastic_array.c3:91-101 add_all, with its contract.  [alias]: the other array is this one. *)
Definition add_all (alias : bool) (s other : lst A) : Res (lst A) :=
  let osize := if alias then size s else size other in
  if negb (osize + size s <=? cap s) then Oob else
  if osize =? 0 then Ok s else add_loop (fun c => if alias then c else cells other) (Z.to_nat osize) s 0.
(** elastic_array.c3:135-149 add_array, with its contract. *)
Definition add_array (s : lst A) (xs : list A) : Res (lst A) :=
  if negb (zlen xs + size s <=? cap s) then Oob else
  if zlen xs =? 0 then Ok s else add_loop (fun _ => map Some xs) (Z.to_nat (zlen xs)) s 0.
(** elastic_array.c3:110-115, 127-132: the loops of add_all_to_limit and add_array_to_limit; [len] is the length of the source as read when the array is full. *)
Fixpoint limit_loop (from : list (option A) -> list (option A)) (len : lst A -> Z) (n : nat) (s : lst A) (k : Z) : Res (Z * lst A) :=
  match n with
  | O => Ok (0, s)
  | S m => if size s =? cap s then Ok (len s - k, s) else x <- rd (from (cells s)) k ;; s <- append s x ;; limit_loop from len m s (k + 1)
  end.
(** elastic_array.c3:103-116 add_all_to_limit. *)
Definition add_all_to_limit (alias : bool) (s other : lst A) : Res (Z * lst A) :=
  let osize := if alias then size s else size other in
  if osize =? 0 then Ok (0, s) else
  limit_loop (fun c => if alias then c else cells other) (fun s => if alias then size s else size other) (Z.to_nat osize) s 0.
(** elastic_array.c3:118-133 add_array_to_limit. *)
Definition add_array_to_limit (s : lst A) (xs : list A) : Res (Z * lst A) :=
  if zlen xs =? 0 then Ok (0, s) else limit_loop (fun _ => map Some xs) (fun _ => zlen xs) (Z.to_nat (zlen xs)) s 0.
(** elastic_array.c3:216-228 insert_at, with its contracts. *)
Definition insert_at (s : lst A) (i : Z) (x : A) : Res (lst A) :=
  if negb ((size s <? cap s) && (0 <=? i) && (i <=? size s)) then Oob else
  c <- ins_loop (Z.to_nat (size s - i)) (cells s) (size s) ;; c <- wr c i x ;; Ok (mk (size s + 1) (cap s) c).
(** elastic_array.c3:207-214 insert_at_try, with its contract. *)
Definition insert_at_try (s : lst A) (i : Z) (x : A) : Res (bool * lst A) :=
  if negb ((0 <=? i) && (i <=? size s)) then Oob else
  if size s =? cap s then Ok (false, s) else s <- insert_at s i x ;; Ok (true, s).
(** elastic_array.c3:191-205 push_front, push_front_try, with their contracts. *)
Definition push_front (s : lst A) (x : A) : Res (lst A) := if negb (size s <? cap s) then Oob else insert_at s 0 x.
Definition push_front_try (s : lst A) (x : A) : Res (bool * lst A) := if negb (size s <? cap s) then Oob else insert_at_try s 0 x.
(** elastic_array.c3:230-236 set_at, with its contract. *)
Definition set_at (s : lst A) (i : Z) (x : A) : Res (lst A) :=
  if negb ((0 <=? i) && (i <? size s)) then Oob else c <- wr (cells s) i x ;; Ok (mk (size s) (cap s) c).
(** elastic_array.c3:326-329 set: no contract. *)
Definition set (s : lst A) (i : Z) (x : A) : Res (lst A) := c <- wr (cells s) i x ;; Ok (mk (size s) (cap s) c).
(** elastic_array.c3:238-248 remove_last, remove_first; [false] is NO_MORE_ELEMENT. *)
Definition remove_last (s : lst A) : Res (bool * lst A) :=
  if size s =? 0 then Ok (false, s) else Ok (true, mk (size s - 1) (cap s) (cells s)).
Definition remove_first (s : lst A) : Res (bool * lst A) :=
  if size s =? 0 then Ok (false, s) else s <- remove_at s 0 ;; Ok (true, s).
(** elastic_array.c3:250-260 first, last. *)
Definition first (s : lst A) : Res (option A) := if size s =? 0 then Ok None else x <- rd (cells s) 0 ;; Ok (Some x).
Definition last (s : lst A) : Res (option A) := if size s =? 0 then Ok None else x <- rd (cells s) (size s - 1) ;; Ok (Some x).
(** elastic_array.c3:277-280, 316-319 get: no contract. *)
Definition get_at (s : lst A) (i : Z) : Res A := rd (cells s) i.
(** elastic_array.c3:282-285 swap: no contract. *)
Definition swap (s : lst A) (i j : Z) : Res (lst A) := c <- swap_cells (cells s) i j ;; Ok (mk (size s) (cap s) c).
(** elastic_array.c3:377-395 remove_last_item, remove_first_item. *)
Definition remove_found (s : lst A) (o : option Z) : Res (bool * lst A) :=
  match o with None => Ok (false, s) | Some i => s <- remove_at s i ;; Ok (true, s) end.
Definition remove_last_item (s : lst A) (v : A) : Res (bool * lst A) := o <- rindex_of eqb s v ;; remove_found s o.
Definition remove_first_item (s : lst A) (v : A) : Res (bool * lst A) := o <- index_of eqb s v ;; remove_found s o.
End Elas.
