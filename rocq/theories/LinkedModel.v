(** Model of lib/std/collections/linkedlist.c3.
    The nodes live in a heap from addresses to nodes; address 0 is null.  A freed or never allocated address has no node, and
    reading, writing or freeing it is the outcome [Oob].  An allocation gives an address never used before (simplification:
    a real allocator may give a freed address again, which the code cannot notice as it keeps no freed address). *)
From Coq Require Import ZArith Bool List.
From Verif Require Import Mach.
Import ListNotations.
Open Scope Z_scope.

Section Linked.
Context {A : Type}.
Variable eqb : A -> A -> bool.

(** linkedlist.c3:8-13 *)
Record node := nd { next : Z; prev : Z; value : A }.
(** linkedlist.c3:15-21 *)
Record ll := mkll { heap : Z -> option node; fresh : Z; size : Z; first_ : Z; last_ : Z }.
Definition empty : ll := mkll (fun _ => None) 1 0 0 0.
Definition w64 (x : Z) : Z := x mod 2 ^ 64.

Definition load (s : ll) (p : Z) : Res node := match (if p =? 0 then None else heap s p) with Some n => Ok n | None => Oob end.
Definition upd_heap (h : Z -> option node) (p : Z) (o : option node) : Z -> option node := fun q => if q =? p then o else h q.
Definition with_heap (s : ll) (h : Z -> option node) : ll := mkll h (fresh s) (size s) (first_ s) (last_ s).
Definition store (s : ll) (p : Z) (n : node) : Res ll := _ <- load s p ;; Ok (with_heap s (upd_heap (heap s) p (Some n))).
Definition set_next (s : ll) (p x : Z) : Res ll := n <- load s p ;; store s p (nd x (prev n) (value n)).
Definition set_prev (s : ll) (p x : Z) : Res ll := n <- load s p ;; store s p (nd (next n) x (value n)).
Definition set_first (s : ll) (x : Z) : ll := mkll (heap s) (fresh s) (size s) x (last_ s).
Definition set_last (s : ll) (x : Z) : ll := mkll (heap s) (fresh s) (size s) (first_ s) x.
Definition set_size (s : ll) (x : Z) : ll := mkll (heap s) (fresh s) (w64 x) (first_ s) (last_ s).
(** linkedlist.c3:40-52: free_node, alloc_node and the initialisation of the new node *)
Definition free_node (s : ll) (p : Z) : Res ll := _ <- load s p ;; Ok (with_heap s (upd_heap (heap s) p None)).
Definition new_node (s : ll) (n : node) : Z * ll :=
  (fresh s, mkll (upd_heap (heap s) (fresh s) (Some n)) (fresh s + 1) (size s) (first_ s) (last_ s)).

(** linkedlist.c3:54-69 *)
Definition push_front (s : ll) (x : A) : Res ll :=
  let first := first_ s in
  let '(p, s) := new_node s (nd first 0 x) in
  let s := set_first s p in
  s <- (if first =? 0 then Ok (set_last s p) else set_prev s first p) ;;
  Ok (set_size s (size s + 1)).
(** linkedlist.c3:71-86 *)
Definition push (s : ll) (x : A) : Res ll :=
  let last := last_ s in
  let '(p, s) := new_node s (nd 0 last x) in
  let s := set_last s p in
  s <- (if last =? 0 then Ok (set_first s p) else set_next s last p) ;;
  Ok (set_size s (size s + 1)).
(** linkedlist.c3:91-101 *)
Definition first (s : ll) : Res (option A) := if first_ s =? 0 then Ok None else n <- load s (first_ s) ;; Ok (Some (value n)).
Definition last (s : ll) : Res (option A) := if last_ s =? 0 then Ok None else n <- load s (last_ s) ;; Ok (Some (value n)).
(** linkedlist.c3:105-116 *)
Fixpoint clear_loop (fuel : nat) (s : ll) (p : Z) : Res ll :=
  match fuel with
  | O => Fuel
  | S f => if p =? 0 then Ok s else n <- load s p ;; s <- free_node s p ;; clear_loop f s (next n)
  end.
Definition clear (fuel : nat) (s : ll) : Res ll := s <- clear_loop fuel s (first_ s) ;; Ok (set_size (set_last (set_first s 0) 0) 0).
(** linkedlist.c3:120-135, with its contract *)
Fixpoint walk (dir : node -> Z) (n : nat) (s : ll) (p : Z) : Res Z :=
  match n with O => Ok p | S m => x <- load s p ;; walk dir m s (dir x) end.
Definition node_at_index (s : ll) (i : Z) : Res Z :=
  if negb ((0 <=? i) && (i <? size s)) then Oob else
  if size s <=? w64 (i * 2) then walk prev (Z.to_nat (size s - i - 1)) s (last_ s) else walk next (Z.to_nat i) s (first_ s).
(** linkedlist.c3:136-150 *)
Definition get_at (s : ll) (i : Z) : Res A := p <- node_at_index s i ;; n <- load s p ;; Ok (value n).
Definition set_at (s : ll) (i : Z) (x : A) : Res ll := p <- node_at_index s i ;; n <- load s p ;; store s p (nd (next n) (prev n) x).
(** linkedlist.c3:324-348 *)
Definition unlink (s : ll) (x : Z) : Res ll :=
  n <- load s x ;;
  let nx := next n in
  let pv := prev n in
  s <- (if pv =? 0 then Ok (set_first s nx) else set_next s pv nx) ;;
  s <- (if nx =? 0 then Ok (set_last s pv) else set_prev s nx pv) ;;
  s <- free_node s x ;;
  Ok (set_size s (size s - 1)).
(** linkedlist.c3:152-158 *)
Definition remove_at (s : ll) (i : Z) : Res ll := p <- node_at_index s i ;; unlink s p.
(** linkedlist.c3:175-193 *)
Definition link_before (s : ll) (succ : Z) (x : A) : Res ll :=
  n <- load s succ ;;
  let pred := prev n in
  let '(p, s) := new_node s (nd succ pred x) in
  s <- set_prev s succ p ;;
  s <- (if pred =? 0 then Ok (set_first s p) else set_next s pred p) ;;
  Ok (set_size s (size s + 1)).
(** linkedlist.c3:160-174, with its contract *)
Definition insert_at (s : ll) (i : Z) (x : A) : Res ll :=
  if negb ((0 <=? i) && (i <=? size s)) then Oob else
  if i =? 0 then push_front s x else
  if i =? size s then push s x else
  p <- node_at_index s i ;; link_before s p x.
(** linkedlist.c3:195-214 *)
Definition unlink_first (s : ll) : Res ll :=
  let f := first_ s in
  n <- load s f ;;
  let nx := next n in
  s <- free_node s f ;;
  let s := set_first s nx in
  s <- (if nx =? 0 then Ok (set_last s 0) else set_prev s nx 0) ;;
  Ok (set_size s (size s - 1)).
(** linkedlist.c3:300-319 *)
Definition unlink_last (s : ll) : Res ll :=
  let l := last_ s in
  n <- load s l ;;
  let pv := prev n in
  let s := set_last s pv in
  s <- free_node s l ;;
  s <- (if pv =? 0 then Ok (set_first s 0) else set_next s pv 0) ;;
  Ok (set_size s (size s - 1)).
(** linkedlist.c3:216-233 *)
Fixpoint remove_loop (fuel : nat) (s : ll) (p : Z) (t : A) : Res ll :=
  match fuel with
  | O => Fuel
  | S f =>
    if p =? 0 then Ok s else
    n <- load s p ;;
    if eqb (value n) t then s <- unlink s p ;; remove_loop f s (next n) t
    else remove_loop f s (next n) t
  end.
Definition remove (fuel : nat) (s : ll) (t : A) : Res (Z * ll) := s' <- remove_loop fuel s (first_ s) t ;; Ok (size s - size s', s').
(** linkedlist.c3:235-255 *)
Definition pop (s : ll) : Res (option A * ll) :=
  if last_ s =? 0 then Ok (None, s) else n <- load s (last_ s) ;; s <- unlink_last s ;; Ok (Some (value n), s).
Definition is_empty (s : ll) : bool := first_ s =? 0.
Definition pop_front (s : ll) : Res (option A * ll) :=
  if first_ s =? 0 then Ok (None, s) else n <- load s (first_ s) ;; s <- unlink_first s ;; Ok (Some (value n), s).
(** linkedlist.c3:257-267; [false] is NO_MORE_ELEMENT *)
Definition remove_last (s : ll) : Res (bool * ll) := if first_ s =? 0 then Ok (false, s) else s <- unlink_last s ;; Ok (true, s).
Definition remove_first (s : ll) : Res (bool * ll) := if first_ s =? 0 then Ok (false, s) else s <- unlink_first s ;; Ok (true, s).
(** linkedlist.c3:270-295 *)
Fixpoint match_loop (dir : node -> Z) (fuel : nat) (s : ll) (p : Z) (t : A) : Res (bool * ll) :=
  match fuel with
  | O => Fuel
  | S f =>
    if p =? 0 then Ok (false, s) else
    n <- load s p ;;
    if eqb (value n) t then s <- unlink s p ;; Ok (true, s) else match_loop dir f s (dir n) t
  end.
Definition remove_first_match (fuel : nat) (s : ll) (t : A) := match_loop next fuel s (first_ s) t.
Definition remove_last_match (fuel : nat) (s : ll) (t : A) := match_loop prev fuel s (last_ s) t.
End Linked.
Arguments ll A : clear implicits.
Arguments node A : clear implicits.
