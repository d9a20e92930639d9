(** Model of lib/std/collections/ringbuffer.c3.  usz arithmetic is modulo 2^64; an index or slice
    outside the array is [Oob].  [n] is the length of the array type, [z] its zero element. *)
From Coq Require Import ZArith Bool List.
From Verif Require Import Mach.
Import ListNotations.
Open Scope Z_scope.

(** ringbuffer.c3:9-14 *)
Record ring (A : Type) := Ring { r_buf : list A; r_written : Z; r_head : Z }.
Arguments Ring {A} _ _ _.
Arguments r_buf {A} _.
Arguments r_written {A} _.
Arguments r_head {A} _.
Definition usz (x : Z) : Z := x mod 2 ^ 64.
(** [array[i:n]] *)
Definition slice {A} (l : list A) (i n : Z) : Res (list A) :=
  if (0 <=? i) && (0 <=? n) && (i + n <=? zlen l) then Ok (firstn (Z.to_nat n) (skipn (Z.to_nat i) l)) else Oob.
(** [buffer[:n] = s]: the slice assignment of [n] elements. *)
Definition blit {A} (buffer s : list A) (n : Z) : Res (list A) :=
  if (n =? zlen s) && (n <=? zlen buffer) then Ok (s ++ skipn (Z.to_nat n) buffer) else Oob.

Section Ring.
Context {A : Type}.
(** ringbuffer.c3:16-19 *)
Definition r_init (n : nat) (z : A) : ring A := Ring (repeat z n) 0 0.
(** ringbuffer.c3:21-33 *)
Definition r_push (r : ring A) (c : A) : Res (ring A) :=
  let n := zlen (r_buf r) in
  if r_written r <? n then b <- set (r_buf r) (r_written r) c ;; Ok (Ring b (r_written r + 1) (r_head r))
  else b <- set (r_buf r) (r_head r) c ;; Ok (Ring b (r_written r) (usz (r_head r + 1) mod n)).
(** ringbuffer.c3:35-44 *)
Definition r_get (r : ring A) (index : Z) : Res A :=
  let n := zlen (r_buf r) in
  let index := index mod n in
  let avail := usz (n - r_head r) in
  if index <? avail then get (r_buf r) (usz (r_head r + index)) else get (r_buf r) (usz (index - avail)).
(** ringbuffer.c3:46-59: [None] is NO_MORE_ELEMENT. *)
Definition r_pop (r : ring A) : Res (option A * ring A) :=
  let n := zlen (r_buf r) in
  if r_written r =? 0 then Ok (None, r)
  else if r_written r <? n then
    let w := r_written r - 1 in v <- get (r_buf r) w ;; Ok (Some v, Ring (r_buf r) w (r_head r))
  else
    let h := usz (r_head r - 1) mod n in v <- get (r_buf r) h ;; Ok (Some v, Ring (r_buf r) (r_written r) h).
(** ringbuffer.c3:67-98: the number of elements and the new contents of the caller's buffer. *)
Definition r_read (r : ring A) (index : Z) (buffer : list A) : Res (Z * list A) :=
  let n := zlen (r_buf r) in
  let index := index mod n in
  if r_written r <? n then
    if r_written r <=? index then Ok (0, buffer) else
    let e := usz (r_written r - index) in
    let k := Z.min e (zlen buffer) in
    s <- slice (r_buf r) index k ;; b <- blit buffer s k ;; Ok (k, b)
  else
    let e := usz (n - r_head r) in
    if e <=? index then
      let index := usz (index - e) in
      if r_head r <=? index then Ok (0, buffer) else
      let k := Z.min (usz (r_head r - index)) (zlen buffer) in
      s <- slice (r_buf r) index k ;; b <- blit buffer s k ;; Ok (k, b)
    else if zlen buffer <=? usz (n - index) then
      let k := zlen buffer in
      s <- slice (r_buf r) (usz (r_head r + index)) k ;; b <- blit buffer s k ;; Ok (k, b)
    else
      let n1 := usz (n - index) in
      s1 <- slice (r_buf r) (usz (r_head r + index)) n1 ;;
      b1 <- blit buffer s1 n1 ;;
      let rest := skipn (Z.to_nat n1) b1 in
      let index := usz (index - n1) in
      let n2 := Z.min (usz (r_head r - index)) (zlen rest) in
      s2 <- slice (r_buf r) index n2 ;;
      b2 <- blit rest s2 n2 ;;
      Ok (usz (n1 + n2), firstn (Z.to_nat n1) b1 ++ b2).
(** ringbuffer.c3:100-113: the first loop. *)
Fixpoint r_fill (r : ring A) (buffer : list A) : Res (ring A * list A) :=
  match buffer with
  | [] => Ok (r, [])
  | c :: t =>
    if r_written r <? zlen (r_buf r) then b <- set (r_buf r) (r_written r) c ;; r_fill (Ring b (r_written r + 1) (r_head r)) t
    else Ok (r, buffer)
  end.
(** ringbuffer.c3:108-112: the second loop. *)
Fixpoint r_over (r : ring A) (buffer : list A) : Res (ring A) :=
  match buffer with
  | [] => Ok r
  | c :: t => b <- set (r_buf r) (r_head r) c ;; r_over (Ring b (r_written r) (usz (r_head r + 1) mod zlen (r_buf r))) t
  end.
(** ringbuffer.c3:100-113 *)
Definition r_write (r : ring A) (buffer : list A) : Res (ring A) :=
  '(r, rest) <- r_fill r buffer ;; r_over r rest.
End Ring.
