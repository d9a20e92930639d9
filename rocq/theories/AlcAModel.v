(** Model of lib/std/core/allocators/arena_allocator.c3: [ArenaAllocator]. The header of a block ([ArenaAllocatorHeader], lines 147-151)
    is the 8 bytes before it. [ar_safe] tells whether the standard library is compiled with bounds checks (the default, safe mode): then
    [&self.data[self.used]] stops the program when [used] is the length of the buffer (llvm_codegen_expr.c:694-747). *)
From Coq Require Import ZArith Bool List.
From Verif Require Import Word AlcSpec AlcMem.
Import ListNotations.
Open Scope Z_scope.

(** arena_allocator.c3:11-15, and the memory. *)
Record arena : Type := Ar { ar_safe : bool; ar_base : Z; ar_len : Z; ar_used : Z; ar_mem : mem }.
Definition ar_with (s : arena) (used : Z) (m : mem) : arena := Ar (ar_safe s) (ar_base s) (ar_len s) used m.

(** A write of [n] bytes at [a] stays inside the buffer. *)
Definition ar_inside (s : arena) (a n : Z) : bool := (ar_base s <=? a) && (a + n <=? ar_base s + ar_len s).

(** arena_allocator.c3:22-27: [init]. *)
Definition arena_init (safe : bool) (base len : Z) (m : mem) : arena := Ar safe base len 0 m.

(** [&self.data[self.used]]. *)
Definition ar_top (s : arena) : option Z :=
  if ar_safe s && (ar_len s <=? ar_used s) then None else Some (wadd (ar_base s) (ar_used s)).

(** arena_allocator.c3:85-101: [acquire]. *)
Definition arena_acquire (s : arena) (size : Z) (zero : bool) (align : Z) : outcome arena :=
  let al := alignment_for align in
  if ar_len s <? size then Done s AFail else
  let mem := aligned_offset (wadd (wadd (ar_base s) (ar_used s)) 8) al in
  let e := wadd (wsub mem (ar_base s)) size in
  if ar_len s <? e then Done s AFail else
  let h := wsub mem 8 in
  if negb (ar_inside s h 8) then Wild else
  let m1 := st8 (ar_mem s) h size in
  if zero then (if ar_inside s mem size then Done (ar_with s e (mclear m1 mem size)) (APtr mem) else Wild)
  else Done (ar_with s e m1) (APtr mem).

(** arena_allocator.c3:66-75: [release]. *)
Definition arena_release (s : arena) (p : Z) : outcome arena :=
  if p <? ar_base s then Trap else
  let size := ld8 (ar_mem s) (wsub p 8) in
  match ar_top s with
  | None => Trap
  | Some top => if wadd p size =? top then Done (ar_with s (wsub (ar_used s) (wadd size 8)) (ar_mem s)) ADone else Done s ADone
  end.

(** arena_allocator.c3:112-140: [resize]. *)
Definition arena_resize (s : arena) (p size align : Z) : outcome arena :=
  let al := alignment_for align in
  if p <? ar_base s then Trap else
  if ar_len s <? size then Done s AFail else
  let h := wsub p 8 in
  let old := ld8 (ar_mem s) h in
  match ar_top s with
  | None => Trap
  | Some top =>
    if (top =? wadd p old) && ptr_is_aligned p al then
      if size <=? old then
        if ar_inside s h 8 then Done (ar_with s (wsub (ar_used s) (wsub old size)) (st8 (ar_mem s) h size)) (APtr p) else Wild
      else
        let new_used := wsub (wadd (ar_used s) size) old in
        if ar_len s <? new_used then Done s AFail else
        if ar_inside s h 8 then Done (ar_with s new_used (st8 (ar_mem s) h size)) (APtr p) else Wild
    else
      match arena_acquire s size false al with
      | Done s1 (APtr q) =>
          if ar_inside s1 q old then Done (ar_with s1 (ar_used s1) (mcopy (ar_mem s1) q p old)) (APtr q) else Wild
      | r => r
      end
  end.

(** arena_allocator.c3:54 and 62: [mark], [reset] (also [clear], 32-35, which is [reset] to 0). The contract of [reset] stops the
    program in safe mode when [mark > used]. *)
Definition arena_step (s : arena) (o : op) : outcome arena :=
  match o with
  | Acquire n z al => arena_acquire s n z al
  | Resize p n al => arena_resize s p n al
  | Release p _ => arena_release s p
  | Store p off v => Done (ar_with s (ar_used s) (st1 (ar_mem s) (p + off) v)) ADone
  | Mark => Done s (AMark (ar_used s))
  | Reset k => if ar_safe s && (ar_used s <? k) then Trap else Done (ar_with s k (ar_mem s)) ADone
  end.
