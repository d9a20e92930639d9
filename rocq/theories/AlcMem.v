(** Memory operations of the allocator models (lib/std/core/mem.c3): loads and stores of a [usz], [clear], [copy], [aligned_offset],
    [aligned_pointer], [ptr_is_aligned]. Addresses and [usz] values are integers modulo 2^64; a [usz] is stored in 8 bytes, low byte
    first. [DEFAULT_MEM_ALIGNMENT] (mem.c3:9) is 16 on 64-bit targets. *)
From Coq Require Import ZArith Bool List Lia ZifyBool.
From Verif Require Import Word AlcSpec.
Import ListNotations.
Open Scope Z_scope.

(** Reading a [usz] through a pointer to it. *)
Fixpoint ldn (n : nat) (m : mem) (a : Z) : Z := match n with O => 0 | S k => m a + 256 * ldn k m (a + 1) end.
Definition ld8 (m : mem) (a : Z) : Z := ldn 8 m a.
(** Writing it. *)
Definition st8 (m : mem) (a v : Z) : mem := fun x => if (a <=? x) && (x <? a + 8) then v / 256 ^ (x - a) mod 256 else m x.
(** One byte. *)
Definition st1 (m : mem) (a v : Z) : mem := fun x => if x =? a then v else m x.
(** mem.c3:306-309: [clear]. *)
Definition mclear (m : mem) (a n : Z) : mem := fun x => if (a <=? x) && (x <? a + n) then 0 else m x.
(** mem.c3:329-332: [copy] of [n] bytes, [dst] from [src]. *)
Definition mcopy (m : mem) (dst src n : Z) : mem := fun x => if (dst <=? x) && (x <? dst + n) then m (src + (x - dst)) else m x.
(** mem.c3:283-291: [aligned_offset] and [aligned_pointer]. *)
Definition aligned_offset (off al : Z) : Z := wmul al (wsub (wadd off al) 1 / al).
(** mem.c3:296-299: [ptr_is_aligned], with [x & (al - 1)] for a power of two [al]. *)
Definition ptr_is_aligned (p al : Z) : bool := Z.land p (wsub al 1) =? 0.
(** mem_allocator.c3:48-51: [alignment_for_allocation]. *)
Definition alignment_for (al : Z) : Z := if al <? 16 then 16 else al.
