(** The compiler's bump allocator. Addresses and sizes are integers; size_t arithmetic wraps modulo 2^64. *)
From Coq Require Import ZArith Bool List Lia.
From Verif Require Import Word.
Import ListNotations.
Open Scope Z_scope.

(** src/utils/vmem.h:9-17 Vmem (POSIX). *)
Record vmem := Vm { v_ptr : Z; v_alloc : Z; v_size : Z }.

(** One attempt to map memory: it worked and gave an address, failed with ENOMEM, EOVERFLOW or EAGAIN, or failed otherwise. *)
Inductive mapping := Mapped (ptr : Z) | Retry | Fatal.

(** src/utils/vmem.c:29-53 mmap_init on POSIX; [os] answers the successive mmap calls. The loop runs at most five
    times; running out of [os] answers is the outcome None, like FATAL_ERROR. *)
Fixpoint mmap_loop (os : list mapping) (size min_size : Z) : option vmem :=
  if size <? min_size then None else
  match os with
  | [] => None
  | Mapped ptr :: r => if ptr =? 0 then mmap_loop r (size / 2) min_size else Some (Vm ptr 0 size)
  | Retry :: r => mmap_loop r (size / 2) min_size
  | Fatal :: _ => None
  end.
Definition mmap_init (os : list mapping) (size : Z) : option vmem :=
  let min_size := size / 16 in
  let min_size := if min_size <? 1 then size else min_size in
  mmap_loop os size min_size.

(** src/utils/vmem.c:81-91 vmem_init, with the limit [max] in megabytes. *)
Definition vmem_init (os : list mapping) (max size_in_mb : Z) : option vmem :=
  mmap_init os (wmul (1024 * 1024) (if max <? size_in_mb then max else size_in_mb)).

(** Outcomes of an allocation: an address, or the compiler stops with an out-of-memory error, or a failed ASSERT. *)
Inductive ares (A : Type) : Type := AOk (a : A) | Exhausted | AAssert.
Arguments AOk {A} a.
Arguments Exhausted {A}.
Arguments AAssert {A}.

(** src/utils/vmem.c:58-79 mmap_allocate (POSIX). *)
Definition vmem_alloc (v : vmem) (to_allocate : Z) : ares (vmem * Z) :=
  let allocated_after := wadd to_allocate (v_alloc v) in
  let ptr := v_ptr v + v_alloc v in
  if v_size v <? allocated_after then Exhausted else AOk (Vm (v_ptr v) allocated_after (v_size v), ptr).

(** src/utils/malloc.c:46-54 calloc_arena. *)
Definition round16 (mem : Z) : Z := Z.land (wadd mem 15) (wnot 15).
Definition calloc_arena (v : vmem) (mem : Z) : ares (vmem * Z) :=
  if mem =? 0 then AAssert else vmem_alloc v (round16 mem).

(** src/utils/malloc.c:37-42 calloc_string. *)
Definition calloc_string (v : vmem) (len : Z) : ares (vmem * Z) :=
  if len =? 0 then AAssert else vmem_alloc v len.

(** src/utils/malloc.c:18-27 memory_init: the first 16 bytes of the arena are taken. *)
Definition arena_start (v : vmem) : ares vmem :=
  match vmem_alloc v 16 with AOk (v', _) => AOk v' | Exhausted => Exhausted | AAssert => AAssert end.

(** Memory: the writes so far, newest first; mapped pages read as zero. *)
Definition memory := list (Z * Z).
Fixpoint peek (m : memory) (a : Z) : Z := match m with [] => 0 | (x, b) :: r => if x =? a then b else peek r a end.
Fixpoint write_bytes (m : memory) (a : Z) (bs : list Z) : memory :=
  match bs with [] => m | b :: r => write_bytes ((a, b) :: m) (a + 1) r end.

(** What clients do: ask for [n] bytes, or write a byte at offset [off] of the [k]th block they were given. *)
Inductive aop := Alloc (n : Z) | Poke (k : nat) (off b : Z).
(** [a_blocks]: the blocks handed out, oldest first, as (address, size asked for). *)
Record astate := ASt { a_vm : vmem; a_blocks : list (Z * Z); a_mem : memory }.

(** One step with a given allocator; a write outside the block named is no step of a correct client (None). *)
Definition astep (alloc : vmem -> Z -> ares (vmem * Z)) (s : astate) (op : aop) : option (ares astate) :=
  match op with
  | Alloc n =>
      match alloc (a_vm s) n with
      | AOk (v, p) => Some (AOk (ASt v (a_blocks s ++ [(p, n)]) (a_mem s)))
      | Exhausted => Some Exhausted
      | AAssert => Some AAssert
      end
  | Poke k off b =>
      match nth_error (a_blocks s) k with
      | Some (p, n) => if (0 <=? off) && (off <? n) then Some (AOk (ASt (a_vm s) (a_blocks s) ((p + off, b) :: a_mem s))) else None
      | None => None
      end
  end.
Fixpoint arun (alloc : vmem -> Z -> ares (vmem * Z)) (s : astate) (ops : list aop) : option (ares astate) :=
  match ops with
  | [] => Some (AOk s)
  | op :: r =>
      match astep alloc s op with
      | Some (AOk s') => arun alloc s' r
      | x => x
      end
  end.

(** src/utils/stringutils.c:313-319 str_copy: allocate len + 1, copy len bytes, leave the end as it is. *)
Definition str_copy (v : vmem) (m : memory) (bytes : list Z) : ares (vmem * memory * Z) :=
  match calloc_string v (Z.of_nat (length bytes) + 1) with
  | AOk (v', p) => AOk (v', write_bytes m p bytes, p)
  | Exhausted => Exhausted
  | AAssert => AAssert
  end.

(** src/utils/malloc.h:8-16 ARENA_DEF: an arena of objects of one type of [size] bytes, identified by 32-bit numbers. *)
Definition obj_calloc (size : Z) (v : vmem) : ares (vmem * Z) := vmem_alloc v size.
Definition obj_id (size : Z) (v : vmem) (ptr : Z) : Z := ((ptr - v_ptr v) / size) mod 2 ^ 32.
Definition obj_ptr (size : Z) (v : vmem) (id : Z) : Z := v_ptr v + id * size.
Fixpoint obj_run (size : Z) (v : vmem) (n : nat) : ares (vmem * list Z) :=
  match n with
  | O => AOk (v, [])
  | S k =>
      match obj_calloc size v with
      | AOk (v1, p) => match obj_run size v1 k with AOk (v2, ps) => AOk (v2, p :: ps) | Exhausted => Exhausted | AAssert => AAssert end
      | Exhausted => Exhausted
      | AAssert => AAssert
      end
  end.
(** src/compiler/compiler.c:73-80: each object arena is created and object 0 is taken at once. *)
Definition obj_start (size : Z) (v : vmem) : ares vmem :=
  match obj_calloc size v with AOk (v1, _) => AOk v1 | Exhausted => Exhausted | AAssert => AAssert end.

(** src/utils/vmem.c:16, 60-70: the Windows part of mmap_allocate: commit whole pages of 0x10000 bytes on demand.
    [committed] and the allocation after which the new commit size is asked. *)
Definition PAGE : Z := 65536.
Definition commit (committed allocated_after : Z) : Z :=
  let blocks_committed := committed / PAGE in
  let end_block := (wadd allocated_after (PAGE - 1)) / PAGE in
  let blocks_to_allocate := wsub end_block blocks_committed in
  if 0 <? blocks_to_allocate then wadd committed (wmul blocks_to_allocate PAGE) else committed.
Fixpoint commit_run (committed allocated : Z) (reqs : list Z) : Z * Z :=
  match reqs with
  | [] => (committed, allocated)
  | r :: rest => let after := wadd r allocated in commit_run (commit committed after) after rest
  end.
